(** * Numbers as texts (std: to_string, str::parse for integers and f64) *)

From Verif Require Import Bytes BytesFacts Json Utils Spec.

(** ** Decimal texts *)
Lemma digit_code d : (d < 10)%N -> digit (ascii_of_N (d + 48)) = Some d.
Proof.
  intros H. unfold digit. rewrite N_ascii_embedding by lia.
  replace (48 <=? d + 48)%N with true by (symmetry; apply N.leb_le; lia).
  replace (d + 48 <=? 57)%N with true by (symmetry; apply N.leb_le; lia). cbn [andb]. f_equal. lia.
Qed.

Fixpoint uacc (acc : N) (d : Decimal.uint) : N :=
  match d with
  | Decimal.Nil => acc
  | Decimal.D0 d => uacc (acc * 10) d
  | Decimal.D1 d => uacc (acc * 10 + 1) d
  | Decimal.D2 d => uacc (acc * 10 + 2) d
  | Decimal.D3 d => uacc (acc * 10 + 3) d
  | Decimal.D4 d => uacc (acc * 10 + 4) d
  | Decimal.D5 d => uacc (acc * 10 + 5) d
  | Decimal.D6 d => uacc (acc * 10 + 6) d
  | Decimal.D7 d => uacc (acc * 10 + 7) d
  | Decimal.D8 d => uacc (acc * 10 + 8) d
  | Decimal.D9 d => uacc (acc * 10 + 9) d
  end%N.

Lemma digits_uint d : forall acc,
  digits_val acc (B (DecimalString.NilEmpty.string_of_uint d)) = Some (uacc acc d).
Proof.
  induction d; intros acc; cbn; auto; rewrite <- IHd; try reflexivity.
  f_equal. lia.
Qed.
Lemma of_uint_acc d : forall p, N.pos (Pos.of_uint_acc d p) = uacc (N.pos p) d.
Proof.
  induction d; intros p; cbn [Pos.of_uint_acc uacc]; auto; rewrite IHd; f_equal; lia.
Qed.
Lemma of_uint_uacc d : N.of_uint d = uacc 0 d.
Proof.
  unfold N.of_uint. induction d; cbn [Pos.of_uint uacc]; auto; rewrite of_uint_acc; auto.
Qed.
Lemma digits_dec n : digits_val 0 (dec_N n) = Some n.
Proof.
  unfold dec_N, DecimalString.NilZero.string_of_uint.
  destruct (N.to_uint n) eqn:E.
  1:{ assert (N.of_uint (N.to_uint n) = 0%N) as X by (rewrite E; auto).
      rewrite DecimalN.Unsigned.of_to in X. subst. reflexivity. }
  all: rewrite <- E, digits_uint, <- of_uint_uacc, DecimalN.Unsigned.of_to; auto.
Qed.
Lemma dec_ne n : dec_N n <> [].
Proof. intros E. pose proof (digits_dec n) as H. unfold dec_N in *.
  unfold DecimalString.NilZero.string_of_uint in *. destruct (N.to_uint n); discriminate E. Qed.
Lemma digits1_dec n : digits1 (dec_N n) = Some n.
Proof. unfold digits1. destruct (dec_N n) eqn:E; [destruct (dec_ne _ E)|]. rewrite <- E. apply digits_dec. Qed.

Definition is_digit (a : ascii) : Prop := exists d, digit a = Some d.
Lemma digits_val_all s : forall acc n, digits_val acc s = Some n -> Forall is_digit s.
Proof.
  induction s as [|a s IH]; intros acc n H; cbn in H; auto.
  destruct (digit a) eqn:E; [|discriminate]. constructor; [exists n0; auto|eauto].
Qed.
Lemma dec_digits n : Forall is_digit (dec_N n).
Proof. eapply digits_val_all. apply digits_dec. Qed.
Lemma digit_not_sign a : is_digit a -> aeqb a plus_sign = false /\ aeqb a minus_sign = false.
Proof.
  intros [d H]. split; apply aeqb_neq; intros ->; discriminate H.
Qed.
Lemma parse_usize_dec n : (n <= u64_max)%N -> parse_usize (dec_N n) = Some n.
Proof.
  intros H. unfold parse_usize, parse_unsigned. pose proof (dec_digits n) as F.
  destruct (dec_N n) as [|c r] eqn:E; [destruct (dec_ne _ E)|].
  apply Forall_cons_iff in F as [F _]. apply digit_not_sign in F as [-> _].
  rewrite <- E, digits1_dec. apply N.leb_le in H. rewrite H. auto.
Qed.
Lemma dec_inj m n : dec_N m = dec_N n -> m = n.
Proof. intros H. pose proof (digits_dec m) as A. rewrite H, digits_dec in A. congruence. Qed.

Lemma take_digits_all s : Forall is_digit s -> take_digits s = (s, []).
Proof.
  induction s as [|a s IH]; intros F; auto. apply Forall_cons_iff in F as [[d H] F]. cbn.
  rewrite H, IH; auto.
Qed.
(** the signed texts *)
Lemma dec_Z_pos p : dec_Z (Z.pos p) = dec_N (N.pos p).
Proof. reflexivity. Qed.
Lemma dec_Z_neg p : dec_Z (Z.neg p) = minus_sign :: dec_N (N.pos p).
Proof. reflexivity. Qed.
Lemma dec_Z_zero : dec_Z 0 = dec_N 0.
Proof. reflexivity. Qed.
Lemma parse_i32_dec z : (i32_min <= z <= i32_max)%Z -> parse_i32 (dec_Z z) = Some z.
Proof.
  intros [H1 H2]. unfold parse_i32.
  assert (forall n, (Z.of_N n = z) ->
    (match match dec_N n with
           | [] => None
           | c :: r => if aeqb c plus_sign then option_map Z.of_N (digits1 r)
                       else if aeqb c minus_sign then option_map (fun n => (- Z.of_N n)%Z) (digits1 r)
                       else option_map Z.of_N (digits1 (dec_N n))
           end with
     | Some z => if (i32_min <=? z)%Z && (z <=? i32_max)%Z then Some z else None
     | None => None
     end) = Some z) as P.
  { intros n <-. pose proof (dec_digits n) as F.
    destruct (dec_N n) as [|c r] eqn:E; [destruct (dec_ne _ E)|].
    apply Forall_cons_iff in F as [F _]. apply digit_not_sign in F as [-> ->].
    rewrite <- E, digits1_dec. cbn [option_map].
    apply Z.leb_le in H1, H2. rewrite H1, H2. auto. }
  destruct z as [|p|p].
  - rewrite dec_Z_zero. apply (P 0%N). auto.
  - rewrite dec_Z_pos. apply (P (N.pos p)). auto.
  - rewrite dec_Z_neg. change (aeqb minus_sign plus_sign) with false. change (aeqb minus_sign minus_sign) with true.
    cbv iota. rewrite digits1_dec. cbn [option_map Z.of_N Z.opp].
    apply Z.leb_le in H1, H2. rewrite H1, H2. auto.
Qed.
Lemma parse_i32_range s z : parse_i32 s = Some z -> (i32_min <= z <= i32_max)%Z.
Proof.
  unfold parse_i32. match goal with |- match ?x with _ => _ end = _ -> _ => destruct x as [y|]; [|discriminate] end.
  destruct ((i32_min <=? y)%Z && (y <=? i32_max)%Z) eqn:E; [|discriminate].
  intros H; inversion H; subst. apply andb_true_iff in E as [E1 E2]. apply Z.leb_le in E1, E2. auto.
Qed.

(** ** Truthiness of decimal texts *)
Lemma lower_digit a : is_digit a -> lower_ascii a = a.
Proof.
  intros [d H]. unfold digit in H. unfold lower_ascii.
  destruct ((48 <=? N_of_ascii a)%N && (N_of_ascii a <=? 57)%N) eqn:E; [|discriminate].
  apply andb_true_iff in E as [_ E]. apply N.leb_le in E.
  replace (65 <=? N_of_ascii a)%N with false by (symmetry; apply N.leb_gt; lia). auto.
Qed.
Lemma f64_gt0_dec n : f64_gt0 (dec_N n) = Some (0 <? n)%N.
Proof.
  pose proof (dec_digits n) as F. pose proof (digits_dec n) as D. pose proof (dec_ne n) as NE.
  unfold f64_gt0. destruct (dec_N n) as [|c r] eqn:E; [congruence|].
  apply Forall_cons_iff in F as F2. destruct F2 as [Fc _].
  destruct (digit_not_sign _ Fc) as [-> ->].
  assert (map lower_ascii (c :: r) = c :: r) as ->.
  { clear - F. induction F as [|a l Ha Hl IH]; auto. cbn. rewrite lower_digit, IH; auto. }
  assert (forall a x, a <> c -> beq (c :: r) (a :: x) = false) as NB.
  { intros a x Na. apply beq_neq. congruence. }
  assert (beq (c :: r) (B "inf") = false) as -> by (apply NB; intros <-; destruct Fc; discriminate).
  assert (beq (c :: r) (B "infinity") = false) as -> by (apply NB; intros <-; destruct Fc; discriminate).
  assert (beq (c :: r) (B "nan") = false) as -> by (apply NB; intros <-; destruct Fc; discriminate).
  cbn [orb]. rewrite take_digits_all by auto. rewrite app_nil_r, D. reflexivity.
Qed.

(** ** Number texts *)
Lemma ascii_digit d : (d < 10)%N -> digit (ascii_of_N (48 + d)) = Some d.
Proof. intro H. unfold digit. rewrite N_ascii_embedding by lia.
  replace (48 <=? 48 + d)%N with true by (symmetry; apply N.leb_le; lia). replace (48 + d <=? 57)%N with true by (symmetry; apply N.leb_le; lia).
  cbn [andb]. f_equal. lia. Qed.
Lemma digit_ascii a d : digit a = Some d -> (d < 10)%N /\ a = ascii_of_N (48 + d).
Proof.
  unfold digit. destruct ((48 <=? N_of_ascii a)%N && (N_of_ascii a <=? 57)%N) eqn:E; [|discriminate]. intro H. injection H as <-.
  apply andb_true_iff in E as [E1 E2]. apply N.leb_le in E1, E2. split; [lia|].
  replace (48 + (N_of_ascii a - 48))%N with (N_of_ascii a) by lia. symmetry. apply ascii_N_embedding.
Qed.
Lemma digits_val_app s t : forall acc, digits_val acc (s ++ t) = match digits_val acc s with Some n => digits_val n t | None => None end.
Proof. induction s as [|a s IH]; intro acc; cbn [app digits_val]; [reflexivity|]. destruct (digit a); [apply IH|reflexivity]. Qed.
Lemma decimal_val s n : decimal s n <-> digits_val 0 s = Some n.
Proof.
  split.
  - induction 1 as [|s n d H IH Hd]; [reflexivity|]. rewrite digits_val_app, IH. cbn [digits_val]. rewrite ascii_digit by exact Hd.
    f_equal. lia.
  - revert n. induction s as [|a s IH] using rev_ind; intros n H; [injection H as <-; constructor|].
    rewrite digits_val_app in H. destruct (digits_val 0 s) as [x|]; [|discriminate]. cbn [digits_val] in H.
    destruct (digit a) as [d|] eqn:E; [|discriminate]. injection H as <-. apply digit_ascii in E as [Hd ->].
    replace (x * 10 + d)%N with (10 * x + d)%N by lia. constructor; [apply IH; reflexivity|exact Hd].
Qed.
Lemma decimal_digits s n : decimal s n -> Forall is_digit s.
Proof. intro H. apply decimal_val in H. eapply digits_val_all. exact H. Qed.
Lemma digits1_iff s n : digits1 s = Some n <-> decimal s n /\ s <> [].
Proof.
  rewrite decimal_val. unfold digits1. destruct s; [split; [discriminate|intros [_ H]; congruence]|].
  split; [intro H; split; [exact H|discriminate]|intros [H _]; exact H].
Qed.
Lemma sign_parts s : exists sg neg t, s = sg ++ t /\ sign sg neg /\
  (forall A (f : bool -> bytes -> A), (match s with
   | c :: r => if aeqb c plus_sign then f false r else if aeqb c minus_sign then f true r else f false s
   | [] => f false s end) = f neg t).
Proof.
  destruct s as [|c r]; [exists [], false, []; repeat split; constructor|].
  destruct (aeqb c plus_sign) eqn:E1; [apply aeqb_eq in E1; subst c; exists (B "+"), false, r; repeat split; constructor|].
  destruct (aeqb c minus_sign) eqn:E2; [apply aeqb_eq in E2; subst c; exists (B "-"), true, r; repeat split; constructor|].
  exists [], false, (c :: r). repeat split; constructor.
Qed.
(** a text that does not begin with a sign *)
Definition unsigned (t : bytes) : Prop := forall c r, t = c :: r -> aeqb c plus_sign = false /\ aeqb c minus_sign = false.
Lemma sign_take sg neg t A (f : bool -> bytes -> A) : sign sg neg -> unsigned t ->
  (match sg ++ t with
   | c :: r => if aeqb c plus_sign then f false r else if aeqb c minus_sign then f true r else f false (sg ++ t)
   | [] => f false (sg ++ t) end) = f neg t.
Proof.
  intros HS HU. destruct HS; cbn [app B list_ascii_of_string].
  - destruct t as [|c r]; [reflexivity|]. destruct (HU c r eq_refl) as [-> ->]. reflexivity.
  - reflexivity.
  - reflexivity.
Qed.
Lemma decimal_unsigned s n t : decimal s n -> (s = [] -> unsigned t) -> unsigned (s ++ t).
Proof.
  intros H HT c r E. destruct s as [|a s]; [apply (HT eq_refl c r E)|]. apply decimal_digits in H. injection E as -> _.
  apply digit_not_sign. apply Forall_inv in H. exact H.
Qed.

Lemma unsigned_iff max s n : parse_unsigned max s = Some n <->
  exists sg ds, (sg = [] \/ sg = B "+") /\ s = sg ++ ds /\ decimal ds n /\ ds <> [] /\ (n <= max)%N.
Proof.
  unfold parse_unsigned. split.
  - destruct s as [|c r]; [discriminate|].
    destruct (aeqb c plus_sign) eqn:E.
    + apply aeqb_eq in E. subst c. destruct (digits1 r) as [x|] eqn:E1; [|discriminate].
      destruct (N.leb_spec x max); [|discriminate]. intro H1. injection H1 as <-. apply digits1_iff in E1 as [E1 E2].
      exists (B "+"), r. auto.
    + destruct (digits1 (c :: r)) as [x|] eqn:E1; [|discriminate].
      destruct (N.leb_spec x max); [|discriminate]. intro H1. injection H1 as <-. apply digits1_iff in E1 as [E1 E2].
      exists [], (c :: r). auto.
  - intros (sg & ds & HS & -> & HD & HN & HM). pose proof (proj2 (digits1_iff ds n) (conj HD HN)) as E.
    destruct HS as [->| ->].
    + cbn [app]. destruct ds as [|c r]; [congruence|]. pose proof (decimal_digits _ _ HD) as F. apply Forall_inv in F.
      apply digit_not_sign in F as [-> _]. rewrite E. rewrite (proj2 (N.leb_le _ _) HM). reflexivity.
    + cbn [app B list_ascii_of_string]. change (aeqb "+" plus_sign) with true. cbv iota. rewrite E, (proj2 (N.leb_le _ _) HM). reflexivity.
Qed.
Lemma take_digits_parts s : s = fst (take_digits s) ++ snd (take_digits s) /\ Forall is_digit (fst (take_digits s)) /\
  (forall c r, snd (take_digits s) = c :: r -> digit c = None).
Proof.
  induction s as [|a s IH]; cbn [take_digits fst snd app]; [repeat split; [constructor|discriminate]|].
  destruct (digit a) as [d|] eqn:E.
  - destruct (take_digits s) as [x y]. cbn [fst snd] in *. destruct IH as (H1 & H2 & H3). repeat split; [cbn; congruence| |exact H3].
    constructor; [exists d; exact E|exact H2].
  - cbn [fst snd app]. repeat split; [constructor|]. intros c r H. congruence.
Qed.
Lemma take_digits_app x y : Forall is_digit x -> (forall c r, y = c :: r -> digit c = None) -> take_digits (x ++ y) = (x, y).
Proof.
  intros HX HY. induction HX as [|a x [d Hd] _ IH]; cbn [app take_digits].
  - destruct y as [|c r]; [reflexivity|]. cbn [take_digits]. rewrite (HY c r eq_refl). reflexivity.
  - rewrite Hd, IH. reflexivity.
Qed.
Lemma digits_have_value s : Forall is_digit s -> exists n, decimal s n.
Proof.
  intro H. assert (forall acc, exists n, digits_val acc s = Some n) as X.
  { induction H as [|a s [d Hd] _ IH]; intro acc; cbn [digits_val]; [eexists; reflexivity|]. rewrite Hd. apply IH. }
  destruct (X 0%N) as [n Hn]. exists n. apply decimal_val. exact Hn.
Qed.
Lemma not_tiny_bool m k : not_tiny m k <-> (if (0 <=? k)%Z then (0 <? m)%N else (10 ^ (- k) <? Z.of_N m * 2 ^ 1075)%Z) = true.
Proof.
  unfold not_tiny. destruct (Z.leb_spec 0 k) as [L|L].
  - rewrite Z.max_l by lia. rewrite Z.max_r by lia. change (10 ^ 0)%Z with 1%Z. rewrite N.ltb_lt.
    assert (0 < 10 ^ k)%Z as P1 by (apply Z.pow_pos_nonneg; lia). assert (1 < 2 ^ 1075)%Z as P2 by (apply Z.pow_gt_1; lia).
    generalize dependent (10 ^ k)%Z. intros u P1. generalize dependent (2 ^ 1075)%Z. intros w P2. split; intro H.
    + destruct m; [cbn in H; lia|lia].
    + assert (1 <= Z.of_N m)%Z as M by lia. nia.
  - rewrite Z.max_r by lia. rewrite Z.max_l by lia. change (10 ^ 0)%Z with 1%Z. rewrite Z.mul_1_r. rewrite Z.ltb_lt. reflexivity.
Qed.
Lemma lower_like w : Forall (fun a => (97 <= N_of_ascii a <= 122)%N) w -> forall t, word_like w t <-> map lower_ascii t = w.
Proof.
  intro HW. assert (forall a b, (97 <= N_of_ascii a <= 122)%N -> (b = a \/ (N_of_ascii b + 32 = N_of_ascii a)%N) <-> lower_ascii b = a) as X.
  { intros a b Ha. unfold lower_ascii. destruct ((65 <=? N_of_ascii b)%N && (N_of_ascii b <=? 90)%N) eqn:E.
    - apply andb_true_iff in E as [E1 E2]. apply N.leb_le in E1, E2. split.
      + intros [->|H]; [lia|]. rewrite H. apply ascii_N_embedding.
      + intros <-. right. rewrite N_ascii_embedding by lia. reflexivity.
    - split; [|auto]. intros [H|H]; [exact H|]. exfalso. apply andb_false_iff in E as [E|E]; apply N.leb_gt in E; lia. }
  induction HW as [|a w Ha HW IH]; intro t.
  - destruct t; split; intro H; try constructor; try discriminate; inversion H.
  - destruct t as [|b t]; [split; [intro H; inversion H|discriminate]|]. cbn [map]. unfold word_like in *. split.
    + intro H. inversion H as [|? ? ? ? H1 H2]; subst. apply (X a b Ha) in H1. apply IH in H2. congruence.
    + intro H. injection H as H1 H2. constructor; [apply X; assumption|apply IH; exact H2].
Qed.

Definition int_of (s : bytes) : option Z :=
  match s with
  | c :: r => if aeqb c plus_sign then option_map Z.of_N (digits1 r)
              else if aeqb c minus_sign then option_map (fun n => (- Z.of_N n)%Z) (digits1 r)
              else option_map Z.of_N (digits1 s)
  | [] => None
  end.
Lemma int_iff s z : int_of s = Some z <-> integer_text s z.
Proof.
  unfold int_of. split.
  - destruct (sign_parts s) as (sg & neg & t & E & HS & HF).
    pose (f := fun (neg : bool) t => option_map (fun n => if neg then (- Z.of_N n)%Z else Z.of_N n) (digits1 t)).
    assert (match s with
           | [] => None
           | c :: r => if aeqb c plus_sign then option_map Z.of_N (digits1 r)
                       else if aeqb c minus_sign then option_map (fun n => (- Z.of_N n)%Z) (digits1 r)
                       else option_map Z.of_N (digits1 s) end = f neg t) as ->.
    { rewrite <- HF. unfold f. destruct s; reflexivity. }
    unfold f. destruct (digits1 t) as [n|] eqn:ED; cbn [option_map]; [|discriminate].
    intro H. injection H as <-. apply digits1_iff in ED as [ED EN]. subst s. constructor; assumption.
  - intros [sg neg ds n HS HD HN].
    pose (f := fun (neg : bool) t => option_map (fun n => if neg then (- Z.of_N n)%Z else Z.of_N n) (digits1 t)).
    assert (match sg ++ ds with
           | [] => None
           | c :: r => if aeqb c plus_sign then option_map Z.of_N (digits1 r)
                       else if aeqb c minus_sign then option_map (fun n => (- Z.of_N n)%Z) (digits1 r)
                       else option_map Z.of_N (digits1 (sg ++ ds)) end = f neg ds) as ->.
    { rewrite <- (sign_take sg neg ds _ f HS).
      - unfold f. destruct (sg ++ ds); reflexivity.
      - rewrite <- (app_nil_r ds). eapply decimal_unsigned; [exact HD|congruence]. }
    unfold f. rewrite (proj2 (digits1_iff ds n) (conj HD HN)). reflexivity.
Qed.
Definition exp_of (s : bytes) : option Z :=
  match s with
  | [] => Some 0%Z
  | c :: r => if aeqb c "e"%char || aeqb c "E"%char then int_of r else None
  end.
Lemma exp_iff s z : exp_of s = Some z <-> exponent s z.
Proof.
  split.
  - destruct s as [|c r]; cbn [exp_of]; [intro H; injection H as <-; constructor|].
    destruct (aeqb c "e"%char || aeqb c "E"%char) eqn:E; [|discriminate]. intro H. apply int_iff in H.
    constructor; [|exact H]. apply orb_true_iff in E as [E|E]; apply aeqb_eq in E; auto.
  - destruct 1 as [|c t z [->| ->] H]; [reflexivity| |]; apply int_iff in H; exact H.
Qed.
Definition point_of (r1 : bytes) : bytes * bytes :=
  match r1 with
  | c :: r => if aeqb c "."%char then take_digits r else ([], r1)
  | [] => ([], [])
  end.
Definition float_of (neg : bool) (t : bytes) : option bool :=
  let low := map lower_ascii t in
  if beq low (B "inf") || beq low (B "infinity") then Some (negb neg)
  else if beq low (B "nan") then Some false
  else
    let '(ip, r1) := take_digits t in
    let '(fp, r2) := point_of r1 in
    if is_empty ip && is_empty fp then None
    else
      let mant := match digits_val 0 (ip ++ fp) with Some n => n | None => 0%N end in
      match exp_of r2 with
      | Some e => Some (negb neg && (if (0 <=? e - Z.of_nat (length fp))%Z then (0 <? mant)%N
                 else (10 ^ (- (e - Z.of_nat (length fp))) <? Z.of_N mant * 2 ^ 1075)%Z))
      | None => None
      end.
Lemma float_body s : f64_gt0 s = match s with
   | c :: r => if aeqb c plus_sign then float_of false r else if aeqb c minus_sign then float_of true r else float_of false s
   | [] => float_of false s end.
Proof.
  assert (forall neg t, (let low := map lower_ascii t in
  if beq low (B "inf") || beq low (B "infinity") then Some (negb neg)
  else if beq low (B "nan") then Some false
  else
    let '(ip, r1) := take_digits t in
    let '(fp, r2) := match r1 with
                     | c :: r => if aeqb c "."%char then take_digits r else ([], r1)
                     | [] => ([], [])
                     end in
    if is_empty ip && is_empty fp then None
    else
      let mant := match digits_val 0 (ip ++ fp) with Some n => n | None => 0%N end in
      let fl := Z.of_nat (length fp) in
      let fin (e : Z) :=
        let k := (e - fl)%Z in
        Some (negb neg &&
              (if (0 <=? k)%Z then (0 <? mant)%N
               else (10 ^ (- k) <? Z.of_N mant * 2 ^ 1075)%Z)) in
      match r2 with
      | [] => fin 0%Z
      | c :: r =>
          if aeqb c "e"%char || aeqb c "E"%char then
            match r with
            | d :: r' =>
                if aeqb d plus_sign then
                  match digits1 r' with Some n => fin (Z.of_N n) | None => None end
                else if aeqb d minus_sign then
                  match digits1 r' with Some n => fin (- Z.of_N n)%Z | None => None end
                else match digits1 r with Some n => fin (Z.of_N n) | None => None end
            | [] => None
            end
          else None
      end) = float_of neg t) as X.
  { intros neg t. unfold float_of, point_of. cbv zeta. destruct (_ || _); [reflexivity|]. destruct (beq _ _); [reflexivity|].
    destruct (take_digits t) as [ip r1]. 
    match goal with |- (let '(_,_) := ?m in _) = _ => destruct m as [fp r2] end.
    destruct (is_empty ip && is_empty fp); [reflexivity|].
    destruct r2 as [|c r]; [reflexivity|]. cbn [exp_of]. destruct (aeqb c "e" || aeqb c "E"); [|reflexivity].
    destruct r as [|d r']; [reflexivity|]. unfold int_of.
    destruct (aeqb d plus_sign); [destruct (digits1 r'); reflexivity|].
    destruct (aeqb d minus_sign); [destruct (digits1 r'); reflexivity|].
    destruct (digits1 (d :: r')); reflexivity. }
  unfold f64_gt0. destruct s as [|c r]; [apply X|]. destruct (aeqb c plus_sign); [apply X|]. destruct (aeqb c minus_sign); apply X.
Qed.
Lemma letters w : Forall (fun a => (97 <= N_of_ascii a <= 122)%N) w ->
  w <> [] -> forall t, word_like w t -> unsigned t.
Proof.
  intros HW HN t HT c r ->. destruct w as [|a w]; [congruence|]. inversion HT as [|? ? ? ? H1 _]; subst. apply Forall_inv in HW.
  assert (N_of_ascii c <> 43 /\ N_of_ascii c <> 45)%N as [N1 N2] by (destruct H1 as [->|H1]; lia).
  split; apply aeqb_neq; intros ->; [apply N1|apply N2]; reflexivity.
Qed.
Lemma word_letters : Forall (fun a => (97 <= N_of_ascii a <= 122)%N) (B "infinity") /\ Forall (fun a => (97 <= N_of_ascii a <= 122)%N) (B "inf") /\
  Forall (fun a => (97 <= N_of_ascii a <= 122)%N) (B "nan").
Proof. repeat split; repeat constructor; vm_compute; discriminate. Qed.
Lemma eq_bool p q (P : Prop) : (p = true <-> P) -> (q = true <-> P) -> p = q.
Proof. intros H1 H2. destruct p, q; try reflexivity; [symmetry; apply H2, H1; reflexivity|apply H1, H2; reflexivity]. Qed.
Lemma positive_iff neg m k : negb neg && (if (0 <=? k)%Z then (0 <? m)%N else (10 ^ (- k) <? Z.of_N m * 2 ^ 1075)%Z) = true <->
  neg = false /\ not_tiny m k.
Proof. rewrite andb_true_iff, <- not_tiny_bool, negb_true_iff. reflexivity. Qed.
Lemma exponent_head ex e c r : exponent ex e -> ex = c :: r -> digit c = None /\ aeqb c "." = false.
Proof. intros H E. destruct H as [|c' t z [->| ->] H]; [discriminate| |]; injection E as <- _; split; reflexivity. Qed.
Lemma mantissa_parts ma m f ex e : mantissa ma m f -> exponent ex e -> exists ip r1 fp,
  take_digits (ma ++ ex) = (ip, r1) /\ point_of r1 = (fp, ex) /\ is_empty ip && is_empty fp = false /\ digits_val 0 (ip ++ fp) = Some m /\ length fp = f.
Proof.
  intros HM HE. destruct HM as [ds n HD HN|a b n HD HN].
  - exists ds, ex, []. rewrite take_digits_app; [|exact (decimal_digits _ _ HD)|intros c r E; exact (proj1 (exponent_head _ _ _ _ HE E))].
    repeat split.
    + destruct ex as [|c r]; [reflexivity|]. cbn [point_of]. rewrite (proj2 (exponent_head _ _ _ _ HE eq_refl)). reflexivity.
    + destruct ds; [congruence|reflexivity].
    + rewrite app_nil_r. apply decimal_val. exact HD.
  - pose proof (decimal_digits _ _ HD) as F. apply Forall_app in F as [FA FB].
    exists a, (B "." ++ b ++ ex), b. rewrite <- !app_assoc. rewrite take_digits_app; [|exact FA|].
    2: { intros c r E. injection E as <- _. reflexivity. }
    repeat split.
    + change (take_digits (b ++ ex) = (b, ex)). apply take_digits_app; [exact FB|intros c r E; exact (proj1 (exponent_head _ _ _ _ HE E))].
    + destruct a; [destruct b; [cbn in HN; congruence|reflexivity]|reflexivity].
    + apply decimal_val. exact HD.
Qed.
Lemma mantissa_head ma m f : mantissa ma m f -> exists c r, ma = c :: r /\ (is_digit c \/ c = "."%char).
Proof.
  destruct 1 as [ds n HD HN|a b n HD HN].
  - destruct ds as [|c r]; [congruence|]. apply decimal_digits, Forall_inv in HD. eauto 6.
  - destruct a as [|c r]; [exists "."%char, b; auto|]. apply decimal_digits, Forall_inv in HD. exists c, (r ++ B "." ++ b). auto.
Qed.
Lemma float_iff s p : f64_gt0 s = Some p <-> float_text s p.
Proof.
  destruct word_letters as (LI & LJ & LN).
  rewrite float_body. split.
  - destruct (sign_parts s) as (sg & neg & t & -> & HS & HF). rewrite (HF _ float_of). unfold float_of. cbv zeta.
    destruct (beq (map lower_ascii t) (B "inf") || beq (map lower_ascii t) (B "infinity")) eqn:E1.
    { intro H. injection H as <-. eapply fl_infinite; [exact HS|]. apply orb_true_iff in E1 as [E1|E1]; [left|right]; apply lower_like; auto; apply beq_eq; exact E1. }
    destruct (beq (map lower_ascii t) (B "nan")) eqn:E2.
    { intro H. injection H as <-. eapply fl_nan; [exact HS|]. apply lower_like; auto. apply beq_eq. exact E2. }
    destruct (take_digits_parts t) as (T1 & T2 & T3). destruct (take_digits t) as [ip r1] eqn:ET. cbn [fst snd] in *.
    destruct (point_of r1) as [fp r2] eqn:EP. destruct (is_empty ip && is_empty fp) eqn:EE; [discriminate|].
    destruct (exp_of r2) as [e|] eqn:EX; [|discriminate]. apply exp_iff in EX. intro H.
    assert (exists ma m, t = ma ++ r2 /\ mantissa ma m (length fp) /\ digits_val 0 (ip ++ fp) = Some m) as (ma & m & -> & HM & HV).
    { assert (forall m, r1 = r2 -> fp = [] -> decimal (ip ++ fp) m -> exists ma m, t = ma ++ r2 /\ mantissa ma m (length fp) /\ digits_val 0 (ip ++ fp) = Some m) as A.
      { intros m -> -> HD. rewrite app_nil_r in *. exists ip, m. split; [exact T1|]. split; [constructor; [exact HD|]|apply decimal_val; exact HD].
        intros ->. discriminate EE. }
      unfold point_of in EP. destruct r1 as [|c r].
      - injection EP as <- <-. destruct (digits_have_value (ip ++ [])) as [m Hm]; [rewrite app_nil_r; exact T2|]. eapply A; eauto.
      - destruct (aeqb c ".") eqn:EC.
        + apply aeqb_eq in EC. subst c. destruct (take_digits_parts r) as (R1 & R2 & _). rewrite EP in R1, R2. cbn [fst snd] in *.
          destruct (digits_have_value (ip ++ fp)) as [m Hm]; [apply Forall_app; auto|].
          exists (ip ++ B "." ++ fp), m. split; [rewrite T1, R1, <- !app_assoc; reflexivity|]. split; [constructor; [exact Hm|]|apply decimal_val; exact Hm].
          intros E. apply app_eq_nil in E as [-> ->]. discriminate EE.
        + injection EP as <- <-. destruct (digits_have_value (ip ++ [])) as [m Hm]; [rewrite app_nil_r; exact T2|]. eapply A; eauto. }
    rewrite HV in H. eapply fl_number; [exact HS|exact HM|exact EX|]. injection H as <-. apply positive_iff.
  - assert (forall sg neg t, sign sg neg -> unsigned t -> match sg ++ t with
   | c :: r => if aeqb c plus_sign then float_of false r else if aeqb c minus_sign then float_of true r else float_of false (sg ++ t)
   | [] => float_of false (sg ++ t) end = float_of neg t) as X.
    { intros sg neg t HS HU. exact (sign_take sg neg t _ float_of HS HU). }
    destruct 1 as [sg neg ma m f ex e p HS HM HE HP|sg neg w HS HW|sg neg w HS HW].
    + destruct (mantissa_head _ _ _ HM) as (c & r & EM & HC).
      assert (unsigned (ma ++ ex)) as HU.
      { intros c' r' E. rewrite EM in E. injection E as <- _. destruct HC as [HC| ->]; [apply digit_not_sign; exact HC|split; reflexivity]. }
      rewrite (X sg neg _ HS HU).
      unfold float_of. cbv zeta.
      assert (map lower_ascii (ma ++ ex) = c :: map lower_ascii (r ++ ex)) as ->.
      { rewrite EM. cbn [app map]. f_equal. destruct HC as [HC| ->]; [apply lower_digit; exact HC|reflexivity]. }
      assert (forall a x, a <> c -> beq (c :: map lower_ascii (r ++ ex)) (a :: x) = false) as NB.
      { intros a x Na. apply beq_neq. congruence. }
      assert (forall a, digit a = None -> a <> "."%char -> a <> c) as NC.
      { intros a H1 H2 ->. destruct HC as [[d HC]| ->]; congruence. }
      unfold B. cbn [list_ascii_of_string]. assert ("i"%char <> c /\ "n"%char <> c) as [NI NN] by (split; apply NC; (reflexivity || discriminate)).
      rewrite !(NB _ _ NI), (NB _ _ NN). cbn [orb].
      destruct (mantissa_parts _ _ _ _ _ HM HE) as (ip & r1 & fp & -> & -> & -> & -> & ->).
      apply exp_iff in HE. rewrite HE. f_equal. eapply eq_bool; [apply positive_iff|exact HP].
    + assert (unsigned w) as HU by (destruct HW as [HW|HW]; (eapply letters; [| |exact HW]; (assumption || discriminate))). rewrite (X sg neg _ HS HU).
      unfold float_of. cbv zeta. destruct HW as [HW|HW]; apply lower_like in HW; auto; rewrite HW; reflexivity.
    + assert (unsigned w) as HU by (eapply letters; [| |exact HW]; (assumption || discriminate)). rewrite (X sg neg _ HS HU).
      unfold float_of. cbv zeta. apply lower_like in HW; auto. rewrite HW. reflexivity.
Qed.

Lemma usize_iff s n : parse_usize s = Some n <-> nat64 s n.
Proof. exact (unsigned_iff u64_max s n). Qed.
Lemma u64_iff s n : parse_u64 s = Some n <-> nat64 s n.
Proof. exact (unsigned_iff u64_max s n). Qed.
Lemma i32_iff s z : parse_i32 s = Some z <-> int32 s z.
Proof.
  unfold int32. rewrite <- int_iff. change (parse_i32 s) with (match int_of s with
    | Some z => if (i32_min <=? z)%Z && (z <=? i32_max)%Z then Some z else None | None => None end).
  change (- 2 ^ 31)%Z with i32_min. change (2 ^ 31 - 1)%Z with i32_max.
  destruct (int_of s) as [x|]; [|split; [discriminate|intros [H _]; discriminate]].
  destruct ((i32_min <=? x)%Z && (x <=? i32_max)%Z) eqn:E.
  - apply andb_true_iff in E as [E1 E2]. apply Z.leb_le in E1, E2. split; [intro H; injection H as <-; auto|intros [H _]; exact H].
  - split; [discriminate|]. intros [H [H1 H2]]. injection H as ->. apply andb_false_iff in E as [E|E]; apply Z.leb_gt in E; lia.
Qed.
Lemma i32_none s : parse_i32 s = None <-> forall z, ~ int32 s z.
Proof.
  split.
  - intros H z HZ. apply i32_iff in HZ. congruence.
  - intro H. destruct (parse_i32 s) as [z|] eqn:E; [|reflexivity]. apply i32_iff in E. destruct (H z E).
Qed.
Lemma float_none s : (forall p, ~ float_text s p) -> f64_gt0 s = None.
Proof. intro H. destruct (f64_gt0 s) as [p|] eqn:E; [|reflexivity]. apply float_iff in E. destruct (H p E). Qed.
