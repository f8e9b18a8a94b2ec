(** * Reading, adding and printing numbers of 64 bits *)

From Verif Require Import Bytes BytesFacts State Spec Float64 SpecDouble NumberProofs WordProofs.
Open Scope N_scope.
Opaque N.pow.

Lemma pow_pos b k : b <> 0 -> 0 < b ^ k.
Proof. intro H. apply N.neq_0_lt_0. apply N.pow_nonzero. exact H. Qed.
Lemma p2 k : 0 < 2 ^ k. Proof. apply pow_pos. discriminate. Qed.
Lemma p10 k : 0 < 10 ^ k. Proof. apply pow_pos. discriminate. Qed.
Lemma p53 : 2 ^ 53 = 2 * 2 ^ 52. Proof. rewrite <- N.pow_succ_r'. reflexivity. Qed.

(** ** Rounding *)
Lemma round_exp n d : d <> 0 -> let k := N.log2 (n / d) - 52 in let q := n / (d * 2 ^ k) in q < 2 ^ 53 /\ (k = 0 \/ 2 ^ 52 <= q).
Proof.
  intros HD k q. unfold q. pose proof (p2 k) as K. rewrite <- N.div_div by lia. unfold k in *. set (Q := n / d) in *.
  destruct (N.eq_dec Q 0) as [->|NZ].
  - change (N.log2 0 - 52) with 0. rewrite N.pow_0_r, N.div_1_r. split; [apply p2|left; reflexivity].
  - pose proof (N.log2_spec Q ltac:(lia)) as [L1 L2]. set (l := N.log2 Q) in *. destruct (N.le_gt_cases l 52) as [L|G].
    + replace (l - 52) with 0 by lia. rewrite N.pow_0_r, N.div_1_r. split; [|left; reflexivity].
      apply N.lt_le_trans with (1 := L2). apply N.pow_le_mono_r; [discriminate|lia].
    + split; [|right].
      * apply N.div_lt_upper_bound; [lia|]. rewrite <- N.pow_add_r. replace (l - 52 + 53) with (N.succ l) by lia. exact L2.
      * apply N.div_le_lower_bound; [lia|]. rewrite <- N.pow_add_r. replace (l - 52 + 52) with l by lia. exact L1.
Qed.
Lemma between w q k : double w -> q < 2 ^ 53 -> k = 0 \/ 2 ^ 52 <= q -> w <= q * 2 ^ k \/ (q + 1) * 2 ^ k <= w.
Proof.
  intros (m & k' & HM & ->) HQ HK. destruct (N.le_gt_cases k k') as [L|G].
  - replace (2 ^ k') with (2 ^ (k' - k) * 2 ^ k) by (rewrite <- N.pow_add_r; f_equal; lia). rewrite N.mul_assoc. set (M := m * 2 ^ (k' - k)).
    destruct (N.le_gt_cases M q) as [A|A]; [left; apply N.mul_le_mono_r; exact A|right; apply N.mul_le_mono_r; lia].
  - left. destruct HK as [->|HK]; [lia|]. replace k with (N.succ (k - 1)) by lia. rewrite N.pow_succ_r'.
    assert (2 ^ k' <= 2 ^ (k - 1)) as A by (apply N.pow_le_mono_r; [discriminate|lia]).
    apply N.le_trans with (2 ^ 53 * 2 ^ (k - 1)); [apply N.mul_le_mono; lia|]. rewrite p53. rewrite N.mul_assoc, (N.mul_comm q 2). apply N.mul_le_mono_r. lia.
Qed.
Lemma gap_low n d v : v * d <= n -> gap n d v = n - v * d.
Proof. unfold gap. lia. Qed.
Lemma gap_high n d v : n <= v * d -> gap n d v = v * d - n.
Proof. unfold gap. lia. Qed.
Lemma rounds_round n d : d <> 0 -> rounds n d (round_to n d).
Proof.
  intro HD. unfold round_to. destruct (round_exp n d HD) as [HQ HK]. set (k := N.log2 (n / d) - 52) in *. set (step := d * 2 ^ k) in *. set (q := n / step) in *.
  pose proof (p2 k) as PK. assert (step <> 0) as HS by (unfold step; lia).
  pose proof (N.div_mod n step HS) as DM. pose proof (N.mod_lt n step HS) as RL. fold q in DM. set (r := n mod step) in *.
  assert (q * 2 ^ k * d = step * q) as EL by (unfold step; lia).
  assert ((q + 1) * 2 ^ k * d = step * q + step) as EH by (unfold step; lia).
  assert (forall w, double w -> w <= q * 2 ^ k \/ (q + 1) * 2 ^ k <= w) as HB by (intros w HW; apply between; assumption).
  assert (gap n d (q * 2 ^ k) = r) as GL by (rewrite gap_low; lia).
  assert (gap n d ((q + 1) * 2 ^ k) = step - r) as GH by (rewrite gap_high; lia).
  assert (forall w, w <= q * 2 ^ k -> gap n d w >= r /\ (w <> q * 2 ^ k -> gap n d w > r)) as WL.
  { intros w H. assert (w * d <= q * 2 ^ k * d) as A by (apply N.mul_le_mono_r; exact H). rewrite gap_low by lia. split; [lia|].
    intro N. assert ((w + 1) * d <= q * 2 ^ k * d) as A2 by (apply N.mul_le_mono_r; lia). lia. }
  assert (forall w, (q + 1) * 2 ^ k <= w -> gap n d w >= step - r /\ (w <> (q + 1) * 2 ^ k -> gap n d w > step - r)) as WH.
  { intros w H. assert ((q + 1) * 2 ^ k * d <= w * d) as A by (apply N.mul_le_mono_r; exact H). rewrite gap_high by lia. split; [lia|].
    intro N. assert (((q + 1) * 2 ^ k + 1) * d <= w * d) as A2 by (apply N.mul_le_mono_r; lia). lia. }
  destruct ((step <? 2 * r) || ((step =? 2 * r) && N.odd q)) eqn:EC.
  - split.
    { destruct (N.eq_dec (q + 1) (2 ^ 53)) as [E|NE].
      - exists (2 ^ 52), (k + 1). split; [rewrite p53; pose proof (p2 52); lia|]. rewrite E, p53, N.add_1_r, N.pow_succ_r'. lia.
      - exists (q + 1), k. split; [lia|reflexivity]. }
    intros w HW NW. rewrite GH. apply orb_true_iff in EC as [EC|EC].
    + apply N.ltb_lt in EC. left. destruct (HB w HW) as [A|A]; [destruct (WL w A); lia|destruct (WH w A) as [_ G]; specialize (G NW); lia].
    + apply andb_true_iff in EC as [E1 E2]. apply N.eqb_eq in E1. apply N.odd_spec in E2 as [m Em].
      assert (even_double ((q + 1) * 2 ^ k)) as EV.
      { destruct (N.eq_dec (q + 1) (2 ^ 53)) as [E|NE].
        - exists (2 ^ 51), (k + 1). assert (2 * 2 ^ 51 = 2 ^ 52) as E2 by (rewrite <- N.pow_succ_r'; reflexivity). rewrite E2.
          split; [rewrite p53; pose proof (p2 52); lia|]. split; [rewrite E, p53, N.add_1_r, N.pow_succ_r'; lia|right; lia].
        - exists (m + 1), k. split; [lia|]. split; [replace (2 * (m + 1)) with (q + 1) by lia; reflexivity|]. destruct HK; [left; assumption|right; lia]. }
      destruct (HB w HW) as [A|A]; [destruct (WL w A)|destruct (WH w A)].
      * assert (step - r < gap n d w \/ step - r = gap n d w) as [G|G] by lia; [left; exact G|right; split; [exact G|exact EV]].
      * left. specialize (H0 NW). lia.
  - apply orb_false_iff in EC as [E1 E2]. apply N.ltb_ge in E1. split; [exists q, k; split; [exact HQ|reflexivity]|].
    intros w HW NW. rewrite GL. destruct (HB w HW) as [A|A].
    + left. destruct (WL w A) as [_ G]. specialize (G NW). lia.
    + destruct (WH w A) as [G _]. destruct (N.eq_dec step (2 * r)) as [E|NE].
      * rewrite (proj2 (N.eqb_eq _ _) E) in E2. cbn [andb] in E2.
        assert (N.Even q) as [m Em] by (apply N.even_spec; rewrite <- N.negb_odd, E2; reflexivity).
        assert (even_double (q * 2 ^ k)) as EV.
        { exists m, k. split; [lia|]. split; [rewrite Em; reflexivity|]. destruct HK; [left; assumption|right; lia]. }
        assert (r < gap n d w \/ r = gap n d w) as [H|H] by lia; [left; exact H|right; split; [exact H|exact EV]].
      * left. lia.
Qed.
Lemma even_gap v w : even_double v -> even_double w -> v < w -> exists u, double u /\ v < u < w.
Proof.
  intros (m & k & HM & EV & HK) (m' & k' & HM' & EW & HK') HL. exists ((2 * m + 1) * 2 ^ k). pose proof (p2 k) as PK.
  split; [exists (2 * m + 1), k; split; [|reflexivity]|split; [lia|]].
  - rewrite p53 in *. lia.
  - destruct (N.le_gt_cases k k') as [L|G].
    + subst v w. replace (2 ^ k') with (2 ^ (k' - k) * 2 ^ k) in * by (rewrite <- N.pow_add_r; f_equal; lia). rewrite N.mul_assoc in *.
      set (M := m' * 2 ^ (k' - k)). replace (2 * m' * 2 ^ (k' - k)) with (2 * M) in * by (unfold M; lia).
      assert (m < M) as A. { destruct (N.lt_ge_cases m M) as [A|A]; [exact A|exfalso]. assert (2 * M * 2 ^ k <= 2 * m * 2 ^ k) by (apply N.mul_le_mono_r; lia). lia. }
      apply N.mul_lt_mono_pos_r; [exact PK|lia].
    + exfalso. destruct HK as [->|HK]; [lia|]. replace k with (N.succ (k - 1)) in EV by lia. rewrite N.pow_succ_r' in EV.
      assert (2 ^ k' <= 2 ^ (k - 1)) as A by (apply N.pow_le_mono_r; [discriminate|lia]).
      assert (w <= 2 ^ 53 * 2 ^ (k - 1)) as C by (rewrite EW; apply N.mul_le_mono; lia).
      assert (2 ^ 52 * (2 * 2 ^ (k - 1)) <= v) as D by (rewrite EV; apply N.mul_le_mono_r; exact HK). rewrite p53 in C. lia.
Qed.
Lemma rounds_lt n d v w : d <> 0 -> rounds n d v -> rounds n d w -> v < w -> False.
Proof.
  intros HD [DV HV] [DW HW] L. destruct (HV w DW ltac:(lia)) as [A|[A E1]]; destruct (HW v DV ltac:(lia)) as [C|[C E2]]; try lia.
  destruct (even_gap v w E1 E2 L) as (u & DU & L1 & L2).
  assert (v * d < u * d) as M1 by (apply N.mul_lt_mono_pos_r; lia). assert (u * d < w * d) as M2 by (apply N.mul_lt_mono_pos_r; lia).
  unfold gap in *. destruct (HV u DU ltac:(lia)) as [G|[G _]]; lia.
Qed.
Lemma rounds_unique n d v w : d <> 0 -> rounds n d v -> rounds n d w -> v = w.
Proof.
  intros HD HV HW. destruct (N.lt_trichotomy v w) as [L|[E|L]]; [exfalso; eapply rounds_lt; [exact HD|exact HV|exact HW|exact L]|exact E|
    exfalso; eapply rounds_lt; [exact HD|exact HW|exact HV|exact L]].
Qed.
Lemma rounds_iff n d v : d <> 0 -> rounds n d v <-> v = round_to n d.
Proof.
  intro HD. split; [intro H; eapply rounds_unique; [exact HD|exact H|apply rounds_round; exact HD]|intros ->; apply rounds_round; exact HD].
Qed.
Lemma gap_scale n d v c : gap (n * c) (d * c) v = gap n d v * c.
Proof. unfold gap. rewrite N.mul_assoc, <- !N.mul_sub_distr_r, <- N.mul_add_distr_r. reflexivity. Qed.
Lemma rounds_scale n d v c : c <> 0 -> rounds n d v <-> rounds (n * c) (d * c) v.
Proof.
  intro HC. unfold rounds. split; intros [DV H]; (split; [exact DV|]); intros w DW NW; destruct (H w DW NW) as [A|[A E]].
  - left. rewrite !gap_scale. apply N.mul_lt_mono_pos_r; lia.
  - right. rewrite !gap_scale, A. split; [reflexivity|exact E].
  - left. rewrite !gap_scale in A. apply N.mul_lt_mono_pos_r in A; lia.
  - right. rewrite !gap_scale in A. apply N.mul_cancel_r in A; [|exact HC]. split; assumption.
Qed.
Lemma rounds_same n d n' d' v : d <> 0 -> d' <> 0 -> n * d' = n' * d -> rounds n d v -> rounds n' d' v.
Proof.
  intros HD HD' E H. apply (rounds_scale n' d' v d HD). rewrite <- E, (N.mul_comm d'). apply rounds_scale; assumption.
Qed.
Lemma rounds_convex n d v n' : rounds n d v -> n <= n' <= v * d \/ v * d <= n' <= n -> rounds n' d v.
Proof.
  intros [DV H] HB. split; [exact DV|]. intros w DW NW. unfold gap in *. destruct (H w DW NW) as [A|[A E]]; [left; lia|].
  destruct (N.lt_ge_cases (n' - v * d + (v * d - n')) (n' - w * d + (w * d - n'))) as [L|G]; [left; exact L|right; split; [lia|exact E]].
Qed.
Lemma rounds_exact v d : double v -> d <> 0 -> rounds (v * d) d v.
Proof.
  intros DV HD. split; [exact DV|]. intros w DW NW. left. unfold gap. destruct (N.lt_trichotomy v w) as [L|[E|L]]; [|congruence|];
  [assert (v * d < w * d)|assert (w * d < v * d)]; try (apply N.mul_lt_mono_pos_r; lia); lia.
Qed.

(** ** Reading *)
Lemma top_is : 2 ^ 1024 * 2 ^ 1074 = 2 ^ 2098. Proof. rewrite <- N.pow_add_r. reflexivity. Qed.
Lemma bounded_iff neg v x : bounded neg v x <-> x = finite neg v.
Proof. unfold bounded, finite. rewrite top_is. destruct (N.ltb_spec v (2 ^ 2098)) as [L|G]; destruct (N.leb_spec (2 ^ 2098) v) as [L2|G2]; try lia; reflexivity. Qed.
Lemma decimal_iff c j v : decimal_rounds c j v <-> v = read_decimal c j.
Proof. unfold decimal_rounds, read_decimal, unit. apply rounds_iff. pose proof (p10 (Z.to_N (- j))). lia. Qed.
Definition number_of (neg : bool) (t : bytes) : option f64 :=
  let low := map lower_ascii t in
  if beq low (B "inf") || beq low (B "infinity") then Some (Inf neg)
  else if beq low (B "nan") then Some NaN
  else
    let '(ip, r1) := take_digits t in
    let '(fp, r2) := point_of r1 in
    if is_empty ip && is_empty fp then None
    else
      let mant := match digits_val 0 (ip ++ fp) with Some n => n | None => 0%N end in
      match exp_of r2 with
      | Some e => Some (finite neg (read_decimal mant (e - Z.of_nat (length fp))))
      | None => None
      end.
Lemma number_body neg t : read_unsigned neg t = number_of neg t.
Proof.
  unfold read_unsigned, number_of, point_of. cbv zeta. destruct (_ || _); [reflexivity|]. destruct (beq _ _); [reflexivity|].
  destruct (take_digits t) as [ip r1].
  match goal with |- (let '(_,_) := ?m in _) = _ => destruct m as [fp r2] end.
  destruct (is_empty ip && is_empty fp); [reflexivity|].
  destruct r2 as [|c r]; [reflexivity|]. cbn [exp_of]. destruct (aeqb c "e" || aeqb c "E"); [|reflexivity].
  destruct r as [|d r']; [reflexivity|]. unfold int_of.
  destruct (aeqb d plus_sign); [destruct (digits1 r'); reflexivity|].
  destruct (aeqb d minus_sign); [destruct (digits1 r'); reflexivity|].
  destruct (digits1 (d :: r')); reflexivity.
Qed.
Lemma read_iff s x : read_f64 s = Some x <-> stands_for s x.
Proof.
  destruct word_letters as (LI & LJ & LN).
  assert (read_f64 s = match s with
   | c :: r => if aeqb c plus_sign then number_of false r else if aeqb c minus_sign then number_of true r else number_of false s
   | [] => number_of false s end) as ->.
  { unfold read_f64. destruct s as [|c r]; [apply number_body|]. destruct (aeqb c plus_sign); [apply number_body|]. destruct (aeqb c minus_sign); apply number_body. }
  split.
  - destruct (sign_parts s) as (sg & neg & t & -> & HS & HF). rewrite (HF _ number_of). unfold number_of. cbv zeta.
    destruct (beq (map lower_ascii t) (B "inf") || beq (map lower_ascii t) (B "infinity")) eqn:E1.
    { intro H. injection H as <-. eapply sf_infinite; [exact HS|]. apply orb_true_iff in E1 as [E1|E1]; [left|right]; apply lower_like; auto; apply beq_eq; exact E1. }
    destruct (beq (map lower_ascii t) (B "nan")) eqn:E2.
    { intro H. injection H as <-. eapply sf_nan; [exact HS|]. apply lower_like; auto. apply beq_eq. exact E2. }
    destruct (take_digits_parts t) as (T1 & T2 & T3). destruct (take_digits t) as [ip r1] eqn:ET. cbn [fst snd] in *.
    destruct (point_of r1) as [fp r2] eqn:EP. destruct (is_empty ip && is_empty fp) eqn:EE; [discriminate|].
    destruct (exp_of r2) as [e|] eqn:EX; [|discriminate]. apply exp_iff in EX. intro H.
    assert (exists ma m, t = ma ++ r2 /\ mantissa ma m (length fp) /\ digits_val 0 (ip ++ fp) = Some m) as (ma & m & -> & HM & HV).
    { assert (forall m, r1 = r2 -> fp = [] -> decimal (ip ++ fp) m -> exists ma m, t = ma ++ r2 /\ mantissa ma m (length fp) /\ digits_val 0 (ip ++ fp) = Some m) as A.
      { intros m -> -> HD. rewrite app_nil_r in *. exists ip, m. split; [exact T1|]. split; [constructor; [exact HD|]|apply decimal_val; exact HD].
        intros ->. discriminate EE. }
      unfold point_of in EP. destruct r1 as [|c r].
      - injection EP as <- <-. destruct (digits_have_value (ip ++ [])) as [m Hm]; [rewrite app_nil_r; exact T2|]. eapply A; eauto.
      - destruct (aeqb c ".") eqn:EC.
        + apply aeqb_eq in EC. subst c. destruct (take_digits_parts r) as (R1 & R2 & _). rewrite EP in R1, R2. cbn [fst snd] in *.
          destruct (digits_have_value (ip ++ fp)) as [m Hm]; [apply Forall_app; auto|].
          exists (ip ++ B "." ++ fp), m. split; [rewrite T1, R1, <- !app_assoc; reflexivity|]. split; [constructor; [exact Hm|]|apply decimal_val; exact Hm].
          intros E. apply app_eq_nil in E as [-> ->]. discriminate EE.
        + injection EP as <- <-. destruct (digits_have_value (ip ++ [])) as [m Hm]; [rewrite app_nil_r; exact T2|]. eapply A; eauto. }
    rewrite HV in H. eapply sf_number; [exact HS|exact HM|exact EX|apply decimal_iff; reflexivity|]. apply bounded_iff. congruence.
  - assert (forall sg neg t, sign sg neg -> unsigned t -> match sg ++ t with
   | c :: r => if aeqb c plus_sign then number_of false r else if aeqb c minus_sign then number_of true r else number_of false (sg ++ t)
   | [] => number_of false (sg ++ t) end = number_of neg t) as X.
    { intros sg neg t HS HU. exact (sign_take sg neg t _ number_of HS HU). }
    destruct 1 as [sg neg ma m f ex e v x HS HM HE HP HX|sg neg w HS HW|sg neg w HS HW].
    + destruct (mantissa_head _ _ _ HM) as (c & r & EM & HC).
      assert (unsigned (ma ++ ex)) as HU.
      { intros c' r' E. rewrite EM in E. injection E as <- _. destruct HC as [HC| ->]; [apply digit_not_sign; exact HC|split; reflexivity]. }
      rewrite (X sg neg _ HS HU).
      unfold number_of. cbv zeta.
      assert (map lower_ascii (ma ++ ex) = c :: map lower_ascii (r ++ ex)) as ->.
      { rewrite EM. cbn [app map]. f_equal. destruct HC as [HC| ->]; [apply lower_digit; exact HC|reflexivity]. }
      assert (forall a x, a <> c -> beq (c :: map lower_ascii (r ++ ex)) (a :: x) = false) as NB.
      { intros a y Na. apply beq_neq. congruence. }
      assert (forall a, digit a = None -> a <> "."%char -> a <> c) as NC.
      { intros a H1 H2 ->. destruct HC as [[d HC]| ->]; congruence. }
      unfold B. cbn [list_ascii_of_string]. assert ("i"%char <> c /\ "n"%char <> c) as [NI NN] by (split; apply NC; (reflexivity || discriminate)).
      rewrite !(NB _ _ NI), (NB _ _ NN). cbn [orb].
      destruct (mantissa_parts _ _ _ _ _ HM HE) as (ip & r1 & fp & -> & -> & -> & -> & ->).
      apply exp_iff in HE. rewrite HE. f_equal. apply decimal_iff in HP. apply bounded_iff in HX. congruence.
    + assert (unsigned w) as HU by (destruct HW as [HW|HW]; (eapply letters; [| |exact HW]; (assumption || discriminate))). rewrite (X sg neg _ HS HU).
      unfold number_of. cbv zeta. destruct HW as [HW|HW]; apply lower_like in HW; auto; rewrite HW; reflexivity.
    + assert (unsigned w) as HU by (eapply letters; [| |exact HW]; (assumption || discriminate)). rewrite (X sg neg _ HS HU).
      unfold number_of. cbv zeta. apply lower_like in HW; auto. rewrite HW. reflexivity.
Qed.
Lemma stands_unique s x y : stands_for s x -> stands_for s y -> x = y.
Proof. intros H1 H2. apply read_iff in H1, H2. congruence. Qed.
Lemma bounded_valid neg v x : double v -> bounded neg v x -> valid x.
Proof. intros D ->. destruct (N.ltb_spec v (2 ^ 1024 * 2 ^ 1074)) as [L|G]; cbn [valid]; auto. Qed.
Lemma stands_valid s x : stands_for s x -> valid x.
Proof. destruct 1 as [sg neg ma m f ex e v x HS HM HE HP HX|sg neg w HS HW|sg neg w HS HW]; [|exact I|exact I]. eapply bounded_valid; [apply HP|exact HX]. Qed.

(** ** Adding *)
Lemma to_abs s a t b : let sum := (signed s a + signed t b)%Z in
  Z.to_N (Z.abs sum) = if eqb s t then a + b else if b <? a then a - b else b - a.
Proof. cbv zeta. unfold signed. destruct s, t; cbn [eqb]; try lia; destruct (N.ltb_spec b a); lia. Qed.
Lemma round_zero d : round_to 0 d = 0.
Proof. unfold round_to. destruct d as [|p]; [reflexivity|]. change (0 / N.pos p) with 0. change (N.log2 0 - 52) with 0. rewrite N.pow_0_r, N.mul_1_r.
  change (0 / N.pos p) with 0. change (0 mod N.pos p) with 0. change (N.odd 0) with false. rewrite andb_false_r. rewrite N.mul_0_r. reflexivity. Qed.
Lemma add_iff x y z : f64_add x y = z <-> adds x y z.
Proof.
  assert (forall s a t b, adds (Fin s a) (Fin t b) (f64_add (Fin s a) (Fin t b))) as A.
  { intros s a t b. pose proof (to_abs s a t b) as E. cbv zeta in E. cbn [f64_add]. set (sum := (signed s a + signed t b)%Z) in *.
    assert (exists neg, f64_add (Fin s a) (Fin t b) = finite neg (round_to (Z.to_N (Z.abs sum)) 1) /\
      (neg = true <-> (sum < 0)%Z \/ (sum = 0%Z /\ s = true /\ t = true))) as (neg & EF & HN).
    { rewrite E. cbn [f64_add]. unfold sum, signed. destruct s, t; cbn [eqb].
      - exists true. split; [reflexivity|]. split; [intros _|reflexivity]. lia.
      - destruct (N.eqb_spec a b) as [->|NE].
        + exists false. rewrite N.ltb_irrefl, N.sub_diag, round_zero. split; [reflexivity|]. split; [discriminate|]. intros [H|[_ [_ H]]]; [lia|discriminate].
        + destruct (N.ltb_spec b a) as [L|G]; [exists true|exists false]; (split; [reflexivity|]); (split; [try discriminate; intros _; left; lia|]); intros [H|[H _]]; first [reflexivity|lia].
      - destruct (N.eqb_spec a b) as [->|NE].
        + exists false. rewrite N.ltb_irrefl, N.sub_diag, round_zero. split; [reflexivity|]. split; [discriminate|]. intros [H|[_ [H _]]]; [lia|discriminate].
        + destruct (N.ltb_spec b a) as [L|G]; [exists false|exists true]; (split; [reflexivity|]); (split; [try discriminate; intros _; left; lia|]); intros [H|[H _]]; first [reflexivity|lia].
      - exists false. split; [reflexivity|]. split; [discriminate|]. intros [H|[_ [H _]]]; [lia|discriminate]. }
    cbn [f64_add] in EF. rewrite EF. eapply ad_finite; [apply rounds_round; discriminate|exact HN|apply bounded_iff; reflexivity]. }
  split.
  - intros <-. destruct x as [s a|s|], y as [t b|t|]; try constructor; [apply A|]. cbn [f64_add]. destruct (eqb s t) eqn:E.
    + apply eqb_prop in E as ->. constructor.
    + replace t with (negb s) by (destruct s, t; try reflexivity; discriminate E). constructor.
  - destruct 1 as [s a t b v neg x sum HR HN HX|s t b|s a t|s|s|y|x]; try reflexivity.
    + specialize (A s a t b). remember (f64_add (Fin s a) (Fin t b)) as z eqn:EZ. inversion A as [s' a' t' b' v' neg' x' sum' HR' HN' HX'| | | | | |]; subst s' a' t' b' x'.
      assert (v = v') as <- by (eapply rounds_unique; [|exact HR|exact HR']; discriminate).
      assert (neg = neg') as <- by (destruct neg, neg'; try reflexivity; [symmetry; apply HN', HN; reflexivity|apply HN, HN'; reflexivity]).
      unfold bounded in *. congruence.
    + cbn [f64_add]. rewrite eqb_reflx. reflexivity.
    + cbn [f64_add]. destruct s; reflexivity.
    + destruct x as [| |]; reflexivity.
Qed.
Lemma adds_valid x y z : valid x -> valid y -> adds x y z -> valid z.
Proof. intros VX VY H. destruct H as [s a t b v neg x sum HR HN HX| | | | | |]; try exact I. eapply bounded_valid; [apply HR|exact HX]. Qed.
Lemma add_comm x y : f64_add x y = f64_add y x.
Proof.
  destruct x as [s a|s|], y as [t b|t|]; try reflexivity; cbn [f64_add].
  - replace (eqb t s) with (eqb s t) by (destruct s, t; reflexivity). destruct (eqb s t) eqn:E; [apply eqb_prop in E as ->; rewrite N.add_comm; reflexivity|].
    rewrite (N.eqb_sym b a). destruct (N.eqb_spec a b) as [|NE]; [reflexivity|]. destruct (N.ltb_spec b a), (N.ltb_spec a b); try lia; reflexivity.
  - replace (eqb t s) with (eqb s t) by (destruct s, t; reflexivity). destruct (eqb s t) eqn:E; [apply eqb_prop in E as ->|]; reflexivity.
Qed.

Lemma unit_pos : 0 < unit. Proof. apply p2. Qed.
Lemma decimal_unit c j v : decimal_rounds c j v <-> rounds (c * 10 ^ Z.to_N j * unit) (10 ^ Z.to_N (- j)) v.
Proof. reflexivity. Qed.
Lemma farness_unit c j v : farness c j v = gap (c * 10 ^ Z.to_N j * unit) (10 ^ Z.to_N (- j)) v.
Proof. reflexivity. Qed.
Lemma ten_unit : 10 ^ 1074 = 5 ^ 1074 * unit.
Proof. unfold unit. rewrite <- N.pow_mul_l. reflexivity. Qed.
Opaque unit.
(** ** Decimals on a common scale *)
Definition scaled (E : Z) (c : N) (j : Z) : N := c * 10 ^ Z.to_N (j + E).
Lemma scaled_up c j E : (0 <= j + E)%Z -> (0 <= E)%Z -> c * 10 ^ Z.to_N j * 10 ^ Z.to_N E = scaled E c j * 10 ^ Z.to_N (- j).
Proof.
  intros H HE. unfold scaled. rewrite <- !N.mul_assoc, <- !N.pow_add_r. f_equal. f_equal. lia.
Qed.
Lemma scaled_u c j E : (0 <= j + E)%Z -> (0 <= E)%Z -> c * 10 ^ Z.to_N j * unit * 10 ^ Z.to_N E = scaled E c j * unit * 10 ^ Z.to_N (- j).
Proof.
  intros H HE. rewrite <- (N.mul_assoc _ (unit)), (N.mul_comm (unit)), N.mul_assoc, (scaled_up c j E H HE). lia.
Qed.
Lemma ten_nz k : 10 ^ k <> 0. Proof. pose proof (p10 k). lia. Qed.
Lemma decimal_scaled c j E v : (0 <= j + E)%Z -> (0 <= E)%Z -> decimal_rounds c j v <-> rounds (scaled E c j * unit) (10 ^ Z.to_N E) v.
Proof.
  intros H HE. pose proof (scaled_u c j E H HE) as S. rewrite decimal_unit.
  split; apply rounds_same; try apply ten_nz; [exact S|symmetry; exact S].
Qed.
Lemma farness_scaled c j E v : (0 <= j + E)%Z -> (0 <= E)%Z ->
  gap (scaled E c j * unit) (10 ^ Z.to_N E) v * 10 ^ Z.to_N (- j) = farness c j v * 10 ^ Z.to_N E.
Proof.
  intros H HE. pose proof (scaled_u c j E H HE) as S. rewrite farness_unit. rewrite <- !gap_scale. f_equal; [symmetry; exact S|apply N.mul_comm].
Qed.
Lemma farther_scaled c j c' j' E v : (0 <= j + E)%Z -> (0 <= j' + E)%Z -> (0 <= E)%Z ->
  gap (scaled E c j * unit) (10 ^ Z.to_N E) v <= gap (scaled E c' j' * unit) (10 ^ Z.to_N E) v -> not_farther c j c' j' v.
Proof.
  intros H H' HE L. unfold not_farther. pose proof (farness_scaled c j E v H HE) as F. pose proof (farness_scaled c' j' E v H' HE) as F'.
  set (g := gap (scaled E c j * unit) (10 ^ Z.to_N E) v) in *. set (g' := gap (scaled E c' j' * unit) (10 ^ Z.to_N E) v) in *.
  apply (N.mul_le_mono_pos_r _ _ (10 ^ Z.to_N E)); [apply p10|].
  replace (farness c j v * 10 ^ Z.to_N (- j') * 10 ^ Z.to_N E) with (g * (10 ^ Z.to_N (- j) * 10 ^ Z.to_N (- j'))) by (rewrite N.mul_assoc, F; lia).
  replace (farness c' j' v * 10 ^ Z.to_N (- j) * 10 ^ Z.to_N E) with (g' * (10 ^ Z.to_N (- j) * 10 ^ Z.to_N (- j'))) by (rewrite (N.mul_comm (10 ^ _)), N.mul_assoc, F'; lia).
  apply N.mul_le_mono_r. exact L.
Qed.
(** ** The number of digits *)
Lemma decimal_bound s : forall acc n, digits_val acc s = Some n -> acc * 10 ^ N.of_nat (length s) <= n < (acc + 1) * 10 ^ N.of_nat (length s).
Proof.
  induction s as [|a s IH]; intros acc n; cbn [digits_val length].
  - intro H. injection H as <-. rewrite N.pow_0_r. lia.
  - destruct (digit a) as [d|] eqn:ED; [|discriminate]. intro H. apply IH in H. apply digit_ascii in ED as [ED _].
    rewrite Nat2N.inj_succ, N.pow_succ_r'. set (P := 10 ^ N.of_nat (length s)) in *.
    assert (acc * 10 * P <= (acc * 10 + d) * P) by (apply N.mul_le_mono_r; lia). assert ((acc * 10 + d + 1) * P <= (acc + 1) * 10 * P) by (apply N.mul_le_mono_r; lia). lia.
Qed.
Lemma dec_length n : n <> 0 -> 10 ^ N.of_nat (length (dec_N n) - 1) <= n < 10 ^ N.of_nat (length (dec_N n)) /\ (0 < length (dec_N n))%nat.
Proof.
  intro HN. pose proof (dec_N_plain n) as (HD & HE & HZ). apply decimal_val in HD.
  pose proof (decimal_bound _ _ _ HD) as [_ U]. destruct (dec_N n) as [|a s] eqn:EQ; [congruence|]. cbn [length] in *. split; [|lia].
  split; [|lia]. cbn [digits_val] in HD. destruct (digit a) as [d|] eqn:ED; [|discriminate]. apply decimal_bound in HD.
  replace (S (length s) - 1)%nat with (length s) by lia.
  assert (d <> 0) as ND.
  { intros ->. apply digit_ascii in ED as [_ ->]. destruct HZ as [HZ|HZ]; [|exact (HZ s eq_refl)]. injection HZ as ->. cbn [length] in HD. rewrite N.pow_0_r in HD. lia. }
  assert (1 * 10 ^ N.of_nat (length s) <= (0 * 10 + d) * 10 ^ N.of_nat (length s)) by (apply N.mul_le_mono_r; lia). lia.
Qed.

(** ** Printing *)
Lemma floor_scaled v j E : (0 <= j + E)%Z -> (0 <= E)%Z ->
  let den := unit * 10 ^ Z.to_N j in let num := v * 10 ^ Z.to_N (- j) in let s := 10 ^ (Z.to_N E - Z.to_N (- j)) in
  v * 10 ^ Z.to_N E = scaled E (num / den) j * unit + (num mod den) * s /\ den * s = 10 ^ Z.to_N (j + E) * unit /\ num mod den < den /\ 0 < s.
Proof.
  intros H HE den num s. assert (den <> 0) as ND by (unfold den; pose proof (p10 (Z.to_N j)); pose proof unit_pos; lia).
  assert (den * s = 10 ^ Z.to_N (j + E) * unit) as ED.
  { unfold den, s. rewrite <- N.mul_assoc, <- N.pow_add_r, (N.mul_comm (unit)). do 2 f_equal. lia. }
  split; [|split; [exact ED|split; [apply N.mod_lt; exact ND|apply p10]]].
  assert (num * s = v * 10 ^ Z.to_N E) as EN.
  { unfold num, s. rewrite <- N.mul_assoc, <- N.pow_add_r. do 2 f_equal. lia. }
  rewrite <- EN. rewrite (N.div_mod num den ND) at 1. rewrite N.mul_add_distr_r. f_equal. unfold scaled.
  set (qq := num / den). replace (qq * 10 ^ Z.to_N (j + E) * unit) with (qq * (10 ^ Z.to_N (j + E) * unit)) by lia. rewrite <- ED. lia.
Qed.
Lemma grid v p n E c' j' : 1 <= n -> (0 <= p - Z.of_N n + E)%Z -> (0 <= j' + E)%Z -> (0 <= E)%Z ->
  10 ^ Z.to_N (p - 1 + E) * unit <= v * 10 ^ Z.to_N E ->
  let j := (p - Z.of_N n)%Z in let c := v * 10 ^ Z.to_N (- j) / (unit * 10 ^ Z.to_N j) in
  c' < 10 ^ n -> scaled E c' j' <= scaled E c j \/ scaled E (c + 1) j <= scaled E c' j'.
Proof.
  intros HN H H' HE HP j c HC. destruct (floor_scaled v j E H HE) as (F & FD & FR & FS). fold c in F. unfold scaled in *.
  set (a := 10 ^ Z.to_N (j + E)) in *. pose proof (p10 (Z.to_N (j + E))) as PA. fold a in PA. destruct (Z.le_gt_cases j j') as [L|G].
  - replace (10 ^ Z.to_N (j' + E)) with (10 ^ Z.to_N (j' - j) * a) by (unfold a; rewrite <- N.pow_add_r; f_equal; lia).
    rewrite N.mul_assoc. set (M := c' * 10 ^ Z.to_N (j' - j)). destruct (N.le_gt_cases M c) as [A|A]; [left|right]; apply N.mul_le_mono_r; lia.
  - left. assert (10 ^ Z.to_N (p - 1 + E) = 10 ^ (n - 1) * a) as E1 by (unfold a, j; rewrite <- N.pow_add_r; f_equal; lia).
    rewrite E1 in HP. set (den := unit * 10 ^ Z.to_N j) in *. set (num := v * 10 ^ Z.to_N (- j)) in *. set (s := 10 ^ (Z.to_N E - Z.to_N (- j))) in *.
    assert (num mod den * s < den * s) as RS by (apply N.mul_lt_mono_pos_r; assumption).
    assert (10 ^ (n - 1) <= c) as LC.
    { rewrite FD in RS. assert (10 ^ (n - 1) * (a * unit) < (c + 1) * (a * unit)) as X.
      { apply N.le_lt_trans with (v * 10 ^ Z.to_N E); [rewrite N.mul_assoc; exact HP|]. rewrite F, N.mul_add_distr_r, N.mul_1_l, N.mul_assoc. apply N.add_lt_mono_l. exact RS. }
      apply N.mul_lt_mono_pos_r in X; [clear - X; lia|]. apply N.mul_pos_pos; [exact PA|exact unit_pos]. }
    apply N.le_trans with (10 ^ (n - 1) * a); [|apply N.mul_le_mono_r; exact LC].
    apply N.le_trans with (10 ^ n * 10 ^ Z.to_N (j' + E)); [apply N.mul_le_mono_r, N.lt_le_incl; exact HC|].
    rewrite <- E1, <- N.pow_add_r. apply N.pow_le_mono_r; [discriminate|]. clear - G H H' HE HN. unfold j in G. lia.
Qed.
(** the two neighbours of [v] with [n] digits and any other decimal of [n] digits that is read as [v] *)
Lemma neighbours v p n E c' j' : 1 <= n -> (0 <= p - Z.of_N n + E)%Z -> (0 <= j' + E)%Z -> (0 <= E)%Z ->
  10 ^ Z.to_N (p - 1 + E) * unit <= v * 10 ^ Z.to_N E ->
  let j := (p - Z.of_N n)%Z in let c := v * 10 ^ Z.to_N (- j) / (unit * 10 ^ Z.to_N j) in
  let G x k := gap (scaled E x k * unit) (10 ^ Z.to_N E) v in
  c' < 10 ^ n -> decimal_rounds c' j' v ->
  (decimal_rounds c j v /\ G c j <= G c' j') \/ (decimal_rounds (c + 1) j v /\ G (c + 1) j <= G c' j').
Proof.
  intros HN H H' HE HP j c G HC HR. destruct (floor_scaled v j E H HE) as (F & FD & FR & FS). fold c in F.
  set (den := unit * 10 ^ Z.to_N j) in *. set (num := v * 10 ^ Z.to_N (- j)) in *. set (s := 10 ^ (Z.to_N E - Z.to_N (- j))) in *.
  assert (num mod den * s < den * s) as RS by (apply N.mul_lt_mono_pos_r; assumption).
  assert (scaled E (c + 1) j * unit = scaled E c j * unit + den * s) as SC.
  { rewrite FD. unfold scaled. rewrite N.mul_add_distr_r, N.mul_1_l, N.mul_add_distr_r. reflexivity. }
  apply (decimal_scaled c' j' E v H' HE) in HR. set (T := 10 ^ Z.to_N E) in *.
  assert (scaled E c j * unit <= v * T) as LO by (rewrite F; apply N.le_add_r).
  assert (v * T <= scaled E (c + 1) j * unit) as HI by (rewrite F, SC; apply N.add_le_mono_l, N.lt_le_incl; exact RS).
  destruct (grid v p n E c' j' HN H H' HE HP HC) as [A|A]; fold j in A; fold num den in A; fold c in A; [left|right].
  - assert (scaled E c' j' * unit <= scaled E c j * unit) as A2 by (apply N.mul_le_mono_r; exact A).
    split; [apply (decimal_scaled c j E v H HE); fold T; apply (rounds_convex _ _ _ _ HR); left; split; assumption|]. unfold G. fold T.
    rewrite !gap_high by (assumption || (eapply N.le_trans; eassumption)). apply N.sub_le_mono_l. exact A2.
  - assert (scaled E (c + 1) j * unit <= scaled E c' j' * unit) as A2 by (apply N.mul_le_mono_r; exact A).
    split; [apply (decimal_scaled (c + 1) j E v H HE); fold T; apply (rounds_convex _ _ _ _ HR); right; split; assumption|]. unfold G. fold T.
    rewrite !gap_low by (assumption || (eapply N.le_trans; eassumption)). apply N.sub_le_mono_r. exact A2.
Qed.
Definition in_decade (v : N) (p : Z) : Prop := forall E, (400 <= E)%Z -> (0 <= p - 1 + E)%Z ->
  10 ^ Z.to_N (p - 1 + E) * unit <= v * 10 ^ Z.to_N E < 10 ^ Z.to_N (p + E) * unit.
Lemma shortest_ok tie fuel v p : double v -> in_decade v p -> forall n, 1 <= n -> fuel <> O -> (p + 1074 < Z.of_N n + Z.of_nat fuel)%Z ->
  (forall m c' j', m < n -> c' < 10 ^ m -> ~ decimal_rounds c' j' v) ->
  briefest v (fst (shortest tie fuel v p n)) (snd (shortest tie fuel v p n)).
Proof.
  intros DV HI. induction fuel as [|fuel IH]; intros n HN HF HT HO; [congruence|]. cbn [shortest].
  set (j := (p - Z.of_N n)%Z). set (den := unit * 10 ^ Z.to_N j). set (num := v * 10 ^ Z.to_N (- j)). set (c := num / den).
  pose (big := fun j' => (400 + Z.abs j + Z.abs j' + Z.abs p)%Z).
  assert (forall j', (0 <= j + big j')%Z /\ (0 <= j' + big j')%Z /\ (0 <= big j')%Z /\ (400 <= big j')%Z /\ (0 <= p - 1 + big j')%Z) as HB by (intro j'; unfold big; lia).
  (* what any decimal of n digits tells *)
  assert (forall c' j', c' < 10 ^ n -> decimal_rounds c' j' v ->
    let E := big j' in let G x k := gap (scaled E x k * unit) (10 ^ Z.to_N E) v in
    (decimal_rounds c j v /\ G c j <= G c' j') \/ (decimal_rounds (c + 1) j v /\ G (c + 1) j <= G c' j')) as NB.
  { intros c' j' HC HR. destruct (HB j') as (B1 & B2 & B3 & B4 & B5). apply neighbours; try assumption. apply HI; assumption. }
  assert (c < 10 ^ n) as CN.
  { destruct (HB 0%Z) as (B1 & _ & B3 & B4 & B5). destruct (HI (big 0%Z) B4 B5) as [_ U]. destruct (floor_scaled v j (big 0%Z) B1 B3) as (F & _).
    fold den num in F. fold c in F. rewrite F in U. unfold scaled in U.
    replace (10 ^ Z.to_N (p + big 0%Z)) with (10 ^ n * 10 ^ Z.to_N (j + big 0%Z)) in U by (rewrite <- N.pow_add_r; f_equal; unfold j in *; lia).
    set (a := 10 ^ Z.to_N (j + big 0%Z)) in *. pose proof (p10 (Z.to_N (j + big 0%Z))) as PA. fold a in PA.
    assert (c * (a * unit) < 10 ^ n * (a * unit)) as X by (rewrite !N.mul_assoc; eapply N.le_lt_trans; [apply N.le_add_r|exact U]).
    apply N.mul_lt_mono_pos_r in X; [exact X|]. apply N.mul_pos_pos; [exact PA|exact unit_pos]. }
  assert (forall cs js, decimal_rounds cs js v -> cs < 10 ^ n ->
    (forall c' j', c' < 10 ^ n -> decimal_rounds c' j' v -> not_farther cs js c' j' v) -> briefest v cs js) as FIN.
  { intros cs js HR HL HA. split; [exact HR|]. intros c' j' n' HR' HC'. destruct (N.lt_ge_cases n' n) as [L|G]; [destruct (HO n' c' j' L HC' HR')|].
    split; [apply N.lt_le_trans with (1 := HL), N.pow_le_mono_r; [discriminate|exact G]|]. intro HQ.
    assert (n' = n) as ->; [|apply HA; assumption]. destruct (N.eq_dec n' n) as [E|NE]; [exact E|exfalso].
    assert (10 ^ N.succ n <= 10 ^ n') as X by (apply N.pow_le_mono_r; [discriminate|lia]). rewrite N.pow_succ_r' in X. lia. }
  assert (forall cs js c' j', (forall E, (0 <= E)%Z -> (0 <= j + E)%Z -> scaled E cs js = scaled E cs js) -> (0 <= js + big j')%Z ->
     gap (scaled (big j') cs js * unit) (10 ^ Z.to_N (big j')) v <= gap (scaled (big j') c' j' * unit) (10 ^ Z.to_N (big j')) v -> not_farther cs js c' j' v) as NF.
  { intros cs js c' j' _ HJ HG. destruct (HB j') as (_ & B2 & B3 & _). apply (farther_scaled cs js c' j' (big j')); assumption. }
  (* the distances of the two neighbours *)
  assert (forall E, (0 <= j + E)%Z -> (0 <= E)%Z -> let G x := gap (scaled E x j * unit) (10 ^ Z.to_N E) v in let s := 10 ^ (Z.to_N E - Z.to_N (- j)) in
     G c = (num mod den) * s /\ G (c + 1) = (den - num mod den) * s) as GG.
  { intros E H HE. destruct (floor_scaled v j E H HE) as (F & FD & FR & FS). fold den num in F, FD, FR. fold c in F. cbv zeta in *.
    set (s := 10 ^ (Z.to_N E - Z.to_N (- j))) in *.
    assert (num mod den * s < den * s) as RS by (apply N.mul_lt_mono_pos_r; assumption).
    assert (scaled E (c + 1) j * unit = scaled E c j * unit + den * s) as SC.
    { rewrite FD. unfold scaled. rewrite N.mul_add_distr_r, N.mul_1_l, N.mul_add_distr_r. reflexivity. }
    rewrite N.mul_sub_distr_r. unfold gap. rewrite SC, F. generalize (scaled E c j * unit). revert RS. generalize (num mod den * s), (den * s). clear. intros R D RS X. lia. }
  assert (forall E, (0 <= p + E)%Z -> (0 <= j + E)%Z -> c + 1 = 10 ^ n -> scaled E 1 p = scaled E (c + 1) j) as ONE.
  { intros E H1 H2 EC. unfold scaled. rewrite EC, N.mul_1_l, <- N.pow_add_r. f_equal. unfold j. lia. }
  destruct ((read_decimal (c + 1) j =? v) && (negb (read_decimal c j =? v) || (den <? 2 * (num mod den)) || ((den =? 2 * (num mod den)) && tie c))) eqn:EU.
  - apply andb_true_iff in EU as [EU ED]. apply N.eqb_eq in EU. symmetry in EU. apply decimal_iff in EU.
    assert (forall c' j', c' < 10 ^ n -> decimal_rounds c' j' v -> let E := big j' in
       gap (scaled E (c + 1) j * unit) (10 ^ Z.to_N E) v <= gap (scaled E c' j' * unit) (10 ^ Z.to_N E) v) as HA.
    { intros c' j' HC HR. destruct (NB c' j' HC HR) as [[HD HG]|[_ HG]]; [|exact HG]. cbv zeta in *. apply decimal_iff in HD. symmetry in HD. apply N.eqb_eq in HD.
      rewrite HD in ED. cbn [negb orb] in ED.
      assert (den <= 2 * (num mod den)) as ED'. { apply orb_true_iff in ED as [ED|ED]; [apply N.ltb_lt in ED; lia|]. apply andb_true_iff in ED as [ED _]. apply N.eqb_eq in ED. lia. } clear ED. rename ED' into ED. destruct (HB j') as (B1 & B2 & B3 & B4 & B5). destruct (GG (big j') B1 B3) as [G1 G2].
      rewrite G2. apply N.le_trans with (2 := HG). rewrite G1. apply N.mul_le_mono_r. lia. }
    destruct (N.eqb_spec (c + 1) (10 ^ n)) as [EC|NC]; cbn [fst snd].
    + apply FIN.
      * destruct (HB p) as (B1 & B2 & B3 & B4 & B5). apply (decimal_scaled 1 p (big p) v B2 B3). rewrite ONE by assumption. apply (decimal_scaled (c + 1) j); assumption.
      * apply N.lt_le_trans with (10 ^ 1); [reflexivity|]. apply N.pow_le_mono_r; [discriminate|exact HN].
      * intros c' j' HC HR. destruct (HB j') as (B1 & B2 & B3 & B4 & B5). apply NF; [reflexivity|lia|]. rewrite ONE by (assumption || lia). apply HA; assumption.
    + apply FIN; [exact EU|lia|]. intros c' j' HC HR. destruct (HB j') as (B1 & B2 & B3 & B4 & B5). apply NF; [reflexivity|exact B1|]. apply HA; assumption.
  - destruct (N.eqb_spec (read_decimal c j) v) as [EDN|EDN].
    + cbn [fst snd]. symmetry in EDN. apply decimal_iff in EDN. apply FIN; [exact EDN|exact CN|]. intros c' j' HC HR. destruct (HB j') as (B1 & B2 & B3 & B4 & B5).
      apply NF; [reflexivity|exact B1|]. destruct (NB c' j' HC HR) as [[_ HG]|[HU HG]]; [exact HG|]. cbv zeta in *. apply decimal_iff in HU. symmetry in HU. apply N.eqb_eq in HU.
      rewrite HU in EU. cbn [negb orb andb] in EU. apply orb_false_iff in EU as [EU _]. apply N.ltb_ge in EU. destruct (GG (big j') B1 B3) as [G1 G2].
      rewrite G1. apply N.le_trans with (2 := HG). rewrite G2. apply N.mul_le_mono_r. lia.
    + assert (read_decimal (c + 1) j <> v) as EUP.
      { intro E. apply N.eqb_eq in E. rewrite E in EU. cbn [negb orb andb] in EU. discriminate EU. }
      assert (-1074 < j)%Z as HJ.
      { destruct (Z.lt_ge_cases (-1074) j) as [L|G]; [exact L|exfalso]. apply EDN. symmetry. apply decimal_iff. apply decimal_unit.
        assert (c * unit = v * 10 ^ Z.to_N (- j)) as X.
        { unfold c, num, den. replace (Z.to_N j) with 0 by lia. rewrite N.pow_0_r, N.mul_1_r.
          replace (Z.to_N (- j)) with (1074 + (Z.to_N (- j) - 1074)) by lia. rewrite N.pow_add_r.
          rewrite ten_unit. generalize (5 ^ 1074). intro u. set (w := 10 ^ (Z.to_N (- j) - 1074)).
          
          replace (v * (u * unit * w)) with (v * u * w * unit) by (generalize unit; clear; intros; lia). rewrite N.div_mul; [reflexivity|apply N.neq_0_lt_0; exact unit_pos]. }
        replace (Z.to_N j) with 0 by lia. rewrite N.pow_0_r, N.mul_1_r, X. apply rounds_exact; [exact DV|apply ten_nz]. }
      apply IH; [lia|intros ->; unfold j in HJ; lia|lia|]. intros m c' j' HM HC HR.
      assert (c' < 10 ^ n) as HC' by (apply N.lt_le_trans with (1 := HC), N.pow_le_mono_r; [discriminate|lia]).
      destruct (NB c' j' HC' HR) as [[HD _]|[HU _]]; [apply decimal_iff in HD|apply decimal_iff in HU]; congruence.
Qed.
