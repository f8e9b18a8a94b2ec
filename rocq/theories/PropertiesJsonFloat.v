(** * C109: the numbers of JSON that are no integers of 64 bits *)
From Verif Require Import Bytes BytesFacts Json State Spec SpecEngine Float64 SpecDouble JsonFloat SpecJsonFloat JsonText SpecJson NumberProofs WordProofs JsonProofs
  DoubleProofs DoubleShow JsonFloatProofs Engine Template Samples PropertiesJson.
Open Scope N_scope.
Opaque N.pow unit.

(** ** Tokens *)
Lemma token_denotes t : number_token t -> exists neg c j, denotes t neg c j /\ (neg = true <-> starts_byte "-"%char t).
Proof.
  intros (g & i & n & f & e & -> & HG & (HI & NI & _) & HF & HE).
  assert (exists m k, mantissa (i ++ f) m k) as (m & k & HM).
  { destruct HF as [->|(d & -> & ND & md & Hd)].
    - rewrite app_nil_r. exists n, 0%nat. apply ma_int; assumption.
    - pose proof (decimal_digits _ _ HI) as F1. pose proof (decimal_digits _ _ Hd) as F2. destruct (digits_all_val (i ++ d) (proj2 (Forall_app _ _ _) (conj F1 F2)) 0) as (m & Hm).
      exists m, (length d). apply ma_point; [apply decimal_val; exact Hm|]. intro E. apply app_eq_nil in E as [E _]. contradiction. }
  assert (exists z, exponent e z) as (z & HZ).
  { destruct HE as [->|(x & s & d & -> & HX & HS & ND & md & Hd)]; [exists 0%Z; constructor|].
    assert (exists sn, sign s sn) as (sn & HSn) by (destruct HS as [->|[->| ->]]; eexists; constructor).
    destruct HX as [->| ->]; eexists; (apply ex_some; [|apply (int_ s sn d md HSn Hd ND)]); [left|right]; reflexivity. }
  assert (forall r, i ++ r <> [] /\ ~ starts_byte "-"%char (i ++ r)) as NS.
  { intro r. destruct i as [|a i]; [congruence|]. split; [discriminate|]. intros [u E]. injection E as -> _. apply decimal_digits, Forall_inv in HI as [d HD]. discriminate HD. }
  destruct HG as [->| ->].
  - exists false, m, (z - Z.of_nat k)%Z. split; [|split; [discriminate|intro H; exfalso; exact (proj2 (NS (f ++ e)) H)]]. cbn [app]. rewrite app_assoc. exact (dn_ false (i ++ f) m k e z HM HZ).
  - exists true, m, (z - Z.of_nat k)%Z. split; [|split; [intros _; eexists; reflexivity|reflexivity]]. rewrite (app_assoc i). exact (dn_ true (i ++ f) m k e z HM HZ).
Qed.
Lemma some_of s n : decimal s n -> s <> [] -> some_digits s.
Proof. intros H N. split; [exact N|exists n; exact H]. Qed.
Lemma exponent_of k z : plain_integer k z -> exponent_part (B "e" ++ k).
Proof.
  intro H. right. unfold plain_integer in H. destruct (z <? 0)%Z.
  - destruct H as (t & -> & HD & HN & _). exists (B "e"), (B "-"), t. split; [reflexivity|]. split; [left; reflexivity|]. split; [right; right; reflexivity|eapply some_of; eassumption].
  - destruct H as (HD & HN & _). exists (B "e"), [], k. split; [reflexivity|]. split; [left; reflexivity|]. split; [left; reflexivity|eapply some_of; eassumption].
Qed.
Lemma form_parts sci u : json_form sci u -> exists i n f e, u = i ++ f ++ e /\ plain_decimal i n /\ fraction f /\ exponent_part e /\ (In "."%char u \/ In "e"%char u).
Proof.
  intros [a n b m HA HB NB _|a n k z HA _ HK|a n b m k z HA _ HB NB _ HK].
  - exists a, n, (B "." ++ b), []. split; [rewrite app_nil_r; reflexivity|]. split; [exact HA|]. split; [right; exists b; split; [reflexivity|eapply some_of; eassumption]|].
    split; [left; reflexivity|left; apply in_or_app; right; left; reflexivity].
  - exists [a], n, [], (B "e" ++ k). split; [reflexivity|]. split; [exact HA|]. split; [left; reflexivity|]. split; [eapply exponent_of; exact HK|right; right; left; reflexivity].
  - exists [a], n, (B "." ++ b), (B "e" ++ k). split; [rewrite <- !app_assoc; reflexivity|]. split; [exact HA|]. split; [right; exists b; split; [reflexivity|eapply some_of; eassumption]|].
    split; [eapply exponent_of; exact HK|left; right; left; reflexivity].
Qed.
Lemma form_token sci u neg : json_form sci u -> number_token (dash_if neg ++ u) /\ forall k, ~ integer_token (dash_if neg ++ u) k.
Proof.
  intro H. destruct (form_parts sci u H) as (i & n & f & e & -> & HI & HF & HE & HP). split.
  - exists (dash_if neg), i, n, f, e. split; [reflexivity|]. split; [destruct neg; [right|left]; reflexivity|]. split; [exact HI|]. split; assumption.
  - assert (forall c, In c (i ++ f ++ e) -> In c (dash_if neg ++ i ++ f ++ e)) as UP by (intros c X; apply in_or_app; right; exact X).
    assert (forall t m c, decimal t m -> In c t -> c <> "."%char /\ c <> "e"%char) as DG.
    { intros t m c HD HC. apply decimal_digits in HD. rewrite Forall_forall in HD. destruct (HD c HC) as [d Hd]. split; intros ->; discriminate Hd. }
    intros k HK. assert (forall c, In c (dash_if neg ++ i ++ f ++ e) -> c <> "."%char /\ c <> "e"%char) as X.
    { inversion HK as [t m HD _ E|t p HD _ E]; intros c HC.
      - eapply DG; [exact (proj1 HD)|exact HC].
      - destruct HC as [<-|HC]; [split; discriminate|]. eapply DG; [exact (proj1 HD)|exact HC]. }
    destruct HP as [HP|HP]; apply UP in HP; destruct (X _ HP); congruence.
Qed.
Lemma shows_token neg v x : json_shows neg v x -> number_token x /\ forall k, ~ integer_token x k.
Proof. intros (u & c & j & n & k & sci & -> & _ & _ & _ & HF & _). eapply form_token. exact HF. Qed.


Lemma denotes_det t neg c j neg' c' j' : denotes t neg c j -> denotes t neg' c' j' -> neg = neg' /\ c = c' /\ j = j'.
Proof.
  intros H1 H2. inversion H1 as [ng ma c0 f ex e HM HE E1 E2 E3 E4]. inversion H2 as [ng' ma' c0' f' ex' e' HM' HE' E1' E2' E3' E4']. subst ng c0 ng' c0'.
  assert (neg = neg' /\ ma ++ ex = ma' ++ ex') as [EN ES].
  { rewrite <- E1' in E1. destruct (mantissa_head _ _ _ HM) as (h & r & -> & Hh). destruct (mantissa_head _ _ _ HM') as (h' & r' & -> & Hh'). unfold dash_if in E1.
    assert (forall h, (exists d, digit h = Some d) \/ h = "."%char -> h <> "-"%char) as NM by (intros x [[d X]| ->]; [intros ->; discriminate X|discriminate]).
    destruct neg, neg'; cbn [app B list_ascii_of_string] in E1.
    - split; [reflexivity|]. injection E1 as -> E1. cbn [app]. rewrite E1. reflexivity.
    - exfalso. injection E1 as E1 _. symmetry in E1. revert E1. apply NM. exact Hh'.
    - exfalso. injection E1 as E1 _. revert E1. apply NM. exact Hh.
    - split; [reflexivity|exact E1]. }
  destruct (mantissa_parts _ _ _ _ _ HM HE) as (ip & r1 & fp & T1 & T2 & _ & HD & HF). destruct (mantissa_parts _ _ _ _ _ HM' HE') as (ip' & r1' & fp' & T1' & T2' & _ & HD' & HF').
  rewrite ES, T1' in T1. assert (ip' = ip /\ r1' = r1) as [-> ->] by (split; congruence). rewrite T2' in T2. assert (fp' = fp /\ ex' = ex) as [-> ->] by (split; congruence).
  split; [exact EN|]. split; [congruence|]. apply exp_iff in HE. apply exp_iff in HE'. assert (e = e') as -> by congruence. congruence.
Qed.

(** ** The theorems *)
(** A number of JSON is one decimal. *)
Theorem C109_decimal : forall t, number_token t -> exists neg c j, denotes t neg c j /\ (neg = true <-> starts_byte "-"%char t) /\
  forall neg' c' j', denotes t neg' c' j' -> neg' = neg /\ c' = c /\ j' = j.
Proof.
  intros t HT. destruct (token_denotes t HT) as (neg & c & j & HD & HN). exists neg, c, j. split; [exact HD|]. split; [exact HN|]. intros neg' c' j' H. eapply denotes_det; eassumption.
Qed.
Print Assumptions C109_decimal.
Lemma take_sig_low ds : forall acc, acc < 2 ^ 64 -> fst (take_sig acc ds) < 2 ^ 64.
Proof.
  induction ds as [|a ds IH]; intros acc H; cbn [take_sig]; [exact H|]. destruct (digit a) as [d|]; [|exact H]. destruct (N.ltb_spec (acc * 10 + d) (2 ^ 64)) as [L|L]; [apply IH; exact L|exact H].
Qed.
Lemma value_valid t neg v : json_value t = Some (neg, v) -> double v /\ v < 2 ^ 1024 * 2 ^ 1074 /\ (neg = true <-> starts_byte "-"%char t).
Proof.
  unfold json_value. intro H.
  assert (exists ng s, match t with c :: r => if aeqb c minus_sign then (true, r) else (false, t) | [] => (false, t) end = (ng, s) /\ (ng = true <-> starts_byte "-"%char t)) as (ng & s & ES & HN).
  { destruct t as [|c r]; [exists false, []; split; [reflexivity|split; [discriminate|intros [u E]; discriminate E]]|]. destruct (aeqb c minus_sign) eqn:E.
    - exists true, r. split; [reflexivity|]. split; [intros _; exists r; apply aeqb_eq in E; rewrite E; reflexivity|reflexivity].
    - exists false, (c :: r). split; [reflexivity|]. split; [discriminate|]. intros [u X]. injection X as -> _. discriminate E. }
  rewrite ES in H. destruct (take_digits s) as [ip r1]. destruct (match r1 with c :: r => if aeqb c "."%char then take_digits r else ([], r1) | [] => ([], []) end) as [fp ep].
  destruct (read_parts ip fp ep) as [w|] eqn:ER; [|discriminate H]. assert (ng = neg /\ w = v) as [-> ->] by (split; congruence). clear H ES.
  enough (double v /\ v < 2 ^ 2098) as [DV LV] by (split; [exact DV|split; [rewrite top_split in LV; rewrite <- unit_is in LV; exact LV|exact HN]]).
  unfold read_parts in ER. pose proof (take_sig_low ip 0 ltac:(reflexivity)) as L1. destruct (take_sig 0 ip) as [s1 q1]. cbn [fst] in L1.
  pose proof (take_sig_low fp s1 L1) as L2. destruct (take_sig s1 fp) as [s2 q2]. cbn [fst] in L2.
  assert (forall e, from_parts 3 (size_of s2) e = Some v -> double v /\ v < 2 ^ 2098) as G by (intros e E; eapply parts_double; [exact E|apply size_double|apply size_top; exact L2]).
  destruct ep as [|a ep]; [exact (G _ ER)|]. destruct (exponent_text (a :: ep)) as [[ng n]|]; [|discriminate ER]. destruct (i32_max <? n); [|exact (G _ ER)].
  destruct (negb (s2 =? 0) && negb ng); [discriminate ER|]. assert (v = 0) as -> by congruence. split; [exact double_0|apply p2].
Qed.
(** What a token becomes: the shortest text of some double that is not infinite, which is a number and no integer; with the sign of the token. *)
Theorem C109_prints : forall t x g, json_float t = Some (x, g) ->
  exists neg v, double v /\ v < 2 ^ 1024 * 2 ^ 1074 /\ json_shows neg v x /\ (neg = true <-> starts_byte "-"%char t) /\ (g = true <-> neg = false /\ v <> 0) /\
    number_token x /\ (forall n, ~ integer_token x n).
Proof.
  intros t x g H. unfold json_float in H. destruct (json_value t) as [[sg v]|] eqn:EV; [|discriminate H].
  assert (x = json_print sg v /\ g = negb sg && negb (v =? 0)) as [-> ->] by (split; congruence). clear H.
  destruct (value_valid t sg v EV) as (DV & LV & HN).
  pose proof (digits_shows sg v DV LV) as HS. exists sg, v. split; [exact DV|]. split; [exact LV|]. split; [exact HS|]. split; [exact HN|]. split; [|eapply shows_token; exact HS].
  rewrite andb_true_iff, !negb_true_iff, N.eqb_neq. reflexivity.
Qed.
Print Assumptions C109_prints.

Lemma rounds_zero j v : decimal_rounds 0 j v -> v = 0.
Proof.
  intro H. apply (proj1 (decimal_unit _ _ _)) in H. rewrite !N.mul_0_l in H. apply (rounds_iff _ _ _ (ten_nz _)) in H. rewrite round_zero in H. exact H.
Qed.
Lemma far_22 : 2 ^ 54 * 10 ^ 22 <= unit. Proof. vm_compute. discriminate. Qed.
Lemma rounds_large c j v : c <> 0 -> (-22 <= j)%Z -> decimal_rounds c j v -> 2 ^ 54 <= v.
Proof.
  intros NC HJ H. apply (proj1 (decimal_unit _ _ _)) in H. apply (round_above _ _ _ _ (ten_nz _) H (double_pow 54)).
  apply N.le_trans with (2 ^ 54 * 10 ^ 22); [apply N.mul_le_mono_l, N.pow_le_mono_r; [discriminate|lia]|]. apply N.le_trans with (1 := far_22). rewrite <- (N.mul_1_l unit) at 1. apply N.mul_le_mono_r.
  pose proof (p10 (Z.to_N j)) as P. change 1 with (1 * 1). apply N.mul_le_mono; lia.
Qed.
(** A number of less than 2^53 and a power of ten between -22 and 22: the nearest double. *)
Theorem C109_nearest : forall t neg c j, denotes t neg c j -> (Z.of_nat (length t) < 2 ^ 30)%Z -> c < 2 ^ 53 -> (-22 <= j <= 22)%Z ->
  exists v x g, json_float t = Some (x, g) /\ decimal_rounds c j v /\ json_shows neg v x /\ (g = true <-> neg = false /\ c <> 0).
Proof.
  intros t neg c j HD HL HC HJ. destruct (value_parts t neg c j HD HL) as (s2 & S & m & m' & e & EV & _ & _ & _ & _ & _ & EX).
  destruct (EX ltac:(eapply N.lt_trans; [exact HC|apply N.pow_lt_mono_r; reflexivity])) as [-> ->].
  destruct (parts_nearest 3 c j HC ltac:(lia)) as (v & EP & HR & LV). rewrite EP in EV. exists v. unfold json_float. rewrite EV. do 2 eexists. split; [reflexivity|]. split; [exact HR|].
  rewrite top_split in LV. rewrite <- unit_is in LV. split; [apply digits_shows; [exact (proj1 HR)|exact LV]|].
  rewrite andb_true_iff, !negb_true_iff, N.eqb_neq. split; intros [H1 H2]; (split; [exact H1|]).
  - intros ->. apply H2, (rounds_zero j). exact HR.
  - intros ->. pose proof (rounds_large c j 0 H2 ltac:(lia) HR) as X. pose proof (p2 54). lia.
Qed.
Print Assumptions C109_nearest.
(** A number of at most 15 digits is printed as a text of the same number. *)
Theorem C109_digits : forall t neg c j, denotes t neg c j -> (Z.of_nat (length t) < 2 ^ 30)%Z -> c < 10 ^ 15 -> (-22 <= j <= 22)%Z ->
  exists x g n k, json_float t = Some (x, g) /\ denotes x neg n k /\ same_decimal c j n k.
Proof.
  intros t neg c j HD HL HC HJ. assert (c < 2 ^ 53) as HC' by (eapply N.lt_trans; [exact HC|reflexivity]).
  destruct (C109_nearest t neg c j HD HL HC' HJ) as (v & x & g & E & HR & HS & _). destruct HS as (u & c' & j' & n & k & sci & EX & HB & HN & HSame & _).
  exists x, g, n, k. split; [exact E|]. assert (denotes x neg n k) as HX.
  { rewrite EX. inversion HN as [ng ma c0 f ex e HM HE E1 E2 E3 E4]. subst. exact (dn_ neg ma n f ex e HM HE). }
  split; [exact HX|]. destruct HB as [HR' HB].
  assert (same_decimal c j c' j') as SD.
  { destruct (N.eq_dec c 0) as [->|NC].
    - destruct (HB 0 j 0 HR ltac:(reflexivity)) as [X _]. rewrite N.pow_0_r in X. assert (c' = 0) as -> by lia. reflexivity.
    - destruct (HB c j 15 HR HC) as [X _]. exact (fifteen c j c' j' v HC X HR HR' (rounds_large c j v NC ltac:(lia) HR)). }
  revert SD HSame. unfold same_decimal. pose proof (p10 (Z.to_N j')) as P1. pose proof (p10 (Z.to_N (- j'))) as P2.
  assert (10 ^ Z.to_N j' * 10 ^ Z.to_N (- j') <> 0) as P3 by lia. revert P3.
  generalize (10 ^ Z.to_N j'), (10 ^ Z.to_N (- j')), (10 ^ Z.to_N j), (10 ^ Z.to_N (- j)), (10 ^ Z.to_N k), (10 ^ Z.to_N (- k)). clear. intros a b p q r s P3 H1 H2.
  (* c p b = c' a q; c' a s = n r b |- c p s = n r q *)
  assert (b <> 0) as NB by (intros ->; apply P3; lia). apply (N.mul_cancel_r _ _ b NB).
  replace (c * p * s * b) with (c * p * b * s) by lia. rewrite H1. replace (c' * a * q * s) with (c' * a * s * q) by lia. rewrite H2. lia.
Qed.
Print Assumptions C109_digits.
(** Any number that is not less than 2^-1020: the double that is printed is off by at most its 2^49th part. *)
Theorem C109_error : forall t neg c j x g, denotes t neg c j -> (Z.of_nat (length t) < 2 ^ 30)%Z -> json_float t = Some (x, g) ->
  10 ^ Z.to_N (- j) <= c * 10 ^ Z.to_N j * 2 ^ 1020 -> exists v, json_shows neg v x /\ nearly c j v.
Proof.
  intros t neg c j x g HD HL H HX. unfold json_float in H. destruct (json_value t) as [[sg v]|] eqn:EV; [|discriminate H].
  assert (x = json_print sg v) as -> by congruence. assert (2 ^ 53 <= v) as HV.
  { eapply value_large; [exact HD|exact HL|exact EV|]. rewrite (N.mul_comm (2 ^ 54)). replace (2 ^ 1074) with (2 ^ 1020 * 2 ^ 54) by (rewrite <- N.pow_add_r; reflexivity). rewrite N.mul_assoc.
    apply N.mul_le_mono_r. exact HX. }
  destruct (value_nearly t neg c j sg v HD HL EV) as (-> & DV & LV & HN). exists v. split; [|exact (HN HV)]. apply digits_shows; [exact DV|]. rewrite top_split in LV. rewrite <- unit_is in LV. exact LV.
Qed.
Print Assumptions C109_error.
(** Only a number of about 2^1024 or more is refused, and no number that is larger by more than the error above is accepted. *)
Theorem C109_range : forall t neg c j, denotes t neg c j -> (Z.of_nat (length t) < 2 ^ 30)%Z ->
  (json_float t = None -> 2 ^ 1024 * 10 ^ Z.to_N (- j) * 2 ^ 49 <= c * 10 ^ Z.to_N j * (2 ^ 49 + 1)) /\
  (2 ^ 1024 * 10 ^ Z.to_N (- j) * 2 ^ 49 <= c * 10 ^ Z.to_N j * (2 ^ 49 - 1) -> json_float t = None).
Proof.
  intros t neg c j HD HL. unfold json_float. split; intro H.
  - destruct (json_value t) as [[sg v]|] eqn:EV; [discriminate H|]. eapply value_refused; eassumption.
  - destruct (json_value t) as [[sg v]|] eqn:EV; [|reflexivity]. exfalso. destruct (value_nearly t neg c j sg v HD HL EV) as (-> & DV & LV & HN). rewrite top_split in LV.
    assert (2 ^ 53 <= v) as HV.
    { eapply value_large; [exact HD|exact HL|exact EV|]. rewrite unit_is.
      apply N.le_trans with (2 ^ 1024 * 10 ^ Z.to_N (- j)).
      - apply N.mul_le_mono_r, N.pow_le_mono_r; discriminate.
      - apply (N.mul_le_mono_pos_r _ _ (2 ^ 49)); [apply p2|]. apply N.le_trans with (1 := H). rewrite <- (N.mul_assoc (c * 10 ^ Z.to_N j)). apply N.mul_le_mono_l.
        apply N.le_trans with (1 * 2 ^ 49); [rewrite N.mul_1_l; apply N.le_sub_l|]. apply N.mul_le_mono_r. pose proof unit_pos. lia. }
    destruct (HN HV) as [X _]. rewrite unit_is in X. apply (N.mul_le_mono_r _ _ unit) in H. pose proof (p10 (Z.to_N (- j))) as PJ. pose proof (p2 49) as P49.
    revert X H LV PJ P49. generalize (c * 10 ^ Z.to_N j), (10 ^ Z.to_N (- j)), unit, (2 ^ 1024), (2 ^ 49), (2 ^ 49 - 1). clear. intros w J U P q a X H LV PJ P49.
    assert (P * U * J * q < P * U * J * q); [|lia]. apply N.le_lt_trans with (w * a * U); [replace (P * U * J * q) with (P * J * q * U) by lia; exact H|].
    apply N.le_lt_trans with (v * J * q); [replace (w * a * U) with (w * U * a) by lia; exact X|]. apply N.mul_lt_mono_pos_r; [exact P49|]. apply N.mul_lt_mono_pos_r; assumption.
Qed.
Print Assumptions C109_range.

(** A printed number of less than 2^53 and a power of ten between -22 and 22 is read back and printed alike. *)
Theorem C109_stable : forall t x g neg n k, json_float t = Some (x, g) ->
  denotes x neg n k -> (Z.of_nat (length x) < 2 ^ 30)%Z -> n < 2 ^ 53 -> (-22 <= k <= 22)%Z -> number_ok json_float (NFloat x g).
Proof.
  intros t x g neg n k H HD HL HN HK. destruct (C109_prints t x g H) as (_ & _ & _ & _ & _ & _ & _ & TX & TI).
  split; [exact TX|]. split; [exact TI|]. unfold json_float in H. destruct (json_value t) as [[ng v]|] eqn:EV; [|discriminate H].
  assert (x = json_print ng v /\ g = negb ng && negb (v =? 0)) as [EX EG] by (split; congruence). clear H.
  destruct (value_valid t ng v EV) as (DV & LV & _).
  destruct (digits_shows ng v DV LV) as (u & c & j & n' & k' & sci & EX' & [HR _] & HU & HS & _). rewrite <- EX in EX'.
  assert (denotes x ng n' k') as HX.
  { rewrite EX'. inversion HU as [q ma c1 f ex e HM HE E1 E2 E3 E4]. subst. exact (dn_ ng ma n' f ex e HM HE). }
  destruct (denotes_det _ _ _ _ _ _ _ HD HX) as (-> & <- & <-). clear HU HX.
  assert (decimal_rounds n k v) as HR'.
  { apply (proj2 (decimal_unit _ _ _)). apply (proj1 (decimal_unit _ _ _)) in HR. revert HR. apply rounds_same; try apply ten_nz. revert HS. unfold same_decimal.
    generalize (10 ^ Z.to_N j), (10 ^ Z.to_N (- j)), (10 ^ Z.to_N k), (10 ^ Z.to_N (- k)), unit. clear. intros a b p q U H.
    replace (c * a * U * q) with (c * a * q * U) by lia. rewrite H. lia. }
  destruct (value_parts x ng n k HD HL) as (s2 & S & m & m' & e & EV' & _ & _ & _ & _ & _ & EXC).
  destruct (EXC ltac:(eapply N.lt_trans; [exact HN|apply N.pow_lt_mono_r; reflexivity])) as [-> ->].
  destruct (parts_nearest 3 n k HN ltac:(lia)) as (v' & EP & HR2 & _). rewrite EP in EV'.
  assert (v' = v) as ->. { apply (proj1 (decimal_unit _ _ _)) in HR'. apply (proj1 (decimal_unit _ _ _)) in HR2. eapply rounds_unique; [apply ten_nz|exact HR2|exact HR']. }
  unfold json_float. rewrite EV', EX, EG. reflexivity.
Qed.
Print Assumptions C109_stable.

(** ** JSON texts with these numbers *)
(** two values that have been read are printed alike only if they are the same value *)
Definition as_is (x : bytes) : option (bytes * bool) := Some (x, negb (starts_with (B "-") x) && negb (beq x (B "0.0"))).
Lemma print_unsigned v : double v -> v < 2 ^ 1024 * 2 ^ 1074 -> ~ starts_byte "-"%char (json_digits v) /\ (json_digits v = B "0.0" <-> v = 0).
Proof.
  intros DV LV. destruct (digits_shows false v DV LV) as (u & c & j & n & k & sci & E & [HR _] & HD & HS & _). unfold json_print in E. cbn [dash_if app] in E. split.
  - rewrite E. intros [r X]. pose proof HD as HD'. rewrite X in HD'. inversion HD' as [ng ma c0 f ex e HM HE E1 E2 E3 E4]. subst ng.
    destruct (mantissa_head _ _ _ HM) as (h & q & -> & Hh). cbn [dash_if app] in E1. injection E1 as -> _. destruct Hh as [[d Hh]|Hh]; discriminate Hh.
  - split; [|intros ->; reflexivity]. intro E0. rewrite E0 in E. rewrite <- E in HD.
    assert (denotes (B "0.0") false 0 (-1)%Z) as HZ.
    { apply (dn_ false (B "0.0") 0 1 [] 0%Z); [|constructor]. apply (ma_point (B "0") (B "0")); [|discriminate]. apply decimal_val. reflexivity. }
    destruct (denotes_det _ _ _ _ _ _ _ HD HZ) as (_ & -> & ->). unfold same_decimal in HS. rewrite !N.mul_0_l in HS. pose proof (p10 (Z.to_N j)). pose proof (p10 (Z.to_N (- -1))).
    assert (c = 0) as ->; [|apply (rounds_zero j); exact HR]. destruct (N.eq_dec c 0) as [C|C]; [exact C|]. assert (0 < c * 10 ^ Z.to_N j * 10 ^ Z.to_N (- -1)) by (apply N.mul_pos_pos; [apply N.mul_pos_pos; lia|lia]). lia.
Qed.
Lemma float_as_is t x g : json_float t = Some (x, g) -> number_ok as_is (NFloat x g).
Proof.
  intro H. destruct (C109_prints t x g H) as (_ & _ & _ & _ & _ & _ & _ & TX & TI). split; [exact TX|]. split; [exact TI|].
  unfold json_float in H. destruct (json_value t) as [[sg v]|] eqn:EV; [|discriminate H]. assert (x = json_print sg v /\ g = negb sg && negb (v =? 0)) as [-> ->] by (split; congruence). clear H TX TI.
  destruct (value_valid t sg v EV) as (DV & LV & _). destruct (print_unsigned v DV LV) as [NS NZ]. unfold as_is. do 2 f_equal. unfold json_print. destruct sg; cbn [app]; [reflexivity|].
  assert (starts_with (B "-") (json_digits v) = false) as ->.
  { destruct (starts_with (B "-") (json_digits v)) eqn:E; [|reflexivity]. exfalso. apply NS. apply starts_with_iff in E as [r E]. exists r. exact E. }
  cbn [negb andb]. f_equal. destruct (N.eqb_spec v 0) as [Z|Z].
  - rewrite (proj2 NZ Z). reflexivity.
  - destruct (beq (json_digits v) (B "0.0")) eqn:E; [|reflexivity]. apply beq_eq in E. apply NZ in E. contradiction.
Qed.
Theorem C109_injective : forall t v t' v', json_text json_float t v -> json_text json_float t' v' -> print_json v = print_json v' -> v = v'.
Proof.
  intros t v t' v' H H'. pose proof (read_ok json_float as_is (fun t x g _ _ E => float_as_is t x g E)) as (_ & R & _). apply (print_inj as_is); eapply R; [exact H|exact H'].
Qed.
Print Assumptions C109_injective.

(** ** Examples *)
Definition float_of (t : string) : option (string * bool) := match json_float (B t) with Some (x, g) => Some (string_of_list_ascii x, g) | None => None end.
Example C109_values :
  float_of "1.50" = Some ("1.5"%string, true) /\ float_of "-0" = Some ("-0.0"%string, false) /\ float_of "0e9" = Some ("0.0"%string, false) /\ float_of "1e16" = Some ("1e16"%string, true) /\
  float_of "1E15" = Some ("1000000000000000.0"%string, true) /\ float_of "-0.00001" = Some ("-0.00001"%string, false) /\ float_of "0.0000012" = Some ("1.2e-6"%string, true) /\
  float_of "18446744073709551616" = Some ("1.8446744073709552e19"%string, true) /\ float_of "5e-324" = Some ("5e-324"%string, true) /\ float_of "1e-400" = Some ("0.0"%string, false) /\
  float_of "1e309" = None /\ float_of "-2e308" = None /\ float_of "0e99999999999" = Some ("0.0"%string, false) /\ float_of "1e99999999999" = None.
Proof. vm_compute. repeat split; reflexivity. Qed.
(** the hypotheses of the theorems about "-12.50e3": -1250 * 10^1 *)
Example C109_token_example : number_token (B "-12.50e3") /\ (forall n, ~ integer_token (B "-12.50e3") n) /\ denotes (B "-12.50e3") true 1250 1 /\ json_float (B "-12.50e3") = Some (B "-12500.0", false) /\
  denotes (B "-12500.0") true 125000 (-1) /\ same_decimal 1250 1 125000 (-1).
Proof.
  split; [|split; [|split; [|split; [vm_compute; reflexivity|split; [|vm_compute; reflexivity]]]]].
  - exists (B "-"), (B "12"), 12, (B ".50"), (B "e3"). split; [reflexivity|]. split; [right; reflexivity|]. split; [exact (dec_N_plain 12)|]. split.
    + right. exists (B "50"). split; [reflexivity|]. split; [discriminate|]. exists 50. apply decimal_val. reflexivity.
    + right. exists (B "e"), [], (B "3"). split; [reflexivity|]. split; [left; reflexivity|]. split; [left; reflexivity|]. split; [discriminate|]. exists 3. apply decimal_val. reflexivity.
  - intros n HN. inversion HN as [t m [HD _] _ E|t p [HD _] _ E].
    + apply decimal_digits, Forall_inv in HD as [d HD]. discriminate HD.
    + apply decimal_digits in HD. rewrite Forall_forall in HD. destruct (HD "."%char ltac:(right; right; left; reflexivity)) as [d Hd]. discriminate Hd.
  - change 1%Z with (3 - Z.of_nat 2)%Z. apply (dn_ true (B "12.50") 1250 2 (B "e3") 3).
    + apply (ma_point (B "12") (B "50")); [apply decimal_val; reflexivity|discriminate].
    + apply ex_some; [left; reflexivity|]. apply (int_ [] false (B "3") 3); [constructor|apply decimal_val; reflexivity|discriminate].
  - change (-1)%Z with (0 - Z.of_nat 1)%Z. apply (dn_ true (B "12500.0") 125000 1 [] 0).
    + apply (ma_point (B "12500") (B "0")); [apply decimal_val; reflexivity|discriminate].
    + constructor.
Qed.
(** What is printed need not be what was written, although a shortest text with 17 digits was; nor is it always read as the number that was printed. *)
Theorem C109_drift : json_float (B "27.847603927706178") = Some (B "27.847603927706174", true) /\
  json_float (B "800000000000002e1") = Some (B "8000000000000020.0", true) /\ json_float (B "8000000000000020.0") = Some (B "8000000000000019.0", true) /\
  ~ number_ok json_float (NFloat (B "8000000000000020.0") true).
Proof.
  assert (json_float (B "8000000000000020.0") = Some (B "8000000000000019.0", true)) as E by (vm_compute; reflexivity).
  split; [vm_compute; reflexivity|]. split; [vm_compute; reflexivity|]. split; [exact E|]. intros (_ & _ & H). rewrite E in H. discriminate H.
Qed.
Print Assumptions C109_drift.
(** a page whose inline data has such numbers *)
Definition env_float : Env :=
  mkEnv (fun s => s) (fun s => B "abc" ++ s) (fun s => s)
        (fun t => match read_json json_float t with Some v => inl v | None => inr (B "not JSON") end)
        print_json (print_pretty 0) (fun a _ => a) (fun _ => None) (fun _ s => Some s) (B "/cwd") (B "/tmp")
        (fun _ _ => false) (fun _ _ => false) (fun _ p => Some (B "/" ++ p)) (fun _ _ => None) (fun _ _ => B "no file")
        (fun _ _ => None) (fun _ _ => None) (fun _ _ _ => None) (fun _ _ => None) (fun _ _ => None)
        (fun _ => 100%N) (fun _ => B "now") (fun _ lo _ => lo) (fun _ => B "0123456789abcdef")
        (fun _ _ => inr (B "no python")) (fun _ _ => inr (B "no php")).
Lemma env_float_speaks : speaks_json env_float json_float.
Proof. split; try reflexivity. intros t v. cbn [env_float e_from_str]. destruct (read_json json_float t) as [w|]; split; intro H; congruence. Qed.
Example C109_page :
  output_in env_float "{:data; {:flg; inline :} >> {""data"": {""n"": 8000000000000020.0, ""m"": 1.50e2, ""z"": 0.0}} :}{:;local::n:} {:;local::m:} {:bool; local::z >> yes :}|" =
    B "8000000000000019.0 150.0 |".
Proof. vm_compute. reflexivity. Qed.
