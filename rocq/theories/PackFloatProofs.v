(** * Proofs about the floats of MessagePack (C111) *)

From Verif Require Import Bytes BytesFacts Json Spec Float64 SpecDouble JsonFloat SpecJsonFloat JsonText SpecJson MsgPack SpecPack
  PackFloat SpecPackFloat NumberProofs WordProofs JsonProofs DoubleProofs DoubleShow JsonFloatProofs MsgProofs PropertiesDouble PropertiesJsonFloat.
Open Scope N_scope.
Opaque N.pow unit.

Lemma word_parts k m neg e f : f < 2 ^ m -> e < 2 ^ k ->
  word k m neg e f / 2 ^ m mod 2 ^ k = e /\ word k m neg e f mod 2 ^ m = f /\ (2 ^ (k + m) <=? word k m neg e f) = neg.
Proof.
  intros HF HE. unfold word. rewrite N.pow_add_r. pose proof (p2 m) as PM. pose proof (p2 k) as PK. revert HF HE PM PK. generalize (2 ^ m), (2 ^ k). clear.
  intros P Q HF HE PM PK.
  assert (((if neg then Q * P else 0) + e * P + f) / P = (if neg then Q else 0) + e) as E1.
  { symmetry. apply (N.div_unique _ _ _ f); [exact HF|]. destruct neg; lia. }
  rewrite E1. split; [|split].
  - symmetry. apply (N.mod_unique _ _ (if neg then 1 else 0)); [exact HE|]. destruct neg; lia.
  - symmetry. apply (N.mod_unique _ _ ((if neg then Q else 0) + e)); [exact HF|]. destruct neg; lia.
  - destruct neg; [apply N.leb_le; lia|apply N.leb_gt]. rewrite N.add_0_l.
    assert (e * P + P <= Q * P) by (replace (e * P + P) with ((e + 1) * P) by lia; apply N.mul_le_mono_r; lia). lia.
Qed.
Lemma word_of k m n : n < 2 ^ (k + m + 1) -> exists neg e f, n = word k m neg e f /\ f < 2 ^ m /\ e < 2 ^ k.
Proof.
  intro H. unfold word. rewrite !N.pow_add_r in H. rewrite N.pow_add_r. change (2 ^ 1) with 2 in H. pose proof (p2 m) as PM. pose proof (p2 k) as PK.
  revert H PM PK. generalize (2 ^ m), (2 ^ k). clear. intros P Q H PM PK.
  assert (P <> 0) as NP by lia. assert (Q * P <> 0) as NQ by (intro X; apply N.mul_eq_0 in X; lia).
  exists (Q * P <=? n), ((n mod (Q * P)) / P), (n mod P). split; [|split; [apply N.mod_lt; exact NP|]].
  - assert (n mod (Q * P) mod P = n mod P) as E.
    { pose proof (N.div_mod n (Q * P) NQ) as X. rewrite X at 2. symmetry. replace (Q * P * (n / (Q * P))) with (Q * (n / (Q * P)) * P) by lia.
      rewrite N.add_comm. apply N.mod_add. exact NP. }
    rewrite <- E. pose proof (N.div_mod (n mod (Q * P)) P NP) as X.
    assert (n = (if Q * P <=? n then Q * P else 0) + n mod (Q * P)) as Y.
    { destruct (N.leb_spec (Q * P) n) as [L|L].
      - assert (n mod (Q * P) = n - Q * P) as ->; [|lia]. symmetry. apply (N.mod_unique _ _ 1); lia.
      - rewrite N.mod_small by exact L. reflexivity. }
    rewrite Y at 1. rewrite X at 1. lia.
  - apply N.div_lt_upper_bound; [exact NP|]. rewrite (N.mul_comm P). apply N.mod_lt. exact NQ.
Qed.

Lemma pow_cancel a b q : a * 2 ^ q = b * 2 ^ q -> a = b.
Proof. intro H. apply N.mul_cancel_r in H; [exact H|]. pose proof (p2 q). lia. Qed.

Section bits.
Context (k m : N).
Hypothesis Hk : 2 <= k.
Hypothesis Hkm : 2 ^ (k - 1) - 1 + m <= 1075.
Let s := 1074 - (2 ^ (k - 1) - 2 + m).
Lemma half_big : 2 <= 2 ^ (k - 1).
Proof. change 2 with (2 ^ 1) at 1. apply N.pow_le_mono_r; [discriminate|]. lia. Qed.
Lemma scale_shift : s + (2 ^ (k - 1) - 1 + m) = 1075.
Proof. unfold s. pose proof half_big. revert H Hkm. generalize (2 ^ (k - 1)). clear. intros. lia. Qed.
Lemma scaled x e : 1 <= e -> x * 2 ^ (e - 1) * 2 ^ s * 2 ^ (2 ^ (k - 1) - 1 + m) = x * 2 ^ e * 2 ^ 1074.
Proof.
  intro HE. rewrite <- (N.mul_assoc _ (2 ^ s)), <- N.pow_add_r, scale_shift. rewrite <- !N.mul_assoc, <- !N.pow_add_r. do 2 f_equal. lia.
Qed.
Lemma size_normal x e v : 1 <= e -> v * 2 ^ (2 ^ (k - 1) - 1 + m) = x * 2 ^ e * 2 ^ 1074 <-> v = x * 2 ^ (e - 1) * 2 ^ s.
Proof.
  intro HE. rewrite <- (scaled x e HE). split; [apply pow_cancel|intros ->; reflexivity].
Qed.
Lemma exp_big : 4 <= 2 ^ k.
Proof. change 4 with (2 ^ 2). apply N.pow_le_mono_r; [discriminate|exact Hk]. Qed.
Lemma unpack_iff n r : n < 2 ^ (k + m + 1) -> (unpack_bits k m n = r <-> ieee k m n r).
Proof.
  intro HN. pose proof exp_big as HB. split.
  - intros <-. destruct (word_of k m n HN) as (neg & e & f & -> & HF & HE). unfold unpack_bits.
    destruct (word_parts k m neg e f HF HE) as (-> & -> & ->). destruct (N.eqb_spec e (2 ^ k - 1)) as [->|NE]; [apply ie_not_finite; exact HF|].
    destruct (N.eqb_spec e 0) as [->|NZ].
    + apply ie_small; [exact HF|]. apply size_normal; [lia|]. fold s. rewrite N.sub_diag, N.pow_0_r, N.mul_1_r. reflexivity.
    + apply ie_normal; [exact HF|lia|lia|]. apply size_normal; [lia|reflexivity].
  - intro H. destruct H as [neg e f v HF H0 HE HV|neg f v HF HV|neg f HF].
    + assert (e < 2 ^ k) as HE' by lia. unfold unpack_bits. destruct (word_parts k m neg e f HF HE') as (-> & -> & ->).
      destruct (N.eqb_spec e (2 ^ k - 1)) as [X|_]; [lia|]. destruct (N.eqb_spec e 0) as [X|_]; [lia|]. apply size_normal in HV; [|lia]. rewrite HV. reflexivity.
    + assert (0 < 2 ^ k) as HE' by lia. unfold unpack_bits. destruct (word_parts k m neg 0 f HF HE') as (-> & -> & ->).
      destruct (N.eqb_spec 0 (2 ^ k - 1)) as [X|_]; [lia|]. rewrite N.eqb_refl. apply size_normal in HV; [|lia]. rewrite HV. fold s. rewrite N.sub_diag, N.pow_0_r, N.mul_1_r. reflexivity.
    + assert (2 ^ k - 1 < 2 ^ k) as HE' by lia. unfold unpack_bits. destruct (word_parts k m neg (2 ^ k - 1) f HF HE') as (-> & _). rewrite N.eqb_refl. reflexivity.
Qed.
Lemma ieee_double n neg v : m <= 52 -> ieee k m n (Some (neg, v)) -> double v /\ v < 2 ^ (m + 1 + (2 ^ k - 3) + s).
Proof.
  intros HM H. inversion H as [g e f w HF H0 HE HV E1 E2|g f w HF HV E1 E2|]; subst.
  - apply size_normal in HV; [|lia]. split.
    + exists (2 ^ m + f), (e - 1 + s). split.
      * apply N.lt_le_trans with (2 ^ (m + 1)); [rewrite N.pow_add_r; change (2 ^ 1) with 2; lia|]. apply N.pow_le_mono_r; [discriminate|lia].
      * rewrite HV, N.pow_add_r, N.mul_assoc. reflexivity.
    + rewrite HV. rewrite 2!N.pow_add_r. apply N.mul_lt_mono_pos_r; [apply p2|]. apply N.lt_le_trans with (2 ^ (m + 1) * 2 ^ (e - 1)).
      * apply N.mul_lt_mono_pos_r; [apply p2|]. rewrite N.pow_add_r. change (2 ^ 1) with 2. lia.
      * apply N.mul_le_mono_l. apply N.pow_le_mono_r; [discriminate|lia].
  - apply size_normal in HV; [|lia]. change (1 - 1) with 0 in HV. rewrite N.pow_0_r, N.mul_1_r in HV. split.
    + exists f, s. split; [|exact HV]. apply N.lt_le_trans with (2 ^ m); [exact HF|]. apply N.pow_le_mono_r; [discriminate|lia].
    + rewrite HV, N.pow_add_r. apply N.mul_lt_mono_pos_r; [apply p2|]. apply N.lt_le_trans with (2 ^ m); [exact HF|]. apply N.pow_le_mono_r; [discriminate|lia].
Qed.
End bits.

Lemma single_iff n r : n < 2 ^ 32 -> (unpack_bits 8 23 n = r <-> ieee 8 23 n r).
Proof. apply (unpack_iff 8 23); vm_compute; discriminate. Qed.
Lemma double_iff n r : n < 2 ^ 64 -> (unpack_bits 11 52 n = r <-> ieee 11 52 n r).
Proof. apply (unpack_iff 11 52); vm_compute; discriminate. Qed.

Lemma float_word_some x : length x = 4%nat \/ length x = 8%nat -> exists r, float_word x r.
Proof.
  intros [H|H]; (eexists; exists (be_value x); split; [apply be_iff; reflexivity|]); [left|right]; (split; [exact H|]).
  - apply single_iff; [|reflexivity]. pose proof (be_bound x) as X. rewrite H in X. exact X.
  - apply double_iff; [|reflexivity]. pose proof (be_bound x) as X. rewrite H in X. exact X.
Qed.
Lemma float_word_read x r : float_word x r ->
  pack_float x = match r with Some (neg, v) => Some (json_print neg v, negb neg && negb (v =? 0)) | None => None end.
Proof.
  intros (n & HB & H). apply be_iff in HB. subst n. unfold pack_float. pose proof (be_bound x) as X.
  destruct H as [[L H]|[L H]]; rewrite L in *; cbn [Nat.eqb].
  - apply single_iff in H; [|exact X]. rewrite H. reflexivity.
  - apply double_iff in H; [|exact X]. rewrite H. reflexivity.
Qed.
Lemma float_word_det x r r' : float_word x r -> float_word x r' -> r = r'.
Proof.
  intros (n & HB & H) (n' & HB' & H'). apply be_iff in HB. apply be_iff in HB'. subst n n'. pose proof (be_bound x) as X.
  destruct H as [[L H]|[L H]], H' as [[L' H']|[L' H']]; try congruence; rewrite L in X.
  - apply single_iff in H; [|exact X]. apply single_iff in H'; [|exact X]. congruence.
  - apply double_iff in H; [|exact X]. apply double_iff in H'; [|exact X]. congruence.
Qed.
Lemma float_word_double x neg v : float_word x (Some (neg, v)) -> double v /\ v < 2 ^ 1024 * 2 ^ 1074.
Proof.
  rewrite <- N.pow_add_r. change (1024 + 1074) with 2098. intros (n & _ & [[_ H]|[_ H]]).
  - apply ieee_double in H as [H1 H2]; [|vm_compute; discriminate..]. split; [exact H1|]. eapply N.lt_le_trans; [exact H2|].
    apply N.pow_le_mono_r; [discriminate|]. vm_compute. discriminate.
  - apply ieee_double in H as [H1 H2]; [|vm_compute; discriminate..]. split; [exact H1|]. eapply N.lt_le_trans; [exact H2|].
    apply N.pow_le_mono_r; [discriminate|]. vm_compute. discriminate.
Qed.

(** ** Writing *)
Lemma bits_word neg v : double v -> v < 2 ^ 2098 -> exists e f, double_bits neg v = word 11 52 neg e f /\ ieee 11 52 (word 11 52 neg e f) (Some (neg, v)) /\
  e < 2 ^ 11 /\ f < 2 ^ 52.
Proof.
  intros (mm & j & HM & HV) HB. unfold double_bits, word. change (11 + 52) with 63. destruct (N.ltb_spec v (2 ^ 52)) as [L|L].
  - exists 0, v. split; [lia|]. split; [|split; [reflexivity|exact L]]. apply (ie_small 11 52 neg v v L). generalize v. clear. intro v.
    apply (size_normal 11 52); [vm_compute; discriminate..|]. change (2 ^ (1 - 1)) with 1. change (2 ^ (1074 - (2 ^ (11 - 1) - 2 + 52))) with 1. lia.
  - assert (52 <= N.log2 v) as HL. { apply N.log2_le_pow2; [|exact L]. pose proof (p2 52). lia. }
    assert (N.log2 v < 2098) as HU. { apply N.log2_lt_pow2; [|exact HB]. pose proof (p2 52). lia. }
    set (l := N.log2 v) in *. replace (l - 51 - 1) with (l - 52) by lia.
    assert (v <> 0) as NV by (pose proof (p2 52); lia).
    pose proof (N.log2_spec v ltac:(lia)) as [S1 S2]. fold l in S1, S2.
    assert (l - 52 <= j) as HJ.
    { assert (l < 53 + j); [|lia]. apply (N.pow_lt_mono_r_iff 2); [reflexivity|]. apply N.le_lt_trans with v; [exact S1|]. rewrite HV, N.pow_add_r.
      apply N.mul_lt_mono_pos_r; [apply p2|exact HM]. }
    assert (v = v / 2 ^ (l - 52) * 2 ^ (l - 52)) as EV.
    { rewrite N.mul_comm. apply N.div_exact; [pose proof (p2 (l - 52)); lia|]. rewrite HV. replace j with (j - (l - 52) + (l - 52)) by lia. rewrite N.pow_add_r, N.mul_assoc.
      apply N.mod_mul. pose proof (p2 (l - 52)). lia. }
    set (w := v / 2 ^ (l - 52)) in *. assert (2 ^ 52 <= w) as W1.
    { apply (N.mul_le_mono_pos_r _ _ (2 ^ (l - 52))); [apply p2|]. rewrite <- EV, <- N.pow_add_r. replace (52 + (l - 52)) with l by lia. exact S1. }
    assert (w < 2 ^ 53) as W2.
    { apply (N.mul_lt_mono_pos_r (2 ^ (l - 52))); [apply p2|]. rewrite <- EV, <- N.pow_add_r. replace (53 + (l - 52)) with (N.succ l) by lia. exact S2. }
    assert (w - 2 ^ 52 < 2 ^ 52) as W3. { change 53 with (52 + 1) in W2. rewrite N.pow_add_r in W2. change (2 ^ 1) with 2 in W2. lia. }
    exists (l - 51), (w - 2 ^ 52). split; [lia|]. split; [|split; [|exact W3]].
    + change (2 ^ 63) with (2 ^ (11 + 52)). apply (ie_normal 11 52 neg (l - 51) (w - 2 ^ 52) v W3); [lia|change (2 ^ 11 - 1) with 2047; lia|].
      apply (size_normal 11 52); [vm_compute; discriminate|vm_compute; discriminate|lia|]. change (2 ^ (1074 - (2 ^ (11 - 1) - 2 + 52))) with 1. rewrite N.mul_1_r.
      replace (2 ^ 52 + (w - 2 ^ 52)) with w by lia. replace (l - 51 - 1) with (l - 52) by lia. exact EV.
    + change (2 ^ 11) with 2048. lia.
Qed.
Lemma word_bound k m neg e f : f < 2 ^ m -> e < 2 ^ k -> word k m neg e f < 2 ^ (k + m + 1).
Proof.
  intros HF HE. unfold word. rewrite !N.pow_add_r. change (2 ^ 1) with 2. revert HF HE. generalize (2 ^ m), (2 ^ k). clear. intros P Q HF HE.
  assert (e * P + P <= Q * P) by (replace (e * P + P) with ((e + 1) * P) by lia; apply N.mul_le_mono_r; lia). destruct neg; lia.
Qed.
Lemma bits_written neg v : double v -> v < 2 ^ 1024 * 2 ^ 1074 ->
  length (be_bytes 8 (double_bits neg v)) = 8%nat /\ float_word (be_bytes 8 (double_bits neg v)) (Some (neg, v)).
Proof.
  intros DV LV. rewrite <- N.pow_add_r in LV. destruct (bits_word neg v DV LV) as (e & f & EB & HI & HE & HF). destruct (be_bytes_ok 8 (double_bits neg v)) as [L HB].
  split; [exact L|]. exists (double_bits neg v). split; [|right; split; [exact L|rewrite EB; exact HI]].
  apply HB. rewrite EB. apply (word_bound 11 52); assumption.
Qed.
Lemma word_inj k m neg e f neg' e' f' : f < 2 ^ m -> e < 2 ^ k -> f' < 2 ^ m -> e' < 2 ^ k -> word k m neg e f = word k m neg' e' f' -> neg = neg' /\ e = e' /\ f = f'.
Proof.
  intros HF HE HF' HE' E. destruct (word_parts k m neg e f HF HE) as (A & A1 & A2). destruct (word_parts k m neg' e' f' HF' HE') as (C & C1 & C2). rewrite E in *. split; [congruence|split; congruence].
Qed.
Lemma normal_inj m f e f' e' : f < 2 ^ m -> f' < 2 ^ m -> (2 ^ m + f) * 2 ^ e = (2 ^ m + f') * 2 ^ e' -> e = e' /\ f = f'.
Proof.
  intros HF HF' E.
  assert (forall g x, g < 2 ^ m -> N.log2 ((2 ^ m + g) * 2 ^ x) = m + x) as HL.
  { intros g x HG. apply N.log2_unique; [lia|]. rewrite !N.pow_succ_r', N.pow_add_r. pose proof (p2 x) as PX. revert HG PX. generalize (2 ^ m), (2 ^ x). clear. intros P X HG PX. split.
    - apply N.mul_le_mono_r. lia.
    - replace (2 * (P * X)) with (2 * P * X) by lia. apply N.mul_lt_mono_pos_r; [exact PX|lia]. }
  pose proof (HL f e HF) as L1. pose proof (HL f' e' HF') as L2. rewrite E in L1. assert (e = e') as -> by lia. split; [reflexivity|]. apply pow_cancel in E. lia.
Qed.
Lemma ieee_inj k m n n' neg v : 2 <= k -> ieee k m n (Some (neg, v)) -> ieee k m n' (Some (neg, v)) -> n = n'.
Proof.
  intros HK H H'.
  inversion H as [g e f w HF H0 HE HV E1 E2|g f w HF HV E1 E2|]; subst; inversion H' as [g' e' f' w' HF' H0' HE' HV' E1' E2'|g' f' w' HF' HV' E1' E2'|]; subst; rewrite HV in HV'; apply pow_cancel in HV'.
  - destruct (normal_inj m f e f' e' HF HF' HV') as [-> ->]. reflexivity.
  - exfalso. assert (2 ^ m * 2 ^ 1 <= (2 ^ m + f) * 2 ^ e). { apply N.mul_le_mono; [lia|]. apply N.pow_le_mono_r; [discriminate|lia]. } change (2 ^ 1) with 2 in *. lia.
  - exfalso. assert (2 ^ m * 2 ^ 1 <= (2 ^ m + f') * 2 ^ e'). { apply N.mul_le_mono; [lia|]. apply N.pow_le_mono_r; [discriminate|lia]. } change (2 ^ 1) with 2 in *. lia.
  - change (2 ^ 1) with 2 in HV'. assert (f = f') as -> by lia. reflexivity.
Qed.
Lemma be_inj : forall x y : bytes, length x = length y -> be_value x = be_value y -> x = y.
Proof.
  intro x. induction x as [|c x IH] using rev_ind; intros y HL HV.
  - destruct y; [reflexivity|discriminate HL].
  - destruct y as [|d y _] using rev_ind; [rewrite app_length in HL; cbn in HL; lia|]. rewrite !app_length in HL. cbn [length] in HL. rewrite !be_value_snoc in HV.
    pose proof (N_below c). pose proof (N_below d). assert (be_value x = be_value y /\ N_of_ascii c = N_of_ascii d) as [E1 E2] by lia.
    rewrite (IH y ltac:(lia) E1). f_equal. f_equal. rewrite <- (ascii_N_embedding c), <- (ascii_N_embedding d), E2. reflexivity.
Qed.
Lemma float_word_inj x y r : length x = length y -> r <> None -> float_word x r -> float_word y r -> x = y.
Proof.
  intros HL HR (n & HB & H) (n' & HB' & H'). destruct r as [[neg v]|]; [|contradiction]. apply be_inj; [exact HL|]. apply be_iff in HB. apply be_iff in HB'. subst n n'.
  destruct H as [[L H]|[L H]], H' as [[L' H']|[L' H']]; try congruence; eapply ieee_inj; try exact H; try exact H'; lia.
Qed.

(** ** The printed form *)
Lemma print_stands neg v : double v -> v < 2 ^ 1024 * 2 ^ 1074 -> stands_for (json_print neg v) (Fin neg v).
Proof.
  intros DV LV. destruct (digits_shows neg v DV LV) as (u & c & j & n & k & sci & -> & [HR _] & HD & HS & _).
  assert (decimal_rounds n k v) as HR'.
  { apply (proj2 (decimal_unit _ _ _)). apply (proj1 (decimal_unit _ _ _)) in HR. revert HR. apply rounds_same; try apply ten_nz. revert HS. unfold same_decimal.
    generalize (10 ^ Z.to_N j), (10 ^ Z.to_N (- j)), (10 ^ Z.to_N k), (10 ^ Z.to_N (- k)), unit. clear. intros a b p q U H.
    replace (c * a * U * q) with (c * a * q * U) by lia. rewrite H. lia. }
  inversion HD as [q ma c1 f ex e HM HE E1 E2 E3 E4]. subst. cbn [dash_if app].
  apply (sf_number (dash_if neg) neg ma n f ex e v); [destruct neg; constructor|exact HM|exact HE|exact HR'|].
  unfold bounded. apply N.ltb_lt in LV. rewrite LV. reflexivity.
Qed.
Lemma bytes_written neg v g : double v -> v < 2 ^ 1024 * 2 ^ 1074 -> double_bytes (json_print neg v) g = be_bytes 8 (double_bits neg v).
Proof. intros DV LV. unfold double_bytes. rewrite (proj2 (read_iff _ _) (print_stands neg v DV LV)). reflexivity. Qed.
