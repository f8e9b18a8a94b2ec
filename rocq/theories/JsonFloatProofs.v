(** * Reading and printing the floating-point numbers of JSON *)

From Verif Require Import Bytes BytesFacts State Spec Float64 SpecDouble SpecJsonFloat NumberProofs WordProofs DoubleProofs DoubleShow JsonFloat.
Open Scope N_scope.
Opaque N.pow unit.

(** ** The digits of the significand *)
Lemma take_sig_spec ds : forall acc, Forall is_digit ds -> acc < 2 ^ 64 -> exists tk s r, take_sig acc ds = (s, r) /\ ds = tk ++ r /\ digits_val acc tk = Some s /\
  (r = [] \/ (2 ^ 60 <= s /\ forall t n, digits_val s (r ++ t) = Some n -> 2 ^ 64 <= n)) /\ s < 2 ^ 64.
Proof.
  induction ds as [|a ds IH]; intros acc HF HA; cbn [take_sig].
  - exists [], acc, []. repeat split; auto.
  - pose proof (Forall_inv HF) as HD. apply Forall_inv_tail in HF. destruct (digit a) as [d|] eqn:ED.
    2:{ destruct HD as [d HD]. congruence. }
    pose proof (proj1 (digit_ascii _ _ ED)) as HD9. destruct (N.ltb_spec (acc * 10 + d) (2 ^ 64)) as [L|L].
    + destruct (IH (acc * 10 + d) HF L) as (tk & s & r & E1 & E2 & E3 & E4). exists (a :: tk), s, r. rewrite E1. split; [reflexivity|].
      split; [rewrite E2; reflexivity|]. split; [cbn [digits_val]; rewrite ED; exact E3|exact E4].
    + exists [], acc, (a :: ds). split; [reflexivity|]. split; [reflexivity|]. split; [reflexivity|]. split; [right|exact HA].
      split; [|intros t n; rewrite <- app_comm_cons; cbn [digits_val]; rewrite ED; intro H; apply decimal_bound in H; pose proof (p10 (N.of_nat (length (ds ++ t)))) as P;
        assert (2 ^ 64 * 1 <= (acc * 10 + d) * 10 ^ N.of_nat (length (ds ++ t))) as X by (apply N.mul_le_mono; [exact L|lia]); rewrite N.mul_1_r in X;
        eapply N.le_trans; [exact X|apply H]].
      change (2 ^ 60) with 1152921504606846976. change (2 ^ 64) with 18446744073709551616 in L. lia.
Qed.

(** the value of the token and the value that is read lie in one interval *)
Lemma sig_parts ip fp c : digits_val 0 (ip ++ fp) = Some c -> exists s1 r1 s2 r2 S m m', take_sig 0 ip = (s1, r1) /\ take_sig s1 fp = (s2, r2) /\
  S * 10 ^ m <= c < (S + 1) * 10 ^ m /\ S * 10 ^ m' <= s2 < (S + 1) * 10 ^ m' /\ (length r1 <= length ip)%nat /\ (length r2 <= length fp)%nat /\
  (Z.of_N m - Z.of_nat (length fp) = Z.of_N m' + (Z.of_nat (length r1) - Z.of_nat (length fp - length r2)))%Z /\
  ((m = 0 /\ m' = 0) \/ 2 ^ 60 <= S) /\ s2 < 2 ^ 64 /\ (c < 2 ^ 64 -> s2 = c /\ r1 = [] /\ r2 = []).
Proof.
  intro H. pose proof (digits_val_all _ _ _ H) as HF. apply Forall_app in HF as [HF1 HF2].
  destruct (take_sig_spec ip 0 HF1 ltac:(reflexivity)) as (tk1 & s1 & r1 & E1 & I1 & D1 & O1 & L1).
  destruct (take_sig_spec fp s1 HF2 L1) as (tk2 & s2 & r2 & E2 & I2 & D2 & O2 & L2). exists s1, r1, s2, r2.
  assert (length ip = length tk1 + length r1)%nat as LI by (rewrite I1; apply app_length). assert (length fp = length tk2 + length r2)%nat as LF by (rewrite I2; apply app_length).
  rewrite digits_val_app in H. rewrite I1, digits_val_app, D1 in H. destruct r1 as [|a1 r1].
  - cbn [digits_val] in H. rewrite I2, digits_val_app, D2 in H. exists s2, (N.of_nat (length r2)), 0. split; [exact E1|]. split; [exact E2|]. pose proof (decimal_bound _ _ _ H) as B.
    split; [exact B|]. split; [rewrite N.pow_0_r; lia|]. split; [lia|]. split; [lia|]. split; [cbn [length]; lia|].
    split; [destruct O2 as [->|[O2 _]]; [left; split; reflexivity|right; exact O2]|]. split; [exact L2|].
    intro C. destruct r2 as [|a2 r2]; [cbn [digits_val] in H; injection H as ->; split; [reflexivity|split; reflexivity]|].
    exfalso. destruct O2 as [O2|[_ O2]]; [discriminate O2|]. rewrite <- (app_nil_r (a2 :: r2)) in H. apply O2 in H. apply N.lt_nge in C. contradiction.
  - destruct O1 as [O1|[O1 O1']]; [discriminate O1|]. set (rr := a1 :: r1) in *. destruct (digits_val s1 rr) as [w|] eqn:EW; [|discriminate H].
    pose proof (decimal_bound _ _ _ EW) as B1. pose proof (decimal_bound _ _ _ H) as B2. pose proof (decimal_bound _ _ _ D2) as B3.
    exists s1, (N.of_nat (length rr) + N.of_nat (length fp)), (N.of_nat (length tk2)). split; [exact E1|]. split; [exact E2|]. rewrite N.pow_add_r.
    set (P := 10 ^ N.of_nat (length rr)) in *. set (Q := 10 ^ N.of_nat (length fp)) in *. split.
    { rewrite !N.mul_assoc. split; [apply N.le_trans with (w * Q); [apply N.mul_le_mono_r|]; apply B1 || apply B2|].
      apply N.lt_le_trans with ((w + 1) * Q); [apply B2|]. apply N.mul_le_mono_r. clear - B1. lia. }
    split; [exact B3|]. split; [lia|]. split; [lia|]. split; [lia|]. split; [right; exact O1|]. split; [exact L2|].
    intro C. exfalso. assert (digits_val s1 (rr ++ fp) = Some c) as X by (rewrite digits_val_app, EW; exact H). apply O1' in X. apply N.lt_nge in C. contradiction.
Qed.

(** ** From the token to [from_parts] *)
Lemma take_digits_split s x y : take_digits s = (x, y) -> s = x ++ y.
Proof. intro H. pose proof (take_digits_parts s) as [X _]. rewrite H in X. exact X. Qed.
Lemma one_nz : 1 <> 0. Proof. discriminate. Qed.
Lemma size_zero n : size_of n = 0 <-> n = 0.
Proof.
  unfold size_of. split; [|intros ->; rewrite N.mul_0_l; apply round_zero]. intro H. assert (rounds (n * unit) 1 0) as R by (apply (proj2 (rounds_iff (n * unit) 1 0 one_nz)); symmetry; exact H).
  apply rounds_0 in R; [|discriminate]. pose proof unit_pos as U. assert (2 <= unit) as U2 by (vm_compute; discriminate).
  destruct (N.eq_dec n 0) as [E|E]; [exact E|]. assert (1 * 2 <= n * unit) by (apply N.mul_le_mono; lia). lia.
Qed.
Lemma far_below fuel : forall f e, (e < - 308 * (Z.of_nat fuel + 1))%Z -> from_parts fuel f e = Some 0.
Proof.
  induction fuel as [|fuel IH]; intros f e HE; cbn [from_parts]; (destruct (Z.leb_spec (Z.abs e) 308); [lia|]); (destruct (f =? 0); [reflexivity|]);
    (destruct (Z.leb_spec 0 e); [lia|]); [reflexivity|]. apply IH. lia.
Qed.
Lemma far_above fuel f e : (308 < e)%Z -> from_parts fuel f e = if f =? 0 then Some 0 else None.
Proof. intro HE. destruct fuel; cbn [from_parts]; (destruct (Z.leb_spec (Z.abs e) 308); [lia|]); (destruct (f =? 0); [reflexivity|]); (destruct (Z.leb_spec 0 e); [reflexivity|lia]). Qed.
Lemma exponent_text_ok ex e : exponent ex e -> ex <> [] -> exists neg n, exponent_text ex = Some (neg, n) /\ e = (if neg then - Z.of_N n else Z.of_N n)%Z.
Proof.
  intros [|c t z HC HT] HN; [congruence|]. clear HN. destruct HT as [sg neg ds n HS HD HE]. pose proof (proj2 (digits1_iff ds n) (conj HD HE)) as D1.
  destruct HS; cbn [exponent_text app]; cbv [B list_ascii_of_string].
  - destruct ds as [|g r]; [congruence|]. apply decimal_digits in HD. apply Forall_inv, digit_not_sign in HD as [-> ->]. rewrite D1. exists false, n. split; reflexivity.
  - cbn [app exponent_text]. change (aeqb "+" plus_sign) with true. cbv iota. rewrite D1. exists false, n. split; reflexivity.
  - cbn [app exponent_text]. change (aeqb "-" plus_sign) with false. change (aeqb "-" minus_sign) with true. cbv iota. rewrite D1. exists true, n. split; reflexivity.
Qed.
Lemma read_parts_ok ip fp ep e s1 r1 s2 r2 : exponent ep e -> take_sig 0 ip = (s1, r1) -> take_sig s1 fp = (s2, r2) ->
  (Z.of_nat (length r1) < 2 ^ 30)%Z -> (Z.of_nat (length fp) < 2 ^ 30)%Z ->
  read_parts ip fp ep = from_parts 3 (size_of s2) (Z.of_nat (length r1) - Z.of_nat (length fp - length r2) + e)%Z.
Proof.
  intros HE E1 E2 L1 L2. unfold read_parts. rewrite E1, E2. set (start := (Z.of_nat (length r1) - Z.of_nat (length fp - length r2))%Z).
  assert (- 2 ^ 30 < start < 2 ^ 30)%Z as HS by (unfold start; lia). clearbody start. destruct ep as [|c ep].
  { apply exp_iff in HE. injection HE as <-. f_equal. lia. }
  destruct (exponent_text_ok _ _ HE ltac:(discriminate)) as (neg & n & EX & ->). rewrite EX. destruct (N.ltb_spec i32_max n) as [L|L].
  2:{ f_equal. destruct neg; lia. }
  unfold i32_max in L. destruct neg; cbn [negb andb].
  - rewrite andb_false_r. symmetry. apply far_below. lia.
  - rewrite andb_true_r. rewrite far_above by lia. destruct (N.eqb_spec s2 0) as [E|E]; cbn [negb].
    + rewrite (proj2 (N.eqb_eq _ _) (proj2 (size_zero s2) E)). reflexivity.
    + destruct (N.eqb_spec (size_of s2) 0) as [Z0|Z0]; [apply (proj1 (size_zero s2)) in Z0; contradiction|reflexivity].
Qed.
Lemma value_parts t neg c j : denotes t neg c j -> (Z.of_nat (length t) < 2 ^ 30)%Z -> exists s2 S m m' e,
  json_value t = match from_parts 3 (size_of s2) e with Some v => Some (neg, v) | None => None end /\
  S * 10 ^ m <= c < (S + 1) * 10 ^ m /\ S * 10 ^ m' <= s2 < (S + 1) * 10 ^ m' /\ (Z.of_N m + j = Z.of_N m' + e)%Z /\
  ((m = 0 /\ m' = 0) \/ 2 ^ 60 <= S) /\ s2 < 2 ^ 64 /\ (c < 2 ^ 64 -> s2 = c /\ e = j).
Proof.
  intros [ng ma c' f ex e HM HE] HL. destruct (mantissa_parts _ _ _ _ _ HM HE) as (ip & r1 & fp & T1 & T2 & _ & HD & HF).
  destruct (sig_parts ip fp c' HD) as (s1 & q1 & s2 & q2 & S & m & m' & E1 & E2 & B1 & B2 & L1 & L2 & EE & OS & LS & EX).
  assert (length ip <= length (ma ++ ex) /\ length fp <= length (ma ++ ex))%nat as [LI LF].
  { pose proof (take_digits_split _ _ _ T1) as SP. split; [rewrite SP, app_length; lia|]. rewrite SP, app_length. unfold point_of in T2. destruct r1 as [|a r1].
    - injection T2 as <- <-. cbn. lia.
    - destruct (aeqb a "."%char); [|injection T2 as <- <-; cbn; lia]. pose proof (take_digits_split _ _ _ T2) as SP2. cbn [length]. rewrite SP2, app_length. lia. }
  rewrite app_length in HL. exists s2, S, m, m', (Z.of_nat (length q1) - Z.of_nat (length fp - length q2) + e)%Z.
  split; [|split; [exact B1|split; [exact B2|split; [lia|split; [exact OS|split; [exact LS|intro C; destruct (EX C) as (-> & -> & ->); split; [reflexivity|cbn [length]; lia]]]]]]].
  assert (forall t0, (ng = true /\ t0 = minus_sign :: ma ++ ex) \/ (ng = false /\ t0 = ma ++ ex) -> json_value t0 = match read_parts ip fp ex with Some v => Some (ng, v) | None => None end) as G.
  { intros t0 HT. unfold json_value.
    assert (match t0 with c :: r => if aeqb c minus_sign then (true, r) else (false, t0) | [] => (false, t0) end = (ng, ma ++ ex)) as ->.
    { destruct HT as [[-> ->]|[-> ->]]; [reflexivity|]. destruct (mantissa_head _ _ _ HM) as (h & r & -> & Hh). cbn [app].
      assert (aeqb h minus_sign = false) as ->; [|reflexivity]. destruct Hh as [Hh| ->]; [apply digit_not_sign in Hh; apply Hh|reflexivity]. }
    rewrite T1. unfold point_of in T2. rewrite T2. reflexivity. }
  rewrite (G (dash_if ng ++ ma ++ ex)); [|destruct ng; [left|right]; split; reflexivity]. erewrite read_parts_ok; [reflexivity|exact HE|exact E1|exact E2|lia|lia].
Qed.

(** ** Few digits and a small exponent: the nearest double *)
Lemma size_exact c : c <= 2 ^ 53 -> size_of c = c * unit.
Proof. intro H. unfold size_of. symmetry. apply (proj1 (rounds_iff _ _ _ one_nz)). rewrite <- (N.mul_1_r (c * unit)) at 1. apply rounds_exact; [apply double_unit; exact H|exact one_nz]. Qed.
Lemma five_22 : 5 ^ 22 < 2 ^ 53. Proof. reflexivity. Qed.
Lemma pow_exact k : k <= 22 -> pow10 k = 10 ^ k * unit.
Proof.
  intro H. unfold pow10, read_decimal. rewrite N2Z.id. replace (Z.to_N (- Z.of_N k)) with 0 by lia. rewrite N.pow_0_r, N.mul_1_l. symmetry.
  apply (proj1 (rounds_iff _ _ _ one_nz)). rewrite <- (N.mul_1_r (10 ^ k * unit)) at 1. apply rounds_exact; [|exact one_nz].
  exists (5 ^ k), (k + 1074). split.
  - apply N.le_lt_trans with (2 := five_22). apply N.pow_le_mono_r; [discriminate|exact H].
  - change 10 with (5 * 2) at 1. rewrite N.pow_mul_l, N.pow_add_r, unit_is. generalize (5 ^ k), (2 ^ k), unit. clear. intros. lia.
Qed.
Lemma small_top : 2 ^ 53 * 10 ^ 22 * unit < 2 ^ 2098. Proof. vm_compute. reflexivity. Qed.
Lemma parts_nearest fuel c j : c < 2 ^ 53 -> (Z.abs j <= 22)%Z -> exists v, from_parts fuel (size_of c) j = Some v /\ decimal_rounds c j v /\ v < 2 ^ 2098.
Proof.
  intros HC HJ. rewrite size_exact by lia. pose proof unit_nz as UN.
  assert (forall v, decimal_rounds c j v -> v < 2 ^ 2098) as TOP.
  { intros v HR. apply (proj1 (decimal_unit _ _ _)) in HR. apply N.nle_gt. intro L.
    set (n := c * 10 ^ Z.to_N j * unit) in *. set (d := 10 ^ Z.to_N (- j)) in *. pose proof (ten_nz (Z.to_N (- j))) as ND. fold d in ND.
    set (w := 2 ^ 53 * 10 ^ 22 * unit) in *.
    assert (double w) as DW.
    { exists (5 ^ 22), (53 + 22 + 1074). split; [exact five_22|]. unfold w. change 10 with (5 * 2). rewrite N.pow_mul_l, !N.pow_add_r, unit_is. generalize (5 ^ 22), (2 ^ 22), (2 ^ 53), unit. clear. intros. lia. }
    assert (n <= w * d) as NW.
    { unfold n, w, d. apply N.le_trans with (2 ^ 53 * 10 ^ 22 * unit * 1); [|apply N.mul_le_mono_l; pose proof (p10 (Z.to_N (- j))); lia]. rewrite N.mul_1_r. apply N.mul_le_mono_r.
      apply N.mul_le_mono; [lia|apply N.pow_le_mono_r; [discriminate|lia]]. }
    pose proof small_top as ST. fold w in ST. assert (w < v) as WV by (apply N.lt_le_trans with (1 := ST); exact L).
    destruct HR as [_ HR]. destruct (HR w DW) as [X|[X _]]; [intros ->; apply (N.lt_irrefl _ WV)| |].
    - assert (w * d < v * d) as Y by (apply N.mul_lt_mono_pos_r; [lia|exact WV]). unfold gap in X. clear - X NW Y. lia.
    - assert (w * d < v * d) as Y by (apply N.mul_lt_mono_pos_r; [lia|exact WV]). unfold gap in X. clear - X NW Y. lia. }
  assert (exists v, decimal_rounds c j v /\ (if (0 <=? j)%Z then size_mul (c * unit) (pow10 (Z.to_N j)) else size_div (c * unit) (pow10 (Z.to_N (- j)))) = v) as (v & HR & EV).
  { eexists. split; [|reflexivity]. apply (proj2 (decimal_unit _ _ _)). destruct (Z.leb_spec 0 j) as [J|J].
    - rewrite pow_exact by lia. unfold size_mul. replace (Z.to_N (- j)) with 0 by lia. rewrite N.pow_0_r.
      apply (rounds_same (c * unit * (10 ^ Z.to_N j * unit)) unit); [exact UN|exact one_nz|generalize unit; clear; intros; lia|]. apply (proj2 (rounds_iff _ _ _ UN)). reflexivity.
    - rewrite pow_exact by lia. unfold size_div. replace (Z.to_N j) with 0 by lia. rewrite N.pow_0_r, N.mul_1_r.
      assert (10 ^ Z.to_N (- j) * unit <> 0) as DN by (apply N.neq_mul_0; split; [apply ten_nz|exact UN]).
      apply (rounds_same (c * unit * unit) (10 ^ Z.to_N (- j) * unit)); [exact DN|apply ten_nz|generalize unit; clear; intros; lia|]. apply (proj2 (rounds_iff _ _ _ DN)). reflexivity. }
  exists v. split; [|split; [exact HR|apply TOP; exact HR]].
  assert (from_parts fuel (c * unit) j = if (0 <=? j)%Z then let r := size_mul (c * unit) (pow10 (Z.to_N j)) in if 2 ^ 2098 <=? r then None else Some r
    else Some (size_div (c * unit) (pow10 (Z.to_N (- j))))) as ->.
  { destruct fuel; cbn [from_parts]; (destruct (Z.leb_spec (Z.abs j) 308); [reflexivity|lia]). }
  destruct (0 <=? j)%Z; [|rewrite EV; reflexivity]. cbv zeta. rewrite EV. destruct (N.leb_spec (2 ^ 2098) v) as [L|L]; [|reflexivity].
  exfalso. apply TOP in HR. apply N.lt_nge in HR. contradiction.
Qed.

(** ** Fifteen digits *)
Lemma ten_15 : 4 * 10 ^ 15 <= 2 ^ 52. Proof. vm_compute. discriminate. Qed.
Lemma apart c a c' b : c < 10 ^ 15 -> c' < 10 ^ 15 -> c * 10 ^ a < c' * 10 ^ b -> c' * 10 ^ b <= (c' * 10 ^ b - c * 10 ^ a) * 10 ^ 15.
Proof.
  intros HC HC' HL. set (T := 10 ^ 15) in *. destruct (N.le_gt_cases b a) as [L|L].
  - replace (10 ^ a) with (10 ^ (a - b) * 10 ^ b) in * by (rewrite <- N.pow_add_r; f_equal; lia). rewrite N.mul_assoc in *. set (d := c * 10 ^ (a - b)) in *.
    rewrite <- N.mul_sub_distr_r. pose proof (p10 b) as P. apply N.mul_lt_mono_pos_r in HL; [|exact P].
    apply N.le_trans with (1 * 10 ^ b * T); [rewrite N.mul_1_l, N.mul_comm; apply N.mul_le_mono_l; lia|]. apply N.mul_le_mono_r, N.mul_le_mono_r. lia.
  - replace (10 ^ b) with (10 ^ (b - a) * 10 ^ a) in * by (rewrite <- N.pow_add_r; f_equal; lia). rewrite N.mul_assoc in *. set (d := c' * 10 ^ (b - a)) in *.
    rewrite <- N.mul_sub_distr_r. pose proof (p10 a) as P. apply N.mul_lt_mono_pos_r in HL; [|exact P].
    replace ((d - c) * 10 ^ a * T) with ((d - c) * T * 10 ^ a) by (generalize (10 ^ a); clear; intros; lia). apply N.mul_le_mono_r.
    assert (1 <= T) by (unfold T; pose proof (p10 15); lia). destruct (N.le_gt_cases T d) as [G|G].
    + rewrite N.mul_sub_distr_r. assert (c * T <= (T - 1) * d) as X by (apply N.le_trans with ((T - 1) * T); [apply N.mul_le_mono_r; lia|apply N.mul_le_mono_l; exact G]).
      rewrite N.mul_sub_distr_r in X. assert (d <= T * d) by (rewrite <- (N.mul_1_l d) at 1; apply N.mul_le_mono_r; assumption).
      rewrite (N.mul_comm d T). clear - X H0. rewrite N.mul_1_l in X. lia.
    + apply N.le_trans with (1 * T); [lia|]. apply N.mul_le_mono_r. lia.
Qed.
(** an interval that is long enough contains two doubles *)
Lemma two_doubles x y D : D <> 0 -> x < y -> y <= (y - x) * 10 ^ 15 -> 2 ^ 53 * D <= y -> exists w w', double w /\ double w' /\ w <> w' /\ x <= w * D <= y /\ x <= w' * D <= y.
Proof.
  intros ND HL HF HB. set (n := y / D). pose proof (round_exp y D ND) as RE. cbv zeta in RE. fold n in RE. set (k := N.log2 n - 52) in *. destruct RE as [QL QK].
  assert (2 ^ 53 <= n) as HN by (apply N.div_le_lower_bound; [exact ND|rewrite N.mul_comm; exact HB]).
  assert (1 <= k) as K1. { assert (53 <= N.log2 n) by (apply N.log2_le_pow2; [pose proof (p2 53); lia|exact HN]). unfold k. lia. }
  destruct QK as [K0|QG]; [lia|]. set (st := D * 2 ^ k) in *. assert (st <> 0) as NS by (unfold st; pose proof (p2 k); lia).
  set (q := y / st) in *. pose proof (N.div_mod y st NS) as DM. pose proof (N.mod_lt y st NS) as ML. fold q in DM.
  (* y - x is at least four steps *)
  assert (2 * st <= y - x) as FS.
  { assert (4 * 10 ^ 15 * st <= (y - x) * 10 ^ 15) as X.
    { apply N.le_trans with (2 := HF). rewrite DM. apply N.le_trans with (st * q); [|apply N.le_add_r]. rewrite N.mul_comm. apply N.mul_le_mono_l.
      apply N.le_trans with (1 := ten_15). exact QG. }
    pose proof (p10 15) as P. apply (N.mul_le_mono_pos_r _ _ (10 ^ 15)); [exact P|]. apply N.le_trans with (2 := X).
    replace (4 * 10 ^ 15 * st) with (4 * st * 10 ^ 15) by (generalize (10 ^ 15); clear; intros; lia). apply N.mul_le_mono_r. clear; lia. }
  exists (q * 2 ^ k), ((q - 1) * 2 ^ k). pose proof (p2 k) as PK. pose proof (p2 52) as P52.
  split; [exists q, k; split; [exact QL|reflexivity]|]. split; [exists (q - 1), k; split; [lia|reflexivity]|].
  assert (q * 2 ^ k * D = st * q) as A1 by (unfold st; generalize (2 ^ k); clear; intros; lia).
  assert ((q - 1) * 2 ^ k * D = st * q - st) as A2 by (rewrite N.mul_sub_distr_r, N.mul_sub_distr_r, A1; f_equal; unfold st; generalize (2 ^ k); clear; intros; lia).
  split.
  { intro E. apply N.mul_cancel_r in E; lia. }
  rewrite A1, A2. revert FS DM ML. generalize (y mod st), (st * q). clear - HL. intros. lia.
Qed.
Lemma between_rounds n n' d v x : rounds n d v -> rounds n' d v -> n <= x <= n' -> rounds x d v.
Proof.
  intros H H' HX. destruct (N.le_ge_cases x (v * d)) as [L|L].
  - apply (rounds_convex _ _ _ _ H). left. lia.
  - apply (rounds_convex _ _ _ _ H'). right. lia.
Qed.
Lemma fifteen_lt c j c' j' v E : c < 10 ^ 15 -> c' < 10 ^ 15 -> (0 <= j + E)%Z -> (0 <= j' + E)%Z -> (0 <= E)%Z ->
  decimal_rounds c j v -> decimal_rounds c' j' v -> 2 ^ 54 <= v -> scaled E c j < scaled E c' j' -> False.
Proof.
  intros HC HC' H H' HE HR HR' HV HL. apply (decimal_scaled _ _ E _ H HE) in HR. apply (decimal_scaled _ _ E _ H' HE) in HR'. pose proof (ten_nz (Z.to_N E)) as ND.
  set (D := 10 ^ Z.to_N E) in *. set (x := scaled E c j * unit) in *. set (y := scaled E c' j' * unit) in *. pose proof unit_pos as UP.
  assert (x < y) as XY by (apply N.mul_lt_mono_pos_r; [exact UP|exact HL]).
  assert (y <= (y - x) * 10 ^ 15) as FA.
  { unfold x, y. rewrite <- N.mul_sub_distr_r. set (df := scaled E c' j' - scaled E c j). replace (df * unit * 10 ^ 15) with (df * 10 ^ 15 * unit) by (generalize (10 ^ 15), unit; clear; intros; lia).
    apply N.mul_le_mono_r. apply apart; assumption. }
  destruct (N.le_gt_cases (2 ^ 53 * D) y) as [G|G].
  - destruct (two_doubles x y D ND XY FA G) as (w & w' & D1 & D2 & NE & I1 & I2).
    pose proof (rounds_unique _ _ _ _ ND (between_rounds _ _ _ _ _ HR HR' I1) (rounds_exact w D D1 ND)) as X1.
    pose proof (rounds_unique _ _ _ _ ND (between_rounds _ _ _ _ _ HR HR' I2) (rounds_exact w' D D2 ND)) as X2. congruence.
  - assert (double (2 ^ 53)) as D53 by (exists (2 ^ 52), 1; split; [rewrite p53; pose proof (p2 52); lia|rewrite p53; change (2 ^ 1) with 2; apply N.mul_comm]).
    assert (2 ^ 53 < 2 ^ 54) as LT by (vm_compute; reflexivity). assert (2 ^ 53 * D < v * D) as VD by (apply N.mul_lt_mono_pos_r; [lia|apply N.lt_le_trans with (1 := LT); exact HV]).
    destruct HR' as [_ HR']. destruct (HR' _ D53) as [X|[X _]]; [intros <-; apply (N.lt_irrefl (2 ^ 53)); apply N.lt_le_trans with (1 := LT); exact HV| |];
    unfold gap in X; revert X G VD; generalize (2 ^ 53 * D), (v * D); clear; intros; lia.
Qed.
Lemma fifteen c j c' j' v : c < 10 ^ 15 -> c' < 10 ^ 15 -> decimal_rounds c j v -> decimal_rounds c' j' v -> 2 ^ 54 <= v -> same_decimal c j c' j'.
Proof.
  intros HC HC' HR HR' HV. set (E := (Z.abs j + Z.abs j')%Z). assert (0 <= j + E /\ 0 <= j' + E /\ 0 <= E)%Z as (H & H' & HE) by (unfold E; lia).
  assert (scaled E c j = scaled E c' j') as EQ.
  { destruct (N.lt_trichotomy (scaled E c j) (scaled E c' j')) as [L|[EQ|L]]; [|exact EQ|]; exfalso;
      [exact (fifteen_lt c j c' j' v E HC HC' H H' HE HR HR' HV L)|exact (fifteen_lt c' j' c j v E HC' HC H' H HE HR' HR HV L)]. }
  unfold same_decimal. pose proof (scaled_up c j E H HE) as S. pose proof (scaled_up c' j' E H' HE) as S'. rewrite EQ in S. 
  apply (N.mul_cancel_r _ _ (10 ^ Z.to_N E)); [apply ten_nz|].
  replace (c * 10 ^ Z.to_N j * 10 ^ Z.to_N (- j') * 10 ^ Z.to_N E) with (c * 10 ^ Z.to_N j * 10 ^ Z.to_N E * 10 ^ Z.to_N (- j')) by lia.
  replace (c' * 10 ^ Z.to_N j' * 10 ^ Z.to_N (- j) * 10 ^ Z.to_N E) with (c' * 10 ^ Z.to_N j' * 10 ^ Z.to_N E * 10 ^ Z.to_N (- j)) by lia. rewrite S, S'. lia.
Qed.

(** ** Printing *)
Lemma less_scaled c j n k E : (0 <= j + E)%Z -> (0 <= k + E)%Z -> (0 <= E)%Z -> less_decimal c j n k <-> scaled E c j < scaled E n k.
Proof.
  intros H H' HE. unfold less_decimal. pose proof (scaled_up c j E H HE) as S. pose proof (scaled_up n k E H' HE) as S'.
  rewrite (N.mul_lt_mono_pos_r (10 ^ Z.to_N E)) by apply p10.
  replace (c * 10 ^ Z.to_N j * 10 ^ Z.to_N (- k) * 10 ^ Z.to_N E) with (c * 10 ^ Z.to_N j * 10 ^ Z.to_N E * 10 ^ Z.to_N (- k)) by lia.
  replace (n * 10 ^ Z.to_N k * 10 ^ Z.to_N (- j) * 10 ^ Z.to_N E) with (n * 10 ^ Z.to_N k * 10 ^ Z.to_N E * 10 ^ Z.to_N (- j)) by lia. rewrite S, S'.
  replace (scaled E n k * 10 ^ Z.to_N (- k) * 10 ^ Z.to_N (- j)) with (scaled E n k * (10 ^ Z.to_N (- j) * 10 ^ Z.to_N (- k))) by lia. rewrite <- N.mul_assoc.
  rewrite <- N.mul_lt_mono_pos_r; [reflexivity|]. apply N.mul_pos_pos; apply p10.
Qed.
Lemma less_up c n j k : c < 10 ^ N.of_nat n -> (Z.of_nat n + j <= k)%Z -> less_decimal c j 1 k.
Proof.
  intros HC HK. set (E := (Z.abs j + Z.abs k)%Z). apply (less_scaled c j 1 k E); [unfold E; lia..|]. unfold scaled.
  apply N.lt_le_trans with (10 ^ N.of_nat n * 10 ^ Z.to_N (j + E)); [apply N.mul_lt_mono_pos_r; [apply p10|exact HC]|].
  rewrite <- N.pow_add_r, N.mul_1_l. apply N.pow_le_mono_r; [discriminate|unfold E; lia].
Qed.
Lemma less_not c n j k : 10 ^ N.of_nat n <= c -> (k <= Z.of_nat n + j)%Z -> ~ less_decimal c j 1 k.
Proof.
  intros HC HK. set (E := (Z.abs j + Z.abs k)%Z). rewrite (less_scaled c j 1 k E) by (unfold E; lia). unfold scaled. apply N.nlt_ge.
  apply N.le_trans with (10 ^ N.of_nat n * 10 ^ Z.to_N (j + E)); [|apply N.mul_le_mono_r; exact HC].
  rewrite <- N.pow_add_r, N.mul_1_l. apply N.pow_le_mono_r; [discriminate|unfold E; lia].
Qed.
Lemma positional_point c j : c mod 10 <> 0 -> (j < 0)%Z -> exists a m b, positional c j = a ++ B "." ++ b /\ plain_decimal a m /\ b <> [] /\ (forall r, b <> r ++ B "0") /\
  decimal (a ++ b) c /\ Z.of_nat (length b) = (- j)%Z.
Proof.
  intros HM J. unfold positional. pose proof (dec_N_plain c) as HP. pose proof HP as (HD & HE & HZ).
  set (ds := dec_N c) in *. assert (c <> 0) as HC by (intros ->; contradiction HM; reflexivity). assert (forall r, ds <> B "0" ++ r) as NZ.
  { destruct HZ as [HZ|HZ]; [|exact HZ]. rewrite HZ in HD. apply decimal_val in HD. cbn in HD. congruence. }
  assert (forall r, ds <> r ++ B "0") as NL by (intros r E; rewrite E in HD; apply last_zero in HD; congruence).
  destruct (Z.leb_spec 0 j) as [J'|_]; [lia|]. set (f := Z.to_nat (- j)). destruct (Nat.ltb_spec f (length ds)) as [L|L].
  - set (k := (length ds - f)%nat). pose proof (firstn_skipn k ds) as FS. set (a := firstn k ds) in *. set (b := skipn k ds) in *.
    assert (length b = f) as LB by (unfold b; rewrite skipn_length; unfold k; lia). assert (length a = k) as LA by (unfold a; rewrite firstn_length; unfold k; lia).
    pose proof HD as HD'. rewrite <- FS in HD'. destruct (decimal_part _ _ _ HD') as (m & Hm). exists a, m, b. split; [reflexivity|]. split; [split; [exact Hm|split]|].
    { intro E. rewrite E in LA. cbn [length] in LA. unfold k in LA. lia. }
    { right. intros r E. apply (NZ (r ++ b)). rewrite app_assoc, <- E. symmetry. exact FS. }
    split; [intro E; rewrite E in LB; cbn [length] in LB; unfold f in LB; lia|]. split; [intros r E; apply (NL (a ++ r)); rewrite <- app_assoc, <- E; symmetry; exact FS|].
    split; [exact HD'|unfold f in LB; lia].
  - set (b := repeat "0"%char (f - length ds) ++ ds). assert (length b = f) as LB by (unfold b; rewrite app_length, repeat_length; lia).
    exists (B "0"), 0, b. split; [reflexivity|]. split; [exact (dec_N_plain 0)|]. split; [intro E; rewrite E in LB; cbn in LB; unfold f in LB; lia|]. split.
    { intros r E. unfold b in E. destruct (@exists_last _ ds HE) as (d & z & EQ). rewrite EQ, app_assoc in E. apply app_inj_tail in E as [_ ->]. exact (NL d EQ). }
    split; [|unfold f in LB; lia]. unfold b. rewrite app_assoc. exact (zeros_decimal ds c (S (f - length ds)) HD).
Qed.
Lemma digits_all_val s : Forall is_digit s -> forall acc, exists n, digits_val acc s = Some n.
Proof. induction 1 as [|a s [d Hd] _ IH]; intro acc; [exists acc; reflexivity|]. cbn [digits_val]. rewrite Hd. apply IH. Qed.
Lemma layout_ok v c j neg : briefest v c j -> c <> 0 -> json_shows neg v (dash_if neg ++ json_layout c j).
Proof.
  intros HB HC. pose proof (no_spare_zero v c j HB HC) as HM. unfold json_layout. pose proof (dec_N_plain c) as HP. pose proof HP as (HD & HE & HZ).
  destruct (dec_length c HC) as [[LL LU] LP]. set (ds := dec_N c) in *. set (kk := (Z.of_nat (length ds) + j)%Z).
  assert (forall r, ds <> B "0" ++ r) as NZ.
  { destruct HZ as [HZ|HZ]; [|exact HZ]. rewrite HZ in HD. apply decimal_val in HD. cbn in HD. congruence. }
  assert (forall r, ds <> r ++ B "0") as NL by (intros r E; rewrite E in HD; apply last_zero in HD; congruence).
  destruct ((0 <=? j)%Z && (kk <=? 16)%Z) eqn:E1.
  - apply andb_true_iff in E1 as [J K]. apply Z.leb_le in J, K. pose proof (decimal_zeros ds c (Z.to_nat j) HD) as HD2. set (a := ds ++ repeat "0"%char (Z.to_nat j)) in *.
    replace (N.of_nat (Z.to_nat j)) with (Z.to_N j) in HD2 by lia.
    assert (plain_decimal a (c * 10 ^ Z.to_N j)) as PA.
    { split; [exact HD2|]. split; [intro E; apply app_eq_nil in E as [E _]; contradiction|]. right. intros r E. unfold a in E. destruct ds as [|x t]; [congruence|].
      injection E as E1 E2. apply (NZ t). rewrite E1. reflexivity. }
    exists (a ++ B "." ++ B "0"), c, j, (c * 10 ^ Z.to_N j * 10), (-1)%Z, false. unfold a at 1. rewrite <- !app_assoc. split; [reflexivity|]. split; [exact HB|]. split; [|split; [|split; [|split]]].
    + rewrite <- (app_nil_r (a ++ B "." ++ B "0")). change (-1)%Z with (0 - Z.of_nat (length (B "0")))%Z. apply (dn_ false); [|constructor]. apply ma_point.
      * pose proof (decimal_zeros a _ 1 HD2) as X. change (N.of_nat 1) with 1 in X. change (10 ^ 1) with 10 in X. exact X.
      * intro E. apply app_eq_nil in E as [_ E]. discriminate E.
    + unfold same_decimal. change (Z.to_N (- (-1))) with 1. change (Z.to_N (-1)) with 0. replace (Z.to_N (- j)) with 0 by lia. change (10 ^ 1) with 10. rewrite !N.pow_0_r, !N.mul_1_r. reflexivity.
    + eapply (jf_point _ _ _ 0); [exact PA|apply decimal_val; reflexivity|discriminate|left; reflexivity].
    + discriminate.
    + intros [_ [X|X]]; exfalso; [revert X; apply (less_not c (length ds - 1)); [exact LL|lia]|apply X; apply (less_up c (length ds)); [exact LU|unfold kk in K; lia]].
  - destruct ((-5 <? kk)%Z && (kk <=? 16)%Z) eqn:E2.
    + apply andb_true_iff in E2 as [K1 K2]. apply Z.ltb_lt in K1. apply Z.leb_le in K2.
      assert (j < 0)%Z as J. { apply andb_false_iff in E1 as [E1|E1]; apply Z.leb_gt in E1; lia. }
      destruct (positional_point c j HM J) as (a & m & b & -> & PA & NB & TB & DB & LB).
      exists (a ++ B "." ++ b), c, j, c, j, false. split; [reflexivity|]. split; [exact HB|]. split; [|split; [reflexivity|split; [|split]]].
      * rewrite <- (app_nil_r (a ++ B "." ++ b)). replace j with (0 - Z.of_nat (length b))%Z by lia. apply (dn_ false); [|constructor]. apply ma_point; [exact DB|].
        intro E. apply app_eq_nil in E as [_ E]. contradiction.
      * pose proof (decimal_digits _ _ DB) as FD. apply Forall_app in FD as [_ FD]. destruct (digits_all_val b FD 0) as (mb & Hb). apply decimal_val in Hb.
        eapply jf_point; [exact PA|exact Hb|exact NB|right; exact TB].
      * discriminate.
      * intros [_ [X|X]]; exfalso; [revert X; apply (less_not c (length ds - 1)); [exact LL|unfold kk in K1; lia]|apply X; apply (less_up c (length ds)); [exact LU|unfold kk in K2; lia]].
    + assert (kk <= -5 \/ 16 < kk)%Z as KK.
      { apply andb_false_iff in E2 as [E2|E2]; [apply Z.ltb_ge in E2; lia|apply Z.leb_gt in E2; lia]. }
      set (et := (if (kk <=? 0)%Z then B "-" else []) ++ dec_N (Z.to_N (Z.abs (kk - 1)))).
      assert (plain_integer et (kk - 1)) as PE.
      { unfold plain_integer, et. destruct (Z.leb_spec kk 0) as [L|L].
        - destruct (Z.ltb_spec (kk - 1) 0); [|lia]. eexists. split; [reflexivity|]. replace (Z.abs (kk - 1)) with (- (kk - 1))%Z by lia. apply dec_N_plain.
        - destruct (Z.ltb_spec (kk - 1) 0); [lia|]. replace (Z.abs (kk - 1)) with (kk - 1)%Z by lia. apply dec_N_plain. }
      assert (exponent (B "e" ++ et) (kk - 1)) as EE.
      { apply ex_some; [left; reflexivity|]. revert PE. unfold plain_integer. destruct (Z.ltb_spec (kk - 1) 0) as [L|L].
        - intros (t & -> & PD & PN & _). pose proof (int_ _ _ t _ sg_minus PD PN) as X. cbv iota in X. rewrite Z2N.id in X by lia. rewrite Z.opp_involutive in X. exact X.
        - intros (PD & PN & _). pose proof (int_ _ _ et _ sg_none PD PN) as X. cbv iota in X. rewrite Z2N.id in X by lia. exact X. }
      assert (true = true <-> c <> 0 /\ (less_decimal c j 1 (-5) \/ ~ less_decimal c j 1 16)) as SC.
      { split; [|reflexivity]. intros _. split; [exact HC|]. destruct KK as [KK|KK]; [left; apply (less_up c (length ds)); [exact LU|exact KK]|].
        right. apply (less_not c (length ds - 1)); [exact LL|unfold kk in KK; lia]. }
      destruct ds as [|a r] eqn:EDS; [congruence|].
      assert (exists na, plain_decimal [a] na /\ na <> 0) as (na & PNA & NNA).
      { destruct (decimal_part [a] r c HD) as (na & Hna). exists na. split.
        - split; [exact Hna|]. split; [discriminate|]. right. intros q E. injection E as -> _. exact (NZ r eq_refl).
        - intros ->. apply decimal_val in Hna. cbn [digits_val] in Hna. destruct (digit a) as [d|] eqn:EA; [|discriminate Hna]. injection Hna as ->.
          apply digit_ascii in EA as [_ ->]. exact (NZ r eq_refl). }
      destruct r as [|b r].
      * exists ([a] ++ B "e" ++ et), c, j, c, j, true. split; [reflexivity|]. split; [exact HB|]. split; [|split; [reflexivity|split; [|exact SC]]].
        { replace j with ((kk - 1) - Z.of_nat 0)%Z by (unfold kk; cbn [length]; lia). apply (dn_ false [a] c 0 (B "e" ++ et)); [|exact EE]. apply ma_int; [exact HD|discriminate]. }
        eapply jf_digit; eassumption.
      * exists ([a] ++ B "." ++ (b :: r) ++ B "e" ++ et), c, j, c, j, true. split; [reflexivity|]. split; [exact HB|]. split; [|split; [reflexivity|split; [|exact SC]]].
        { replace ([a] ++ B "." ++ (b :: r) ++ B "e" ++ et) with (([a] ++ B "." ++ (b :: r)) ++ B "e" ++ et) by (rewrite <- !app_assoc; reflexivity).
          replace j with ((kk - 1) - Z.of_nat (length (b :: r)))%Z by (unfold kk; cbn [length]; lia). apply (dn_ false ([a] ++ B "." ++ b :: r) c _ (B "e" ++ et)); [|exact EE]. apply ma_point; [exact HD|discriminate]. }
        assert (exists m, decimal (b :: r) m) as (m & Hm).
        { pose proof (decimal_digits _ _ HD) as FD. apply Forall_inv_tail in FD. destruct (digits_all_val (b :: r) FD 0) as (m & Hm). exists m. apply decimal_val. exact Hm. }
        eapply jf_digits; [exact PNA|exact NNA|exact Hm|discriminate| |exact PE]. intros q E. apply (NL (a :: q)). cbn [app]. rewrite <- E. reflexivity.
Qed.

Lemma digits_shows neg v : double v -> v < 2 ^ 1024 * 2 ^ 1074 -> json_shows neg v (json_print neg v).
Proof.
  intros DV HT. unfold json_print, json_digits. fold (dash_if neg). destruct (N.eqb_spec v 0) as [->|NV].
  - exists (B "0.0"), 0, 0%Z, 0, (-1)%Z, false. split; [reflexivity|]. split; [exact briefest_0|]. split; [|split; [reflexivity|split; [|split; [discriminate|intros [X _]; congruence]]]].
    + apply (dn_ false (B "0.0") 0 1 [] 0%Z); [|constructor]. apply (ma_point (B "0") (B "0")); [|discriminate]. apply decimal_val. reflexivity.
    + apply (jf_point (B "0") 0 (B "0") 0); [exact (dec_N_plain 0)|apply decimal_val; reflexivity|discriminate|left; reflexivity].
  - assert (0 < v) as PV by lia.
    assert (briefest v (fst (shortest N.odd 1500 v (digits_before v) 1)) (snd (shortest N.odd 1500 v (digits_before v) 1))) as HB.
    { apply shortest_ok; [exact DV|exact (decade v PV)|lia|discriminate|apply decade_top; assumption|].
      intros m c' j' HM HC HR. assert (m = 0) as -> by lia. rewrite N.pow_0_r in HC. assert (c' = 0) as -> by lia.
      apply (proj1 (decimal_unit _ _ _)) in HR. rewrite !N.mul_0_l in HR. apply (proj1 (rounds_iff _ _ _ (ten_nz _))) in HR. rewrite round_zero in HR. contradiction. }
    destruct (shortest N.odd 1500 v (digits_before v) 1) as [c j]. cbn [fst snd] in HB. apply layout_ok; [exact HB|].
    intros ->. destruct HB as [HR _]. apply (proj1 (decimal_unit _ _ _)) in HR. rewrite !N.mul_0_l in HR. apply (proj1 (rounds_iff _ _ _ (ten_nz _))) in HR. rewrite round_zero in HR. contradiction.
Qed.

(** ** The error of reading *)
Definition rho : N := 2 ^ 53 - 1.
Definition one : N := 2 ^ 53.
Definition close (k x y : N) : Prop := x * rho ^ k <= y * one ^ k /\ y * rho ^ k <= x * one ^ k.
Lemma one_pos k : 0 < one ^ k. Proof. apply pow_pos. unfold one. pose proof (p2 53). lia. Qed.
Lemma rho_pos k : 0 < rho ^ k. Proof. apply pow_pos. discriminate. Qed.
Lemma close_sym k x y : close k x y -> close k y x. Proof. intros [A C]. split; assumption. Qed.
Lemma close_refl x : close 0 x x. Proof. split; rewrite !N.pow_0_r; apply N.le_refl. Qed.
Lemma close_le1 k m x y z : x * rho ^ k <= y * one ^ k -> y * rho ^ m <= z * one ^ m -> x * rho ^ (k + m) <= z * one ^ (k + m).
Proof.
  intros H1 H2. rewrite !N.pow_add_r. apply N.le_trans with (y * one ^ k * rho ^ m).
  - rewrite N.mul_assoc. apply N.mul_le_mono_r. exact H1.
  - replace (y * one ^ k * rho ^ m) with (y * rho ^ m * one ^ k) by lia. replace (z * (one ^ k * one ^ m)) with (z * one ^ m * one ^ k) by lia. apply N.mul_le_mono_r. exact H2.
Qed.
Lemma close_trans k m x y z : close k x y -> close m y z -> close (k + m) x z.
Proof. intros [A C] [D E]. split; [eapply close_le1; eassumption|]. rewrite N.add_comm. eapply close_le1; eassumption. Qed.
Lemma close_mul k x y w : close k x y -> close k (x * w) (y * w).
Proof.
  intros [A C]. split.
  - replace (x * w * rho ^ k) with (x * rho ^ k * w) by lia. replace (y * w * one ^ k) with (y * one ^ k * w) by lia. apply N.mul_le_mono_r. exact A.
  - replace (x * w * one ^ k) with (x * one ^ k * w) by lia. replace (y * w * rho ^ k) with (y * rho ^ k * w) by lia. apply N.mul_le_mono_r. exact C.
Qed.
Lemma close_cancel k x y w : w <> 0 -> close k (x * w) (y * w) -> close k x y.
Proof.
  intros NW [A C]. assert (0 < w) as PW by lia. split; apply (N.mul_le_mono_pos_r _ _ w); try exact PW.
  - replace (x * rho ^ k * w) with (x * w * rho ^ k) by lia. replace (y * one ^ k * w) with (y * w * one ^ k) by lia. exact A.
  - replace (x * one ^ k * w) with (x * w * one ^ k) by lia. replace (y * rho ^ k * w) with (y * w * rho ^ k) by lia. exact C.
Qed.
Lemma rho_one : rho <= one. Proof. vm_compute. discriminate. Qed.
Lemma close_more k m x y : k <= m -> close k x y -> close m x y.
Proof.
  intros L H. replace m with (k + (m - k)) by lia. apply (close_trans k (m - k) x y y H). split; apply N.mul_le_mono_l, N.pow_le_mono_l; exact rho_one.
Qed.
(** a rounded number that is not small *)
Lemma round_gap n d v : d <> 0 -> rounds n d v -> 2 ^ 52 <= n / d -> gap n d v * 2 ^ 53 <= n.
Proof.
  intros ND HR HB. pose proof (round_exp n d ND) as RE. cbv zeta in RE. set (k := N.log2 (n / d) - 52) in *. destruct RE as [QL QK].
  set (st := d * 2 ^ k) in *. assert (st <> 0) as NS by (unfold st; pose proof (p2 k); lia). set (q := n / st) in *.
  pose proof (N.div_mod n st NS) as DM. pose proof (N.mod_lt n st NS) as ML. fold q in DM. set (r := n mod st) in *.
  assert (2 ^ 52 <= q) as QG.
  { destruct QK as [K0|QG]; [|exact QG]. unfold q, st. rewrite K0, N.pow_0_r, N.mul_1_r. exact HB. }
  assert (double (q * 2 ^ k)) as D1 by (exists q, k; split; [exact QL|reflexivity]).
  assert (double ((q + 1) * 2 ^ k)) as D2.
  { destruct (N.eq_dec (q + 1) (2 ^ 53)) as [E|NE]; [|exists (q + 1), k; split; [clear - QL NE; lia|reflexivity]].
    exists (2 ^ 52), (N.succ k). rewrite E, p53, N.pow_succ_r'. split; [pose proof (p2 52); lia|]. generalize (2 ^ 52), (2 ^ k); clear; intros; lia. }
  destruct HR as [_ HR].
  assert (forall w, double w -> gap n d v <= gap n d w) as HM by (intros w HW; destruct (N.eq_dec w v) as [->|NE]; [apply N.le_refl|destruct (HR w HW NE) as [L|[E _]]; lia]).
  pose proof (HM _ D1) as G1. pose proof (HM _ D2) as G2.
  assert (q * 2 ^ k * d = st * q) as A1 by (unfold st; generalize (2 ^ k); clear; intros; lia).
  assert ((q + 1) * 2 ^ k * d = st * q + st) as A2 by (unfold st; generalize (2 ^ k); clear; intros; lia).
  assert (gap n d (q * 2 ^ k) = r) as E1 by (unfold gap; rewrite A1, DM; generalize (st * q); clear; intros; lia).
  assert (gap n d ((q + 1) * 2 ^ k) = st - r) as E2 by (unfold gap; rewrite A2, DM; revert ML; generalize (st * q); clear; intros; lia).
  rewrite E1 in G1. rewrite E2 in G2. set (g := gap n d v) in *.
  assert (2 * g <= st) as H2 by (clear - G1 G2 ML; lia). rewrite p53.
  apply N.le_trans with (st * 2 ^ 52); [|rewrite DM; apply N.le_trans with (st * q); [apply N.mul_le_mono_l; exact QG|apply N.le_add_r]].
  replace (g * (2 * 2 ^ 52)) with (2 * g * 2 ^ 52) by (generalize (2 ^ 52); clear; intros; lia). apply N.mul_le_mono_r. exact H2.
Qed.
Lemma round_below n d v w : d <> 0 -> rounds n d v -> double w -> n <= w * d -> v <= w.
Proof.
  intros ND [_ HR] DW HL. apply N.nlt_ge. intro L. assert (w * d < v * d) as X by (apply N.mul_lt_mono_pos_r; [lia|exact L]).
  destruct (HR w DW) as [Y|[Y _]]; [intros ->; apply (N.lt_irrefl _ L)| |]; unfold gap in Y; revert X Y HL; generalize (w * d), (v * d); clear; intros; lia.
Qed.
Lemma round_above n d v w : d <> 0 -> rounds n d v -> double w -> w * d <= n -> w <= v.
Proof.
  intros ND [_ HR] DW HL. apply N.nlt_ge. intro L. assert (v * d < w * d) as X by (apply N.mul_lt_mono_pos_r; [lia|exact L]).
  destruct (HR w DW) as [Y|[Y _]]; [intros ->; apply (N.lt_irrefl _ L)| |]; unfold gap in Y; revert X Y HL; generalize (w * d), (v * d); clear; intros; lia.
Qed.
Lemma double_pow k : double (2 ^ k). Proof. exists 1, k. split; [reflexivity|rewrite N.mul_1_l; reflexivity]. Qed.
Lemma round_close n d v : d <> 0 -> rounds n d v -> 2 ^ 53 <= v -> close 1 n (v * d).
Proof.
  intros ND HR HV. assert (2 ^ 52 <= n / d) as HB.
  { apply N.div_le_lower_bound; [exact ND|]. apply N.nlt_ge. intro L. assert (v <= 2 ^ 52) as X by (apply (round_below n d v _ ND HR (double_pow 52)); rewrite N.mul_comm; lia).
    rewrite p53 in HV. pose proof (p2 52). lia. }
  pose proof (round_gap n d v ND HR HB) as G. unfold close. rewrite !N.pow_1_r. unfold rho, one. set (P := 2 ^ 53) in *. pose proof (p2 53) as PP. fold P in PP. unfold gap in G.
  set (m := v * d) in *. rewrite !N.mul_sub_distr_l, !N.mul_1_r.
  assert (n * P <= (n - m) * P + m * P) as Y1 by (rewrite <- N.mul_add_distr_r; apply N.mul_le_mono_r; lia).
  assert (m * P <= (m - n) * P + n * P) as Y2 by (rewrite <- N.mul_add_distr_r; apply N.mul_le_mono_r; lia).
  rewrite N.mul_add_distr_r in G. destruct (N.le_gt_cases m n) as [L|L].
  - replace (m - n) with 0 in * by lia. split; [lia|]. assert (m * P <= n * P) by (apply N.mul_le_mono_r; exact L). lia.
  - replace (n - m) with 0 in * by lia. split; [assert (n * P <= m * P) by (apply N.mul_le_mono_r; lia); lia|]. lia.
Qed.
Lemma round_double n d : d <> 0 -> double (round_to n d). Proof. intro H. apply (rounds_round n d H). Qed.
Lemma double_unit1 : double unit. Proof. rewrite <- unit_is. apply double_pow. Qed.
Lemma unit_big : 2 ^ 53 <= unit. Proof. vm_compute. discriminate. Qed.
Lemma pow_rounds k : rounds (10 ^ k * unit) 1 (pow10 k).
Proof.
  apply (proj2 (rounds_iff _ _ _ one_nz)). unfold pow10, read_decimal. rewrite N2Z.id. replace (Z.to_N (- Z.of_N k)) with 0 by lia. rewrite N.pow_0_r, N.mul_1_l. reflexivity.
Qed.
Lemma pow_low k : unit <= pow10 k.
Proof. apply (round_above _ _ _ _ one_nz (pow_rounds k) double_unit1). rewrite N.mul_1_r. rewrite <- (N.mul_1_l unit) at 1. apply N.mul_le_mono_r. pose proof (p10 k). lia. Qed.
Lemma pow_nz k : pow10 k <> 0. Proof. pose proof (pow_low k). pose proof unit_pos. lia. Qed.
Lemma pow_close k : close 1 (10 ^ k * unit) (pow10 k).
Proof. rewrite <- (N.mul_1_r (pow10 k)). apply (round_close _ _ _ one_nz (pow_rounds k)). eapply N.le_trans; [exact unit_big|apply pow_low]. Qed.
Lemma mul_close f k v : size_mul f (pow10 k) = v -> 2 ^ 53 <= v -> close 2 (f * 10 ^ k) v.
Proof.
  intros E HV. assert (rounds (f * pow10 k) unit v) as R by (apply (proj2 (rounds_iff _ _ _ unit_nz)); symmetry; exact E).
  apply (close_cancel _ _ _ unit unit_nz). change 2 with (1 + 1) at 1. apply (close_trans _ _ _ (f * pow10 k)); [|apply (round_close _ _ _ unit_nz R HV)].
  replace (f * 10 ^ k * unit) with (10 ^ k * unit * f) by (generalize unit; clear; intros; lia). rewrite (N.mul_comm f). apply close_mul, pow_close.
Qed.
Lemma div_close f k v : size_div f (pow10 k) = v -> 2 ^ 53 <= v -> close 2 f (v * 10 ^ k).
Proof.
  intros E HV. assert (rounds (f * unit) (pow10 k) v) as R by (apply (proj2 (rounds_iff _ _ _ (pow_nz k))); symmetry; exact E).
  apply (close_cancel _ _ _ unit unit_nz). change 2 with (1 + 1) at 1. apply (close_trans _ _ _ (v * pow10 k)); [apply (round_close _ _ _ (pow_nz k) R HV)|].
  replace (v * 10 ^ k * unit) with (10 ^ k * unit * v) by (generalize unit; clear; intros; lia). rewrite (N.mul_comm v). apply close_mul, close_sym, pow_close.
Qed.
Lemma div_below f k : double f -> size_div f (pow10 k) <= f.
Proof.
  intro DF. apply (round_below (f * unit) (pow10 k) _ _ (pow_nz k)); [|exact DF|apply N.mul_le_mono_l, pow_low]. apply (proj2 (rounds_iff _ _ _ (pow_nz k))). reflexivity.
Qed.
Lemma div_double f k : double (size_div f (pow10 k)). Proof. apply round_double, pow_nz. Qed.
Lemma parts_le fuel : forall f e v, from_parts fuel f e = Some v -> double f -> (e < 0)%Z -> v <= f.
Proof.
  induction fuel as [|fuel IH]; intros f e v H DF HE; cbn [from_parts] in H; (destruct (Z.leb_spec (Z.abs e) 308) as [A|A]);
    (destruct (Z.leb_spec 0 e) as [X|_]; [lia|]); try (injection H as <-; apply div_below; exact DF); (destruct (f =? 0); [injection H as <-; apply N.le_0_l|]).
  - injection H as <-. apply N.le_0_l.
  - apply IH in H; [|apply div_double|lia]. apply N.le_trans with (1 := H). apply div_below. exact DF.
Qed.
Lemma parts_double fuel : forall f e v, from_parts fuel f e = Some v -> double f -> f < 2 ^ 2098 -> double v /\ v < 2 ^ 2098.
Proof.
  intros f e v H DF LF. destruct (Z.lt_ge_cases e 0) as [N|P].
  - split; [|eapply N.le_lt_trans; [eapply parts_le; eassumption|exact LF]].
    revert f e v H DF LF N. induction fuel as [|fuel IH]; intros f e v H DF LF HE; cbn [from_parts] in H; (destruct (Z.leb_spec (Z.abs e) 308) as [A|A]);
      (destruct (Z.leb_spec 0 e) as [X|_]; [lia|]); try (injection H as <-; apply div_double); (destruct (f =? 0); [injection H as <-; exact double_0|]).
    + injection H as <-. exact double_0.
    + apply IH in H; [exact H|apply div_double|eapply N.le_lt_trans; [apply div_below; exact DF|exact LF]|lia].
  - destruct fuel; cbn [from_parts] in H; (destruct (Z.leb_spec (Z.abs e) 308) as [A|A]); (destruct (Z.leb_spec 0 e) as [X|X]; [|lia]);
      try (destruct (f =? 0); [injection H as <-; split; [exact double_0|apply p2]|discriminate H]);
      cbv zeta in H; (destruct (N.leb_spec (2 ^ 2098) (size_mul f (pow10 (Z.to_N e)))) as [L|L]; [discriminate H|]); injection H as <-; (split; [apply round_double, unit_nz|exact L]).
Qed.
Lemma parts_close fuel : forall f e v E, from_parts fuel f e = Some v -> double f -> 2 ^ 53 <= v -> (0 <= E)%Z -> (0 <= e + E)%Z ->
  close (2 * N.of_nat fuel + 2) (f * 10 ^ Z.to_N (e + E)) (v * 10 ^ Z.to_N E).
Proof.
  assert (forall f e v E, (Z.abs e <=? 308)%Z = true -> (if (0 <=? e)%Z then let r := size_mul f (pow10 (Z.to_N e)) in if 2 ^ 2098 <=? r then None else Some r
    else Some (size_div f (pow10 (Z.to_N (- e))))) = Some v -> 2 ^ 53 <= v -> (0 <= E)%Z -> (0 <= e + E)%Z -> close 2 (f * 10 ^ Z.to_N (e + E)) (v * 10 ^ Z.to_N E)) as BASE.
  { intros f e v E A H HV HE HP. destruct (Z.leb_spec 0 e) as [P|P].
    - cbv zeta in H. destruct (2 ^ 2098 <=? _); [discriminate H|]. assert (size_mul f (pow10 (Z.to_N e)) = v) as H' by congruence. apply mul_close in H'; [|exact HV].
      replace (Z.to_N (e + E)) with (Z.to_N e + Z.to_N E) by lia. rewrite N.pow_add_r, N.mul_assoc. apply close_mul. exact H'.
    - assert (size_div f (pow10 (Z.to_N (- e))) = v) as H' by congruence. apply div_close in H'; [|exact HV].
      replace (Z.to_N E) with (Z.to_N (- e) + Z.to_N (e + E)) by lia. rewrite N.pow_add_r, (N.mul_assoc v). apply close_mul. exact H'. }
  assert (forall v, 2 ^ 53 <= v -> v <> 0) as NZ by (intros v H ->; pose proof (p2 53); lia).
  induction fuel as [|fuel IH]; intros f e v E H DF HV HE HP; cbn [from_parts] in H; (destruct (Z.abs e <=? 308)%Z eqn:A; [apply (close_more 2); [lia|apply BASE; assumption]|]);
    (destruct (f =? 0); [exfalso; apply (NZ v HV); congruence|]); (destruct (Z.leb_spec 0 e) as [P|P]; [discriminate H|]).
  - exfalso. apply (NZ v HV). congruence.
  - apply Z.leb_gt in A. pose proof (parts_le _ _ _ _ H (div_double _ _) ltac:(lia)) as LE.
    pose proof (div_close f 308 _ eq_refl (N.le_trans _ _ _ HV LE)) as C1. set (f' := size_div f (pow10 308)) in *.
    pose proof (IH f' (e + 308)%Z v E H (div_double _ _) HV HE ltac:(lia)) as C2.
    replace (2 * N.of_nat (S fuel) + 2) with (2 + (2 * N.of_nat fuel + 2)) by lia. apply (close_trans _ _ _ (f' * 10 ^ Z.to_N (e + 308 + E))); [|exact C2].
    replace (Z.to_N (e + 308 + E)) with (308 + Z.to_N (e + E)) by lia. rewrite N.pow_add_r, N.mul_assoc. apply close_mul. exact C1.
Qed.
Lemma trunc_close S m m' c s2 j e E : S * 10 ^ m <= c < (S + 1) * 10 ^ m -> S * 10 ^ m' <= s2 < (S + 1) * 10 ^ m' -> (Z.of_N m + j = Z.of_N m' + e)%Z ->
  ((m = 0 /\ m' = 0) \/ 2 ^ 60 <= S) -> (0 <= j + E)%Z -> (0 <= e + E)%Z -> close 1 (scaled E c j) (scaled E s2 e).
Proof.
  intros H1 H2 HE HO P1 P2. destruct HO as [[-> ->]|HS].
  - rewrite N.pow_0_r, !N.mul_1_r in *. assert (c = s2) as -> by lia. assert (j = e) as -> by lia. apply (close_more 0); [lia|apply close_refl].
  - unfold scaled. set (X := 10 ^ (m + Z.to_N (j + E))).
    assert (S * X <= c * 10 ^ Z.to_N (j + E) /\ c * 10 ^ Z.to_N (j + E) <= (S + 1) * X) as [A1 A2].
    { unfold X. rewrite N.pow_add_r, !N.mul_assoc. split; apply N.mul_le_mono_r; lia. }
    assert (S * X <= s2 * 10 ^ Z.to_N (e + E) /\ s2 * 10 ^ Z.to_N (e + E) <= (S + 1) * X) as [B1 B2].
    { unfold X. replace (m + Z.to_N (j + E)) with (m' + Z.to_N (e + E)) by lia. rewrite N.pow_add_r, !N.mul_assoc. split; apply N.mul_le_mono_r; lia. }
    assert ((S + 1) * X * rho <= S * X * one) as K.
    { replace ((S + 1) * X * rho) with ((S + 1) * rho * X) by lia. replace (S * X * one) with (S * one * X) by lia. apply N.mul_le_mono_r.
      assert (rho <= S) as RS by (apply N.le_trans with (2 := HS); vm_compute; discriminate). assert (one = rho + 1) as -> by reflexivity. lia. }
    split; rewrite !N.pow_1_r.
    + apply N.le_trans with ((S + 1) * X * rho); [apply N.mul_le_mono_r; exact A2|]. apply N.le_trans with (1 := K). apply N.mul_le_mono_r. exact B1.
    + apply N.le_trans with ((S + 1) * X * rho); [apply N.mul_le_mono_r; exact B2|]. apply N.le_trans with (1 := K). apply N.mul_le_mono_r. exact A1.
Qed.
Lemma size_rounds n : rounds (n * unit) 1 (size_of n). Proof. apply (proj2 (rounds_iff _ _ _ one_nz)). reflexivity. Qed.
Lemma size_double n : double (size_of n). Proof. apply round_double. exact one_nz. Qed.
Lemma size_low n : n <> 0 -> unit <= size_of n.
Proof. intro H. apply (round_above _ _ _ _ one_nz (size_rounds n) double_unit1). rewrite N.mul_1_r. rewrite <- (N.mul_1_l unit) at 1. apply N.mul_le_mono_r. lia. Qed.
Lemma size_close n : n <> 0 -> close 1 (n * unit) (size_of n).
Proof. intro H. rewrite <- (N.mul_1_r (size_of n)). apply (round_close _ _ _ one_nz (size_rounds n)). eapply N.le_trans; [exact unit_big|apply size_low; exact H]. Qed.
Lemma size_top n : n < 2 ^ 64 -> size_of n < 2 ^ 2098.
Proof.
  intro H. apply N.le_lt_trans with (2 ^ (64 + 1074)); [|apply N.pow_lt_mono_r; reflexivity]. apply (round_below _ _ _ _ one_nz (size_rounds n) (double_pow _)).
  rewrite N.mul_1_r, N.pow_add_r, unit_is. apply N.mul_le_mono_r. lia.
Qed.
Lemma low_49 : (2 ^ 49 - 1) * one ^ 10 <= 2 ^ 49 * rho ^ 10. Proof. vm_compute. discriminate. Qed.
Lemma high_49 : one ^ 10 * 2 ^ 49 <= rho ^ 10 * (2 ^ 49 + 1). Proof. vm_compute. discriminate. Qed.
Lemma close_nearly x y : close 10 x y -> x * (2 ^ 49 - 1) <= y * 2 ^ 49 <= x * (2 ^ 49 + 1).
Proof.
  intros [A C]. pose proof low_49 as L. pose proof high_49 as H. pose proof (one_pos 10) as PO. pose proof (rho_pos 10) as PR. revert A C L H PO PR.
  generalize (rho ^ 10), (one ^ 10), (2 ^ 49 - 1), (2 ^ 49), (2 ^ 49 + 1). clear. intros r o a b d A C L H PO PR. split.
  - apply (N.mul_le_mono_pos_r _ _ o PO). apply N.le_trans with (x * (b * r)); [rewrite <- N.mul_assoc; apply N.mul_le_mono_l; exact L|].
    replace (x * (b * r)) with (x * r * b) by lia. replace (y * b * o) with (y * o * b) by lia. apply N.mul_le_mono_r. exact A.
  - apply (N.mul_le_mono_pos_r _ _ r PR). replace (y * b * r) with (y * r * b) by lia. apply N.le_trans with (x * o * b); [apply N.mul_le_mono_r; exact C|].
    rewrite <- N.mul_assoc. replace (x * d * r) with (x * (r * d)) by lia. apply N.mul_le_mono_l. exact H.
Qed.
Lemma value_nearly t neg c j sg v : denotes t neg c j -> (Z.of_nat (length t) < 2 ^ 30)%Z -> json_value t = Some (sg, v) ->
  sg = neg /\ double v /\ v < 2 ^ 2098 /\ (2 ^ 53 <= v -> nearly c j v).
Proof.
  intros HD HL HV. destruct (value_parts t neg c j HD HL) as (s2 & S & m & m' & e & EV & B1 & B2 & EE & OS & LS & _). rewrite HV in EV.
  destruct (from_parts 3 (size_of s2) e) as [v'|] eqn:EP; [|discriminate EV]. assert (sg = neg /\ v = v') as [-> ->] by (split; congruence).
  destruct (parts_double _ _ _ _ EP (size_double _) (size_top _ LS)) as [DV LV]. split; [reflexivity|]. split; [exact DV|]. split; [exact LV|]. intro HB.
  set (E := (Z.abs j + Z.abs e)%Z). assert (0 <= j + E /\ 0 <= e + E /\ 0 <= E)%Z as (P1 & P2 & PE) by (unfold E; lia).
  pose proof (parts_close _ _ _ _ E EP (size_double _) HB PE P2) as C3. change (2 * N.of_nat 3 + 2) with 8 in C3.
  assert (s2 <> 0) as NS.
  { intros ->. assert (size_of 0 = 0) as Z0 by (apply size_zero; reflexivity). rewrite Z0, N.mul_0_l in C3. destruct C3 as [_ C3]. rewrite N.mul_0_l in C3.
    pose proof (p2 53). pose proof (p10 (Z.to_N E)). pose proof (rho_pos 8). assert (0 < v' * 10 ^ Z.to_N E * rho ^ 8) by (apply N.mul_pos_pos; [apply N.mul_pos_pos|]; lia). lia. }
  pose proof (close_mul 1 _ _ (10 ^ Z.to_N (e + E)) (size_close s2 NS)) as C2.
  pose proof (close_mul 1 _ _ unit (trunc_close S m m' c s2 j e E B1 B2 EE OS P1 P2)) as C1.
  assert (close 10 (scaled E c j * unit) (v' * 10 ^ Z.to_N E)) as C.
  { change 10 with (1 + (1 + 8)) at 1. apply (close_trans _ _ _ _ _ C1). apply (close_trans _ _ _ (size_of s2 * 10 ^ Z.to_N (e + E))); [|exact C3].
    replace (scaled E s2 e * unit) with (s2 * unit * 10 ^ Z.to_N (e + E)) by (unfold scaled; generalize unit; clear; intros; lia). exact C2. }
  unfold nearly. rewrite unit_is. apply close_nearly. apply (close_cancel _ _ _ (10 ^ Z.to_N E)); [apply ten_nz|]. rewrite (scaled_u c j E P1 PE).
  replace (v' * 10 ^ Z.to_N (- j) * 10 ^ Z.to_N E) with (v' * 10 ^ Z.to_N E * 10 ^ Z.to_N (- j)) by lia. apply close_mul. exact C.
Qed.

(** ** What is refused, and what becomes small *)
Lemma parts_none fuel : forall f e, from_parts fuel f e = None -> (0 <= e)%Z /\ f <> 0 /\ ((308 < e)%Z \/ ((e <= 308)%Z /\ 2 ^ 2098 <= size_mul f (pow10 (Z.to_N e)))).
Proof.
  induction fuel as [|fuel IH]; intros f e H; cbn [from_parts] in H; (destruct (Z.leb_spec (Z.abs e) 308) as [A|A]); (destruct (Z.leb_spec 0 e) as [P|P]; try discriminate H).
  1,4: cbv zeta in H; (destruct (N.leb_spec (2 ^ 2098) (size_mul f (pow10 (Z.to_N e)))) as [L|L]; [|discriminate H]); (split; [exact P|]); (split; [|right; split; [lia|exact L]]);
      intros ->; (assert (size_mul 0 (pow10 (Z.to_N e)) = 0) as Z0 by (unfold size_mul; rewrite N.mul_0_l; apply round_zero)); rewrite Z0 in L; pose proof (p2 2098); lia.
  - destruct (N.eqb_spec f 0) as [|NF]; [discriminate H|]. split; [exact P|]. split; [exact NF|]. left. lia.
  - destruct (N.eqb_spec f 0) as [|NF]; discriminate H.
  - destruct (N.eqb_spec f 0) as [|NF]; [discriminate H|]. split; [exact P|]. split; [exact NF|]. left. lia.
  - destruct (N.eqb_spec f 0) as [|NF]; [discriminate H|]. apply IH in H. lia.
Qed.
Lemma top_309 : 2 ^ 1024 <= 10 ^ 309. Proof. vm_compute. discriminate. Qed.
Lemma top_split : 2 ^ 2098 = 2 ^ 1024 * unit. Proof. rewrite <- unit_is, <- N.pow_add_r. reflexivity. Qed.
Lemma value_refused t neg c j : denotes t neg c j -> (Z.of_nat (length t) < 2 ^ 30)%Z -> json_value t = None ->
  2 ^ 1024 * 10 ^ Z.to_N (- j) * 2 ^ 49 <= c * 10 ^ Z.to_N j * (2 ^ 49 + 1).
Proof.
  intros HD HL HV. destruct (value_parts t neg c j HD HL) as (s2 & S & m & m' & e & EV & B1 & B2 & EE & OS & LS & _). rewrite HV in EV.
  destruct (from_parts 3 (size_of s2) e) as [v'|] eqn:EP; [discriminate EV|]. clear EV HV. destruct (parts_none _ _ _ EP) as (P0 & NF & HC).
  assert (s2 <> 0) as NS by (intros ->; apply NF, size_zero; reflexivity).
  set (E := (Z.abs j + Z.abs e)%Z). assert (0 <= j + E /\ 0 <= e + E /\ 0 <= E)%Z as (P1 & P2 & PE) by (unfold E; lia).
  pose proof (close_mul 1 _ _ unit (trunc_close S m m' c s2 j e E B1 B2 EE OS P1 P2)) as C1.
  assert (exists y, 2 ^ 2098 <= y /\ close 10 (scaled E c j * unit) (y * 10 ^ Z.to_N E)) as (y & LY & CY).
  { destruct HC as [HB|[HB HM]].
    - exists (s2 * 10 ^ Z.to_N e * unit). split.
      + rewrite top_split. apply N.mul_le_mono_r. apply N.le_trans with (1 * 10 ^ 309); [rewrite N.mul_1_l; exact top_309|]. apply N.mul_le_mono; [lia|apply N.pow_le_mono_r; [discriminate|lia]].
      + apply (close_more 1); [lia|]. replace (s2 * 10 ^ Z.to_N e * unit * 10 ^ Z.to_N E) with (scaled E s2 e * unit); [exact C1|].
        unfold scaled. replace (Z.to_N (e + E)) with (Z.to_N e + Z.to_N E) by lia. rewrite N.pow_add_r. generalize unit, (10 ^ Z.to_N e), (10 ^ Z.to_N E). clear. intros. lia.
    - exists (size_mul (size_of s2) (pow10 (Z.to_N e))). split; [exact HM|]. set (y := size_mul (size_of s2) (pow10 (Z.to_N e))) in *.
      assert (2 ^ 53 <= y) as BY by (eapply N.le_trans; [|exact HM]; apply N.pow_le_mono_r; discriminate).
      pose proof (close_mul 2 _ _ (10 ^ Z.to_N E) (mul_close (size_of s2) (Z.to_N e) y eq_refl BY)) as C3.
      pose proof (close_mul 1 _ _ (10 ^ Z.to_N (e + E)) (size_close s2 NS)) as C2.
      apply (close_more 4); [discriminate|]. change 4 with (1 + (1 + 2)) at 1. apply (close_trans _ _ _ _ _ C1). apply (close_trans _ _ _ (size_of s2 * 10 ^ Z.to_N (e + E))).
      + replace (scaled E s2 e * unit) with (s2 * unit * 10 ^ Z.to_N (e + E)) by (unfold scaled; generalize unit; clear; intros; lia). exact C2.
      + replace (Z.to_N (e + E)) with (Z.to_N e + Z.to_N E) by lia. rewrite N.pow_add_r, N.mul_assoc. exact C3. }
  apply close_nearly in CY as [_ CY].
  apply (N.mul_le_mono_pos_r _ _ (unit * 10 ^ Z.to_N E)); [apply N.mul_pos_pos; [exact unit_pos|apply p10]|].
  pose proof (scaled_u c j E P1 PE) as SU. revert SU CY LY. rewrite top_split. pose proof (p10 (Z.to_N (- j))) as PJ. revert PJ.
  generalize unit, (scaled E c j * unit), (10 ^ Z.to_N (- j)), (c * 10 ^ Z.to_N j), (10 ^ Z.to_N E), (2 ^ 1024), (2 ^ 49), (2 ^ 49 + 1). clear.
  intros U x J w T P q q' PJ SU CY LY.
  replace (w * q' * (U * T)) with (x * J * q') by (rewrite <- SU; lia).
  apply N.le_trans with (y * T * q * J).
  - replace (P * J * q * (U * T)) with (P * U * (J * q * T)) by lia. replace (y * T * q * J) with (y * (J * q * T)) by lia. apply N.mul_le_mono_r. exact LY.
  - replace (x * J * q') with (x * q' * J) by lia. apply N.mul_le_mono_r. exact CY.
Qed.

Lemma ten_308 : 2 ^ 1000 <= 10 ^ 308. Proof. vm_compute. discriminate. Qed.
Lemma pow_308 : 2 ^ 1000 * unit <= pow10 308.
Proof.
  apply (round_above _ _ _ _ one_nz (pow_rounds 308)); [rewrite <- unit_is, <- N.pow_add_r; apply double_pow|]. rewrite N.mul_1_r. apply N.mul_le_mono_r. exact ten_308.
Qed.
Lemma pow_high k x : x <= 2 ^ 53 * pow10 k -> x * rho <= 2 ^ 53 * 10 ^ k * one * unit.
Proof.
  intro H. destruct (pow_close k) as [_ C]. rewrite !N.pow_1_r in C. apply N.le_trans with (2 ^ 53 * pow10 k * rho); [apply N.mul_le_mono_r; exact H|].
  replace (2 ^ 53 * 10 ^ k * one * unit) with (2 ^ 53 * (10 ^ k * unit * one)) by (generalize unit; clear; intros; lia). rewrite <- N.mul_assoc. apply N.mul_le_mono_l. exact C.
Qed.
Lemma one_rho k m x y : k <= m -> x * rho ^ k <= y * one ^ k -> x * rho ^ m <= y * one ^ m.
Proof.
  intros L H. replace m with (k + (m - k)) by lia. rewrite !N.pow_add_r, !N.mul_assoc. apply N.mul_le_mono; [exact H|apply N.pow_le_mono_l; exact rho_one].
Qed.
Lemma parts_small fuel : forall f e v E, from_parts fuel f e = Some v -> v < 2 ^ 53 -> double f -> f < 2 ^ 1000 \/ ((1 <= fuel)%nat /\ f < 2 ^ 1139) -> (0 <= E)%Z -> (0 <= e + E)%Z ->
  f * 10 ^ Z.to_N (e + E) * rho ^ (2 * N.of_nat fuel + 2) <= 2 ^ 53 * 10 ^ Z.to_N E * one ^ (2 * N.of_nat fuel + 2).
Proof.
  assert (forall n d : N, N -> d <> 0 -> round_to n d < 2 ^ 53 -> n <= 2 ^ 53 * d) as SM.
  { intros n d _ ND H. apply N.nlt_ge. intro L. assert (2 ^ 53 <= round_to n d) as X; [|lia].
    apply (round_above n d _ _ ND); [apply (proj2 (rounds_iff _ _ _ ND)); reflexivity|apply double_pow|lia]. }
  assert (forall f k, size_div f (pow10 k) < 2 ^ 53 -> f * rho <= 2 ^ 53 * 10 ^ k * one) as DV.
  { intros f k H. apply SM in H; [|exact 0|apply pow_nz]. apply pow_high in H. apply (N.mul_le_mono_pos_r _ _ unit unit_pos).
    replace (f * rho * unit) with (f * unit * rho) by (generalize unit; clear; intros; lia). exact H. }
  assert (forall fuel f e v E, (Z.abs e <= 308)%Z -> (if (0 <=? e)%Z then let r := size_mul f (pow10 (Z.to_N e)) in if 2 ^ 2098 <=? r then None else Some r
    else Some (size_div f (pow10 (Z.to_N (- e))))) = Some v -> v < 2 ^ 53 -> (0 <= E)%Z -> (0 <= e + E)%Z ->
    f * 10 ^ Z.to_N (e + E) * rho ^ (2 * N.of_nat fuel + 2) <= 2 ^ 53 * 10 ^ Z.to_N E * one ^ (2 * N.of_nat fuel + 2)) as BASE.
  { intros fuel' f e v E A H HV HE HP. apply (one_rho 1); [lia|]. rewrite !N.pow_1_r. destruct (Z.leb_spec 0 e) as [P|P].
    - cbv zeta in H. destruct (2 ^ 2098 <=? _); [discriminate H|]. assert (size_mul f (pow10 (Z.to_N e)) < 2 ^ 53) as H' by (replace v with (size_mul f (pow10 (Z.to_N e))) in HV by congruence; exact HV).
      apply SM in H'; [|exact 0|exact unit_nz]. replace (Z.to_N (e + E)) with (Z.to_N e + Z.to_N E) by lia. rewrite N.pow_add_r.
      destruct (pow_close (Z.to_N e)) as [C _]. rewrite !N.pow_1_r in C. apply (N.mul_le_mono_pos_r _ _ unit unit_pos).
      revert C H'. generalize (10 ^ Z.to_N e), (10 ^ Z.to_N E), (pow10 (Z.to_N e)), (2 ^ 53), unit, rho, one. clear. intros a T p q U r o C H.
      apply N.le_trans with (T * f * (p * o)); [replace (f * (a * T) * r * U) with (T * f * (a * U * r)) by lia; apply N.mul_le_mono_l; exact C|].
      replace (T * f * (p * o)) with (T * o * (f * p)) by lia. replace (q * T * o * U) with (T * o * (q * U)) by lia. apply N.mul_le_mono_l. exact H.
    - assert (size_div f (pow10 (Z.to_N (- e))) < 2 ^ 53) as H' by (replace v with (size_div f (pow10 (Z.to_N (- e)))) in HV by congruence; exact HV). apply DV in H'.
      replace (10 ^ Z.to_N E) with (10 ^ Z.to_N (- e) * 10 ^ Z.to_N (e + E)) by (rewrite <- N.pow_add_r; f_equal; lia).
      revert H'. generalize (10 ^ Z.to_N (- e)), (10 ^ Z.to_N (e + E)), (2 ^ 53), rho, one. clear. intros a T q r o H.
      replace (f * T * r) with (f * r * T) by lia. replace (q * (a * T) * o) with (q * a * o * T) by lia. apply N.mul_le_mono_r. exact H. }
  induction fuel as [|fuel IH]; intros f e v E H HV DF HF HE HP; cbn [from_parts] in H; (destruct (Z.leb_spec (Z.abs e) 308) as [A|A]; [apply (BASE _ f e v E A H HV HE HP)|]);
    (destruct (N.eqb_spec f 0) as [->|NF]; [rewrite !N.mul_0_l; apply N.le_0_l|]); (destruct (Z.leb_spec 0 e) as [P|P]; [discriminate H|]).
  - destruct HF as [HF|[HF _]]; [|lia]. apply (one_rho 0); [lia|]. rewrite !N.pow_0_r, !N.mul_1_r. apply N.le_trans with (1 * 10 ^ Z.to_N E); [|apply N.mul_le_mono_r; pose proof (p2 53); lia].
    assert (10 ^ Z.to_N E = 10 ^ 308 * 10 ^ (Z.to_N E - 308)) as EP by (rewrite <- N.pow_add_r; f_equal; lia). rewrite N.mul_1_l, EP. apply N.mul_le_mono; [eapply N.le_trans; [apply N.lt_le_incl; exact HF|exact ten_308]|].
    apply N.pow_le_mono_r; [discriminate|lia].
  - set (f' := size_div f (pow10 308)) in *. destruct (N.lt_ge_cases f' (2 ^ 53)) as [L|L].
    + apply (one_rho 1); [lia|]. rewrite !N.pow_1_r. apply DV in L. assert (10 ^ Z.to_N E = 10 ^ 308 * 10 ^ Z.to_N (e + E) * 10 ^ Z.to_N (- e - 308)) as EP by (rewrite <- !N.pow_add_r; f_equal; lia). rewrite EP.
      pose proof (p10 (Z.to_N (- e - 308))) as PX. revert L PX. generalize (10 ^ 308), (10 ^ Z.to_N (e + E)), (10 ^ Z.to_N (- e - 308)), (2 ^ 53), rho, one. clear. intros a T X q r o L PX.
      replace (f * T * r) with (f * r * T) by lia. apply N.le_trans with (q * a * o * T); [apply N.mul_le_mono_r; exact L|].
      replace (q * (a * T * X) * o) with (q * a * o * T * X) by lia. rewrite <- (N.mul_1_r (q * a * o * T)) at 1. apply N.mul_le_mono_l. lia.
    + pose proof (div_close f 308 f' eq_refl L) as [C _].
      assert (f' < 2 ^ 1000) as LF.
      { apply N.le_lt_trans with (2 ^ 139); [|apply N.pow_lt_mono_r; reflexivity]. apply (round_below (f * unit) (pow10 308) _ _ (pow_nz _)); [apply (proj2 (rounds_iff _ _ _ (pow_nz _))); reflexivity|apply double_pow|].
        apply N.le_trans with (2 ^ 139 * (2 ^ 1000 * unit)); [|apply N.mul_le_mono_l; exact pow_308]. rewrite N.mul_assoc. apply N.mul_le_mono_r.
        assert (2 ^ 139 * 2 ^ 1000 = 2 ^ 1139) as EQ by (rewrite <- N.pow_add_r; reflexivity). rewrite EQ. destruct HF as [HF|[_ HF]]; [|lia].
        apply N.lt_le_incl, N.lt_trans with (1 := HF). apply N.pow_lt_mono_r; reflexivity. }
      pose proof (IH f' (e + 308)%Z v E H HV (div_double _ _) (or_introl LF) HE ltac:(lia)) as C2.
      replace (2 * N.of_nat (S fuel) + 2) with (2 + (2 * N.of_nat fuel + 2)) by lia. eapply close_le1; [|exact C2].
      replace (Z.to_N (e + 308 + E)) with (308 + Z.to_N (e + E)) by lia. rewrite (N.pow_add_r 10). revert C. generalize (10 ^ 308), (10 ^ Z.to_N (e + E)), (rho ^ 2), (one ^ 2). clear. intros a T r o C.
      replace (f * T * r) with (f * r * T) by lia. replace (f' * (a * T) * o) with (f' * a * o * T) by lia. apply N.mul_le_mono_r. exact C.
Qed.
Lemma half_10 : one ^ 10 < 2 * rho ^ 10. Proof. vm_compute. reflexivity. Qed.
Lemma p54 : 2 ^ 54 = 2 ^ 53 * 2. Proof. reflexivity. Qed.
(** a number that is not less than 2^-1020 is read as one that is not less than 2^-1021 *)
Lemma value_large t neg c j sg v : denotes t neg c j -> (Z.of_nat (length t) < 2 ^ 30)%Z -> json_value t = Some (sg, v) ->
  2 ^ 54 * 10 ^ Z.to_N (- j) <= c * 10 ^ Z.to_N j * 2 ^ 1074 -> 2 ^ 53 <= v.
Proof.
  intros HD HL HV HX. destruct (value_parts t neg c j HD HL) as (s2 & S & m & m' & e & EV & B1 & B2 & EE & OS & LS & _). rewrite HV in EV.
  destruct (from_parts 3 (size_of s2) e) as [v'|] eqn:EP; [|discriminate EV]. assert (v = v') as -> by congruence. clear EV HV. apply N.nlt_ge. intro L.
  set (E := (Z.abs j + Z.abs e)%Z). assert (0 <= j + E /\ 0 <= e + E /\ 0 <= E)%Z as (P1 & P2 & PE) by (unfold E; lia).
  assert (size_of s2 < 2 ^ 1000 \/ ((1 <= 3)%nat /\ size_of s2 < 2 ^ 1139)) as HF.
  { right. split; [lia|]. apply N.le_lt_trans with (2 ^ (64 + 1074)); [|apply N.pow_lt_mono_r; reflexivity]. apply (round_below _ _ _ _ one_nz (size_rounds s2) (double_pow _)).
    rewrite N.mul_1_r, N.pow_add_r, unit_is. apply N.mul_le_mono_r. lia. }
  pose proof (parts_small _ _ _ _ E EP L (size_double _) HF PE P2) as C3. change (2 * N.of_nat 3 + 2) with 8 in C3.
  assert (s2 <> 0) as NS.
  { intros ->. assert (c = 0) as ->.
    { destruct OS as [[-> ->]|HS].
      - rewrite N.pow_0_r, !N.mul_1_r in *. lia.
      - pose proof (p10 m') as PM. assert (0 < S * 10 ^ m') by (apply N.mul_pos_pos; [eapply N.lt_le_trans; [apply (p2 60)|exact HS]|exact PM]). lia. }
    rewrite !N.mul_0_l in HX. pose proof (p2 54). pose proof (p10 (Z.to_N (- j))). assert (0 < 2 ^ 54 * 10 ^ Z.to_N (- j)) by (apply N.mul_pos_pos; assumption). lia. }
  destruct (close_mul 1 _ _ (10 ^ Z.to_N (e + E)) (size_close s2 NS)) as [C2 _].
  destruct (close_mul 1 _ _ unit (trunc_close S m m' c s2 j e E B1 B2 EE OS P1 P2)) as [C1 _].
  replace (scaled E s2 e * unit) with (s2 * unit * 10 ^ Z.to_N (e + E)) in C1 by (unfold scaled; generalize unit; clear; intros; lia).
  pose proof (close_le1 1 8 _ _ _ C2 C3) as C. apply (close_le1 1 9 _ _ _ C1) in C. change (1 + 9) with 10 in C. clear C1 C2 C3.
  assert (2 ^ 54 * 10 ^ Z.to_N E <= scaled E c j * unit) as HX'.
  { apply (N.mul_le_mono_pos_r _ _ (10 ^ Z.to_N (- j))); [apply p10|]. rewrite <- (scaled_u c j E P1 PE). rewrite unit_is in HX.
    replace (2 ^ 54 * 10 ^ Z.to_N E * 10 ^ Z.to_N (- j)) with (2 ^ 54 * 10 ^ Z.to_N (- j) * 10 ^ Z.to_N E) by lia. apply N.mul_le_mono_r. exact HX. }
  apply (N.mul_le_mono_r _ _ (rho ^ 10)) in HX'. pose proof half_10 as HH. pose proof (p10 (Z.to_N E)) as PT. pose proof (p2 53) as P53. rewrite p54 in HX'. pose proof (one_pos 10) as PO.
  revert C HX' HH PT P53 PO. generalize (scaled E c j * unit * rho ^ 10), (10 ^ Z.to_N E), (2 ^ 53), (rho ^ 10), (one ^ 10). clear. intros x T q r o C HX HH PT P53 PO.
  assert (q * T * o < q * 2 * T * r); [|lia]. replace (q * 2 * T * r) with (q * T * (2 * r)) by lia. apply N.mul_lt_mono_pos_l; [apply N.mul_pos_pos; assumption|exact HH].
Qed.
