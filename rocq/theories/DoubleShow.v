(** * The text of a number of 64 bits; exact integers, the error of a sum, positive numbers *)

From Verif Require Import Bytes BytesFacts State Spec Float64 SpecDouble NumberProofs WordProofs DoubleProofs.
Open Scope N_scope.
Opaque N.pow unit.

Lemma unit_small : unit <= 10 ^ 400. Proof. vm_compute. discriminate. Qed.
Lemma unit_top : 2 ^ 1024 * 10 ^ 400 <= 10 ^ 709. Proof. vm_compute. discriminate. Qed.
Lemma unit_is : 2 ^ 1074 = unit. Proof. reflexivity. Qed.
Lemma unit_nz : unit <> 0. Proof. apply N.neq_0_lt_0. exact unit_pos. Qed.

Lemma decade v : 0 < v -> in_decade v (digits_before v).
Proof.
  intros HV E HE HP. unfold digits_before in *. set (m := v * 10 ^ 400 / unit) in *.
  pose proof (N.div_mod (v * 10 ^ 400) unit unit_nz) as DM. pose proof (N.mod_lt (v * 10 ^ 400) unit unit_nz) as ML. fold m in DM.
  assert (m <> 0) as MN.
  { intro E0. rewrite E0, N.mul_0_r, N.add_0_l in DM. rewrite <- DM in ML. pose proof unit_small as US.
    assert (1 * 10 ^ 400 <= v * 10 ^ 400) as X by (apply N.mul_le_mono_r; lia). rewrite N.mul_1_l in X. apply (N.lt_irrefl unit).
    apply N.le_lt_trans with (2 := ML). apply N.le_trans with (1 := US). exact X. }
  destruct (dec_length m MN) as [[LL LU] LP]. set (L := length (dec_N m)) in *.
  replace (10 ^ Z.to_N E) with (10 ^ 400 * 10 ^ Z.to_N (E - 400)) by (rewrite <- N.pow_add_r; f_equal; lia).
  replace (10 ^ Z.to_N (Z.of_nat L - 400 - 1 + E)) with (10 ^ N.of_nat (L - 1) * 10 ^ Z.to_N (E - 400)) by (rewrite <- N.pow_add_r; f_equal; lia).
  replace (10 ^ Z.to_N (Z.of_nat L - 400 + E)) with (10 ^ N.of_nat L * 10 ^ Z.to_N (E - 400)) by (rewrite <- N.pow_add_r; f_equal; lia).
  pose proof (p10 (Z.to_N (E - 400))) as PW. rewrite N.mul_assoc, DM. revert LL LU ML PW.
  generalize (10 ^ N.of_nat (L - 1)), (10 ^ N.of_nat L), (10 ^ Z.to_N (E - 400)), ((v * 10 ^ 400) mod unit). clear. generalize unit.
  intros u lo hi w r LL LU ML PW. split.
  - replace (lo * w * u) with (lo * u * w) by lia. apply N.mul_le_mono_r. apply N.le_trans with (u * m); [rewrite N.mul_comm; apply N.mul_le_mono_l; exact LL|apply N.le_add_r].
  - replace (hi * w * u) with (u * hi * w) by lia. apply N.mul_lt_mono_pos_r; [exact PW|].
    apply N.lt_le_trans with (u * (m + 1)); [rewrite N.mul_add_distr_l, N.mul_1_r; apply N.add_lt_mono_l; exact ML|apply N.mul_le_mono_l; lia].
Qed.
Lemma decade_top v : 0 < v -> v < 2 ^ 1024 * 2 ^ 1074 -> (digits_before v + 1074 < 1 + 1500)%Z.
Proof.
  intros HV HT. unfold digits_before. set (m := v * 10 ^ 400 / unit). destruct (N.eq_dec m 0) as [->|MN]; [vm_compute; reflexivity|].
  destruct (dec_length m MN) as [[LL LU] LP]. rewrite unit_is in HT.
  assert (m < 10 ^ 709) as X.
  { apply N.div_lt_upper_bound; [exact unit_nz|]. apply N.lt_le_trans with (2 ^ 1024 * unit * 10 ^ 400); [apply N.mul_lt_mono_pos_r; [apply p10|exact HT]|].
    replace (2 ^ 1024 * unit * 10 ^ 400) with (unit * (2 ^ 1024 * 10 ^ 400)) by (generalize (2 ^ 1024), unit, (10 ^ 400); clear; intros; lia).
    apply N.mul_le_mono_l. exact unit_top. }
  assert (10 ^ N.of_nat (length (dec_N m) - 1) < 10 ^ 709) as Y by (eapply N.le_lt_trans; eassumption).
  apply N.pow_lt_mono_r_iff in Y; [|reflexivity]. lia.
Qed.

(** ** The digits and the point *)
Lemma no_spare_zero v c j : briefest v c j -> c <> 0 -> c mod 10 <> 0.
Proof.
  intros [HR HB] HC HM. pose proof (N.div_mod c 10 ltac:(discriminate)) as D. rewrite HM, N.add_0_r in D. set (c' := c / 10) in *.
  assert (c' <> 0) as NC by lia. destruct (dec_length c' NC) as [[LL LU] LP].
  assert (decimal_rounds c' (j + 1) v) as HR'.
  { set (E := (Z.abs j + 1)%Z). assert (0 <= E)%Z by (unfold E; lia). apply (decimal_scaled c' (j + 1) E v); [unfold E; lia|assumption|].
    apply (decimal_scaled c j E v) in HR; [|unfold E; lia|assumption]. replace (scaled E c' (j + 1)) with (scaled E c j); [exact HR|].
    unfold scaled. replace (Z.to_N (j + 1 + E)) with (N.succ (Z.to_N (j + E))) by (unfold E; lia). rewrite N.pow_succ_r', D. lia. }
  destruct (HB c' (j + 1)%Z _ HR' LU) as [X _].
  replace (10 ^ N.of_nat (length (dec_N c'))) with (10 * 10 ^ N.of_nat (length (dec_N c') - 1)) in X
    by (rewrite <- N.pow_succ_r'; f_equal; lia). lia.
Qed.
Lemma decimal_zeros s n k : decimal s n -> decimal (s ++ repeat "0"%char k) (n * 10 ^ N.of_nat k).
Proof.
  intro H. apply decimal_val. rewrite digits_val_app. apply decimal_val in H. rewrite H. clear H. revert n. induction k as [|k IH]; intro n.
  - cbn [repeat digits_val]. rewrite N.pow_0_r, N.mul_1_r. reflexivity.
  - cbn [repeat digits_val]. change (digit "0"%char) with (Some 0). cbn iota. rewrite IH, Nat2N.inj_succ, N.pow_succ_r'. f_equal. lia.
Qed.
Lemma zeros_decimal s n k : decimal s n -> decimal (repeat "0"%char k ++ s) n.
Proof. intro H. apply decimal_val in H. apply decimal_val. induction k as [|k IH]; [exact H|]. cbn [repeat app digits_val]. change (digit "0"%char) with (Some 0). exact IH. Qed.
Lemma last_zero r n : decimal (r ++ B "0") n -> n mod 10 = 0.
Proof.
  intro H. remember (r ++ B "0") as s eqn:E. destruct H as [|s' n' d H Hd]; [destruct r; discriminate E|].
  apply app_inj_tail in E as [_ E]. rewrite N.add_comm, N.mul_comm, N.mod_add by discriminate. rewrite N.mod_small by exact Hd.
  apply (f_equal N_of_ascii) in E. rewrite N_ascii_embedding in E by lia. change (N_of_ascii "0") with 48 in E. lia.
Qed.
Lemma last_digit s n : decimal s n -> s <> [] -> n mod 10 = 0 -> exists r, s = r ++ B "0".
Proof.
  intros [|s' n' d H Hd] HN HM; [congruence|]. exists s'. rewrite N.add_comm, N.mul_comm, N.mod_add in HM by discriminate. rewrite N.mod_small in HM by exact Hd. subst d. reflexivity.
Qed.
Lemma positional_ok v c j : briefest v c j -> c <> 0 -> spells (positional c j) c j.
Proof.
  intros HB HC. pose proof (no_spare_zero v c j HB HC) as HM. unfold positional. pose proof (dec_N_plain c) as HP. pose proof HP as (HD & HE & HZ).
  set (ds := dec_N c) in *. assert (forall r, ds <> B "0" ++ r) as NZ.
  { destruct HZ as [HZ|HZ]; [|exact HZ]. rewrite HZ in HD. apply decimal_val in HD. cbn in HD. congruence. }
  assert (forall r, ds <> r ++ B "0") as NL by (intros r E; rewrite E in HD; apply last_zero in HD; congruence).
  destruct (Z.leb_spec 0 j) as [J|J].
  - pose proof (decimal_zeros ds c (Z.to_nat j) HD) as HD2. replace (N.of_nat (Z.to_nat j)) with (Z.to_N j) in HD2 by lia.
    assert (ds ++ repeat "0"%char (Z.to_nat j) <> []) as NE by (intro E; apply app_eq_nil in E as [E _]; contradiction). split.
    + apply td_whole with (c * 10 ^ Z.to_N j). split; [exact HD2|]. split; [exact NE|]. right. intros r E. destruct ds as [|a t]; [congruence|].
      injection E as E1 E2. apply (NZ t). rewrite E1. reflexivity.
    + exists (c * 10 ^ Z.to_N j), 0%nat. split; [apply ma_int; assumption|]. replace (Z.to_N (- j)) with 0 by lia. reflexivity.
  - unfold spells. set (f := Z.to_nat (- j)). replace (Z.to_N j) with 0 by lia. replace (Z.to_N (- j)) with (N.of_nat f) by lia. destruct (Nat.ltb_spec f (length ds)) as [L|L].
    + set (k := (length ds - f)%nat). pose proof (firstn_skipn k ds) as FS. set (a := firstn k ds) in *. set (b := skipn k ds) in *.
      assert (length b = f) as LB by (unfold b; rewrite skipn_length; unfold k; lia). assert (length a = k) as LA by (unfold a; rewrite firstn_length; unfold k; lia).
      assert (exists m, decimal a m) as (m & Hm).
      { pose proof HD as X. rewrite <- FS in X. apply decimal_val in X. rewrite digits_val_app in X. destruct (digits_val 0 a) as [m|] eqn:EA; [|discriminate X]. exists m. apply decimal_val. exact EA. }
      split.
      * apply td_point with m; [split; [exact Hm|split]| |].
        { intro E. rewrite E in LA. cbn [length] in LA. unfold k in LA. lia. }
        { right. intros r E. apply (NZ (r ++ b)). rewrite app_assoc, <- E. symmetry. exact FS. }
        { intro E. rewrite E in LB. cbn [length] in LB. unfold f in LB. lia. }
        { intros r E. apply (NL (a ++ r)). rewrite <- app_assoc, <- E. symmetry. exact FS. }
      * exists c, f. split; [rewrite <- LB; apply ma_point; rewrite FS; assumption|]. change (10 ^ 0) with 1. clear; lia.
    + set (b := repeat "0"%char (f - length ds) ++ ds). assert (length b = f) as LB by (unfold b; rewrite app_length, repeat_length; lia).
      change (B "0.") with (B "0" ++ B "."). rewrite <- app_assoc. fold b. split.
      * apply td_point with 0; [exact (dec_N_plain 0)|intro E; rewrite E in LB; cbn in LB; unfold f in LB; lia|].
        intros r E. unfold b in E. destruct (@exists_last _ ds HE) as (d & z & EQ). rewrite EQ, app_assoc in E. apply app_inj_tail in E as [_ ->]. exact (NL d EQ).
      * exists c, f. split; [rewrite <- LB; apply ma_point|change (10 ^ 0) with 1; clear; lia]; [|discriminate]. unfold b. rewrite app_assoc. exact (zeros_decimal ds c (S (f - length ds)) HD).
Qed.
Lemma double_0 : double 0. Proof. exists 0, 0. split; [apply p2|reflexivity]. Qed.
Lemma briefest_0 : briefest 0 0 0.
Proof.
  split.
  - apply (proj2 (decimal_unit _ _ _)). rewrite !N.mul_0_l. change (rounds (0 * 10 ^ Z.to_N (- 0)) (10 ^ Z.to_N (- 0)) 0). apply rounds_exact; [exact double_0|apply ten_nz].
  - intros c' j' n _ H. split; [apply p10|]. intro X. pose proof (p10 n). lia.
Qed.
Lemma show_ok x : valid x -> shows x (show_f64 x).
Proof.
  destruct x as [neg v|neg|]; [|intros _; apply sh_infinite|intros _; apply sh_nan]. intros [DV HT]. cbn [show_f64]. fold (dash_if neg).
  destruct (N.eqb_spec v 0) as [->|NV].
  - apply (sh_finite neg 0 0 0); [exact briefest_0|]. split; [apply td_whole with 0; exact (dec_N_plain 0)|]. exists 0, 0%nat. split; [|reflexivity].
    apply ma_int; [|discriminate]. apply (dec_N_plain 0).
  - assert (0 < v) as PV by lia.
    assert (briefest v (fst (shortest (fun _ => true) 1500 v (digits_before v) 1)) (snd (shortest (fun _ => true) 1500 v (digits_before v) 1))) as HB.
    { apply shortest_ok; [exact DV|exact (decade v PV)|lia|discriminate|apply decade_top; assumption|].
      intros m c' j' HM HC HR. assert (m = 0) as -> by lia. rewrite N.pow_0_r in HC. assert (c' = 0) as -> by lia.
      apply (proj1 (decimal_unit _ _ _)) in HR. rewrite !N.mul_0_l in HR. apply (proj1 (rounds_iff _ _ _ (ten_nz _))) in HR. rewrite round_zero in HR. contradiction. }
    destruct (shortest (fun _ => true) 1500 v (digits_before v) 1) as [c j]. cbn [fst snd] in HB. apply (sh_finite neg v c j); [exact HB|]. apply (positional_ok v); [exact HB|].
    intros ->. destruct HB as [HR _]. apply (proj1 (decimal_unit _ _ _)) in HR. rewrite !N.mul_0_l in HR. apply (proj1 (rounds_iff _ _ _ (ten_nz _))) in HR. rewrite round_zero in HR. contradiction.
Qed.

(** ** Reading back *)
Lemma sign_dash neg : sign (dash_if neg) neg. Proof. destruct neg; constructor. Qed.
Lemma shows_back x t : valid x -> shows x t -> stands_for t x.
Proof.
  intros HV HS. destruct HS as [|neg|neg v c j u [HR _] [_ (n & f & HM & EQ)]].
  - apply (sf_nan [] false (B "NaN")); [constructor|]. repeat (constructor; [first [left; reflexivity|right; reflexivity]|]); constructor.
  - apply sf_infinite; [apply sign_dash|]. left. repeat (constructor; [first [left; reflexivity|right; reflexivity]|]); constructor.
  - destruct HV as [DV HT]. rewrite <- (app_nil_r u). apply (sf_number (dash_if neg) neg u n f [] 0%Z v); [apply sign_dash|exact HM|constructor| |].
    + apply (proj1 (decimal_unit _ _ _)) in HR. apply (proj2 (decimal_unit _ _ _)). revert HR. apply rounds_same; [apply ten_nz|apply ten_nz|].
      replace (Z.to_N (0 - Z.of_nat f)) with 0 by lia. replace (Z.to_N (- (0 - Z.of_nat f))) with (N.of_nat f) by lia. rewrite N.pow_0_r, N.mul_1_r.
      replace (n * unit * 10 ^ Z.to_N (- j)) with (n * 10 ^ Z.to_N (- j) * unit) by (generalize unit; clear; intros; lia). rewrite EQ. generalize unit; clear; intros; lia.
    + unfold bounded. apply N.ltb_lt in HT. rewrite HT. reflexivity.
Qed.

(** ** Integers *)
Lemma double_unit K : K <= 2 ^ 53 -> double (K * unit).
Proof.
  intro H. destruct (N.eq_dec K (2 ^ 53)) as [->|NE].
  - exists (2 ^ 52), 1075. split; [rewrite p53; pose proof (p2 52); lia|]. rewrite p53. rewrite <- unit_is. change 1075 with (1 + 1074). rewrite N.pow_add_r. change (2 ^ 1) with 2.
    generalize (2 ^ 52), (2 ^ 1074). clear. intros. lia.
  - exists K, 1074. split; [lia|]. reflexivity.
Qed.
(** a decimal read as an integer is less than one away from it *)
Lemma near_integer c j I : I < 2 ^ 53 -> decimal_rounds c j (I * unit) ->
  c * 10 ^ Z.to_N j < (I + 1) * 10 ^ Z.to_N (- j) /\ (I <> 0 -> (I - 1) * 10 ^ Z.to_N (- j) < c * 10 ^ Z.to_N j).
Proof.
  intros HI HR. apply (proj1 (decimal_unit _ _ _)) in HR. set (d := 10 ^ Z.to_N (- j)) in *. set (n := c * 10 ^ Z.to_N j) in *. pose proof (ten_nz (Z.to_N (- j))) as ND. fold d in ND.
  assert (forall K, K <= 2 ^ 53 -> I * d <= K * d <= n \/ n <= K * d <= I * d -> K = I) as B.
  { intros K HK HB. assert (rounds (K * unit * d) d (I * unit)) as X.
    { apply (rounds_convex _ _ _ _ HR). replace (K * unit * d) with (K * d * unit) by (generalize unit; clear; intros; lia). replace (I * unit * d) with (I * d * unit) by (generalize unit; clear; intros; lia).
      destruct HB as [[B1 B2]|[B1 B2]]; [right|left]; split; apply N.mul_le_mono_r; assumption. }
    pose proof (rounds_unique _ _ _ _ ND X (rounds_exact _ d (double_unit K HK) ND)) as E.
    symmetry in E. apply N.mul_cancel_r in E; [exact E|exact unit_nz]. }
  split.
  - apply N.nle_gt. intro L. assert (I + 1 = I) as E; [|lia]. apply B; [lia|]. left. split; [apply N.mul_le_mono_r; lia|exact L].
  - intro NI. apply N.nle_gt. intro L. assert (I - 1 = I) as E; [|lia]. apply B; [lia|]. right. split; [exact L|apply N.mul_le_mono_r; lia].
Qed.
Lemma trailing I : I <> 0 -> exists c0 j0, I = c0 * 10 ^ j0 /\ c0 mod 10 <> 0.
Proof.
  induction I as [I IH] using (well_founded_induction N.lt_wf_0). intro NI. pose proof (N.div_mod I 10 ltac:(discriminate)) as D.
  destruct (N.eq_dec (I mod 10) 0) as [E|E]; [|exists I, 0; rewrite N.pow_0_r, N.mul_1_r; split; [reflexivity|exact E]].
  rewrite E, N.add_0_r in D. destruct (IH (I / 10)) as (c0 & j0 & E0 & M); [|intro E0; rewrite E0 in D; lia|].
  - apply N.div_lt; [lia|reflexivity].
  - exists c0, (N.succ j0). split; [|exact M]. rewrite N.pow_succ_r', D at 1. rewrite E0. lia.
Qed.
Lemma gap_zero n d v : gap n d v = 0 -> n = v * d. Proof. unfold gap. lia. Qed.
Lemma briefest_integer I c j : I < 2 ^ 53 -> briefest (I * unit) c j -> c * 10 ^ Z.to_N j = I * 10 ^ Z.to_N (- j).
Proof.
  intros HI [HR HB]. destruct (N.eq_dec I 0) as [->|NI].
  { destruct (HB 0 0%Z 0) as [X _]; [|apply p10|]. { rewrite N.mul_0_l. apply briefest_0. } rewrite N.pow_0_r in X. assert (c = 0) as -> by lia. rewrite !N.mul_0_l. reflexivity. }
  destruct (near_integer c j I HI HR) as [NU NL]. specialize (NL NI). destruct (trailing I NI) as (c0 & j0 & E0 & M0).
  assert (c0 <> 0) as N0 by (intros ->; contradiction M0; reflexivity). destruct (dec_length c0 N0) as [[LL LU] LP].
  set (n := N.of_nat (length (dec_N c0))) in *.
  assert (decimal_rounds c0 (Z.of_N j0) (I * unit)) as R0.
  { apply (proj2 (decimal_unit _ _ _)). replace (Z.to_N (Z.of_N j0)) with j0 by lia. rewrite <- E0. replace (Z.to_N (- Z.of_N j0)) with 0 by lia. rewrite N.pow_0_r.
    rewrite <- (N.mul_1_r (I * unit)) at 1. apply rounds_exact; [apply double_unit; lia|discriminate]. }
  destruct (HB c0 (Z.of_N j0) n R0 LU) as [CL NF]. destruct (N.le_gt_cases (10 ^ n) (10 * c)) as [G|G].
  - specialize (NF G). unfold not_farther in NF. rewrite !farness_unit in NF. replace (Z.to_N (Z.of_N j0)) with j0 in NF by lia. rewrite <- E0 in NF.
    replace (Z.to_N (- Z.of_N j0)) with 0 in NF by lia. rewrite N.pow_0_r in NF. 
    assert (gap (I * unit) 1 (I * unit) = 0) as GZ by (unfold gap; rewrite N.mul_1_r, N.sub_diag; reflexivity). rewrite GZ, N.mul_0_l, N.mul_1_r in NF. apply N.le_0_r in NF. apply gap_zero in NF.
    replace (I * unit * 10 ^ Z.to_N (- j)) with (I * 10 ^ Z.to_N (- j) * unit) in NF by (generalize unit; clear; intros; lia). apply N.mul_cancel_r in NF; [exact NF|exact unit_nz].
  - destruct (Z.le_gt_cases 0 j) as [J|J].
    + replace (Z.to_N (- j)) with 0 in * by lia. rewrite N.pow_0_r in *. lia.
    + exfalso. replace (Z.to_N j) with 0 in * by lia. rewrite N.pow_0_r, N.mul_1_r in *.
      replace (10 ^ n) with (10 * 10 ^ N.of_nat (length (dec_N c0) - 1)) in G by (rewrite <- N.pow_succ_r'; f_equal; unfold n; lia).
      assert (c < I) as CI. { apply N.lt_le_trans with c0; [lia|]. rewrite E0. pose proof (p10 j0). rewrite <- (N.mul_1_r c0) at 1. apply N.mul_le_mono_l. lia. }
      assert ((I - 1) * 10 <= (I - 1) * 10 ^ Z.to_N (- j)) as X.
      { apply N.mul_le_mono_l. change 10 with (10 ^ 1) at 1. apply N.pow_le_mono_r; [discriminate|lia]. }
      clear - X NL CI G. lia.
Qed.
Lemma decimal_no_point s n : decimal s n -> ~ In "."%char s.
Proof. intros H HI. apply decimal_digits in H. rewrite Forall_forall in H. apply H in HI. revert HI. unfold is_digit. vm_compute. intros [? ?]. congruence. Qed.
Lemma split_point (a b a' b' : bytes) : ~ In "."%char a -> ~ In "."%char a' -> a ++ B "." ++ b = a' ++ B "." ++ b' -> a = a' /\ b = b'.
Proof.
  revert a'. induction a as [|x a IH]; intros a' H H' E; destruct a' as [|y a'].
  - injection E as ->. split; reflexivity.
  - injection E as E _. contradiction H'. left. symmetry. exact E.
  - injection E as E _. contradiction H. left. exact E.
  - injection E as -> E. destruct (IH a') as [-> ->]; [intro X; apply H; right; exact X|intro X; apply H'; right; exact X|exact E|split; reflexivity].
Qed.
Lemma decimal_det s n m : decimal s n -> decimal s m -> n = m.
Proof. intros H1 H2. apply decimal_val in H1. apply decimal_val in H2. congruence. Qed.
Lemma decimal_part a b n : decimal (a ++ b) n -> exists m, decimal a m.
Proof. intro X. apply decimal_val in X. rewrite digits_val_app in X. destruct (digits_val 0 a) as [m|] eqn:EA; [|discriminate X]. exists m. apply decimal_val. exact EA. Qed.
Lemma spells_integer u c j I : spells u c j -> c * 10 ^ Z.to_N j = I * 10 ^ Z.to_N (- j) -> plain_decimal u I.
Proof.
  intros [HT (n & f & HM & EQ)] EI. rewrite EI in EQ.
  assert (n = I * 10 ^ N.of_nat f) as EN.
  { apply (N.mul_cancel_r _ _ (10 ^ Z.to_N (- j))); [apply ten_nz|]. rewrite EQ. lia. } clear EQ EI.
  destruct HT as [a m HP|a m b (HP1 & HP2 & HP3) HNE HZ].
  - destruct HM as [ds n HD HN|a b n HD HN].
    + rewrite N.pow_0_r, N.mul_1_r in EN. subst n. destruct HP as (H1 & H2 & H3). split; [exact HD|]. split; assumption.
    + destruct HP as (H1 & _). apply decimal_no_point in H1. contradiction H1. apply in_or_app. right. left. reflexivity.
  - exfalso. remember (a ++ B "." ++ b) as u eqn:EU. destruct HM as [ds n HD HN|a' b' n HD HN].
    + subst ds. apply decimal_no_point in HD. apply HD. apply in_or_app. right. left. reflexivity.
    + destruct (decimal_part _ _ _ HD) as (m' & Hm'). apply split_point in EU as [-> ->]; [|eapply decimal_no_point; eassumption|eapply decimal_no_point; eassumption].
      assert (n mod 10 = 0) as M. { rewrite EN. destruct b as [|x b]; [congruence|]. cbn [length]. rewrite Nat2N.inj_succ, N.pow_succ_r'. 
        replace (I * (10 * 10 ^ N.of_nat (length b))) with (I * 10 ^ N.of_nat (length b) * 10) by lia. apply N.mod_mul. discriminate. }
      destruct (last_digit _ _ HD HN M) as (r & ER). destruct (@exists_last _ b HNE) as (b0 & z & EB). rewrite EB, app_assoc in ER. apply app_inj_tail in ER as [_ ->]. exact (HZ b0 EB).
Qed.
Definition integer_double (z : Z) : f64 := Fin (z <? 0)%Z (Z.to_N (Z.abs z) * unit).
Lemma top_big : 2 ^ 53 * unit <= 2 ^ 1024 * 2 ^ 1074. Proof. vm_compute. discriminate. Qed.
Lemma integer_bounded K neg : K < 2 ^ 53 -> bounded neg (K * unit) (Fin neg (K * unit)).
Proof.
  intro H. unfold bounded. assert (K * unit < 2 ^ 1024 * 2 ^ 1074) as X.
  { apply N.lt_le_trans with (2 := top_big). apply N.mul_lt_mono_pos_r; [exact unit_pos|exact H]. }
  apply N.ltb_lt in X. rewrite X. reflexivity.
Qed.
Lemma small_abs z : (Z.abs z < 2 ^ 53)%Z -> Z.to_N (Z.abs z) < 2 ^ 53.
Proof. intro H. change (2 ^ 53) with (Z.to_N (2 ^ 53)). apply Z2N.inj_lt; [lia|lia|exact H]. Qed.
Lemma integer_reads s z : (Z.abs z < 2 ^ 53)%Z -> plain_integer s z -> stands_for s (integer_double z).
Proof.
  intros HZ HP. apply small_abs in HZ. set (K := Z.to_N (Z.abs z)) in *.
  assert (forall sg neg t, sign sg neg -> plain_decimal t K -> stands_for (sg ++ t) (Fin neg (K * unit))) as G.
  { intros sg neg t HS (HD & HE & _). rewrite <- (app_nil_r t). apply (sf_number sg neg t K 0 [] 0%Z (K * unit)); [exact HS|apply ma_int; assumption|constructor| |apply integer_bounded; exact HZ].
    apply (proj2 (decimal_unit _ _ _)). change (Z.to_N (0 - Z.of_nat 0)) with 0. change (Z.to_N (- (0 - Z.of_nat 0))) with 0. rewrite N.pow_0_r, N.mul_1_r.
    rewrite <- (N.mul_1_r (K * unit)) at 1. apply rounds_exact; [apply double_unit; lia|discriminate]. }
  unfold plain_integer in HP. unfold integer_double. fold K. destruct (Z.ltb_spec z 0) as [L|L].
  - destruct HP as (t & -> & HP). apply G; [constructor|]. unfold K. replace (Z.abs z) with (- z)%Z by lia. exact HP.
  - apply (G [] false); [constructor|]. unfold K. replace (Z.abs z) with z by lia. exact HP.
Qed.
Lemma signed_integer z : signed (z <? 0)%Z (Z.to_N (Z.abs z) * unit) = (z * Z.of_N unit)%Z.
Proof. unfold signed. rewrite N2Z.inj_mul, Z2N.id by lia. destruct (Z.ltb_spec z 0); lia. Qed.
Lemma integer_adds a b : (Z.abs (a + b) < 2 ^ 53)%Z -> adds (integer_double a) (integer_double b) (integer_double (a + b)).
Proof.
  intro H. apply small_abs in H. unfold integer_double. apply ad_finite with (neg := (a + b <? 0)%Z) (v := Z.to_N (Z.abs (a + b)) * unit).
  - rewrite !signed_integer, <- Z.mul_add_distr_r, Z.abs_mul, Z2N.inj_mul by lia. replace (Z.to_N (Z.abs (Z.of_N unit))) with unit by lia.
    set (v := Z.to_N (Z.abs (a + b)) * unit). rewrite <- (N.mul_1_r v) at 1. apply rounds_exact; [apply double_unit; lia|discriminate].
  - rewrite !signed_integer, <- Z.mul_add_distr_r. assert (0 < Z.of_N unit)%Z as U by (pose proof unit_pos; lia).
    assert ((a + b) * Z.of_N unit < 0 <-> a + b < 0)%Z as E1 by (clear - U; nia). assert ((a + b) * Z.of_N unit = 0 <-> a + b = 0)%Z as E2 by (clear - U; nia).
    rewrite E1, E2, !Z.ltb_lt. clear. lia.
  - apply integer_bounded. exact H.
Qed.
Lemma integer_shows t z : (Z.abs z < 2 ^ 53)%Z -> shows (integer_double z) t -> plain_integer t z.
Proof.
  intros HZ HS. apply small_abs in HZ. unfold integer_double in HS. remember (Z.to_N (Z.abs z) * unit) as v eqn:EV. remember (z <? 0)%Z as neg eqn:EN.
  remember (Fin neg v) as x eqn:EX. destruct HS as [|?|neg' v' c j u HB HS]; [discriminate EX|discriminate EX|]. injection EX as -> ->. subst v.
  pose proof (spells_integer u c j _ HS (briefest_integer _ c j HZ HB)) as HP. unfold plain_integer. rewrite <- EN. destruct neg; symmetry in EN.
  - apply Z.ltb_lt in EN. exists u. split; [reflexivity|]. replace (- z)%Z with (Z.abs z) by lia. exact HP.
  - apply Z.ltb_ge in EN. cbn [dash_if app]. replace z with (Z.abs z) at 1 by lia. exact HP.
Qed.

(** ** The error of a sum *)
Lemma sum_error n v : rounds n 1 v -> gap n 1 v * 2 ^ 53 <= n.
Proof.
  intro HR. pose proof (round_exp n 1 ltac:(discriminate)) as RE. cbv zeta in RE. rewrite N.div_1_r in RE. set (k := N.log2 n - 52) in *. rewrite N.mul_1_l in RE.
  destruct RE as [QL QK]. set (q := n / 2 ^ k) in *. pose proof (p2 k) as PK. assert (2 ^ k <> 0) as NK by lia.
  pose proof (N.div_mod n (2 ^ k) NK) as D. pose proof (N.mod_lt n (2 ^ k) NK) as ML. fold q in D. set (r := n mod 2 ^ k) in *.
  assert (double (q * 2 ^ k)) as D1 by (exists q, k; split; [exact QL|reflexivity]).
  assert (double ((q + 1) * 2 ^ k)) as D2.
  { destruct (N.eq_dec (q + 1) (2 ^ 53)) as [E|NE]; [|exists (q + 1), k; split; [clear - QL NE; lia|reflexivity]].
    exists (2 ^ 52), (N.succ k). rewrite E, p53, N.pow_succ_r'. split; [pose proof (p2 52); lia|]. generalize (2 ^ 52), (2 ^ k); clear; intros; lia. }
  destruct HR as [_ HR].
  assert (forall w, double w -> gap n 1 v <= gap n 1 w) as HM by (intros w HW; destruct (N.eq_dec w v) as [->|NE]; [apply N.le_refl|destruct (HR w HW NE) as [L|[E _]]; lia]).
  pose proof (HM _ D1) as G1. pose proof (HM _ D2) as G2.
  assert (gap n 1 (q * 2 ^ k) = r) as E1 by (unfold gap; rewrite N.mul_1_r, (N.mul_comm q); rewrite D; generalize (2 ^ k * q); clear; intros; lia).
  assert (gap n 1 ((q + 1) * 2 ^ k) = 2 ^ k - r) as E2.
  { unfold gap. rewrite N.mul_1_r. replace ((q + 1) * 2 ^ k) with (2 ^ k * q + 2 ^ k) by (generalize (2 ^ k); clear; intros; lia). rewrite D. revert ML. generalize (2 ^ k * q), (2 ^ k). clear. intros; lia. }
  rewrite E1 in G1. rewrite E2 in G2. set (g := gap n 1 v) in *. destruct QK as [K0|QG].
  - rewrite K0, N.pow_0_r in ML. assert (g = 0) as -> by lia. rewrite N.mul_0_l. apply N.le_0_l.
  - assert (2 * g <= 2 ^ k) as H2 by (clear - G1 G2 ML; lia). rewrite p53.
    apply N.le_trans with (2 ^ k * 2 ^ 52); [|rewrite D; apply N.le_trans with (2 ^ k * q); [apply N.mul_le_mono_l; exact QG|apply N.le_add_r]].
    replace (g * (2 * 2 ^ 52)) with (2 * g * 2 ^ 52) by (generalize (2 ^ 52); clear; intros; lia). apply N.mul_le_mono_r. exact H2.
Qed.
Lemma adds_error s a t b n v : adds (Fin s a) (Fin t b) (Fin n v) ->
  let sum := (signed s a + signed t b)%Z in (Z.abs (sum - signed n v) * 2 ^ 53 <= Z.abs sum)%Z.
Proof.
  intros H sum. remember (Fin s a) as x eqn:EX. remember (Fin t b) as y eqn:EY. remember (Fin n v) as z eqn:EZ.
  destruct H as [s' a' t' b' v' neg z' su HR HN HB| | | | | |]; try discriminate. injection EX as -> ->. injection EY as -> ->. subst z'.
  unfold bounded in HB. destruct (v' <? 2 ^ 1024 * 2 ^ 1074); [|discriminate HB]. injection HB as -> ->. fold sum in su. subst su. fold sum in HR, HN.
  pose proof (sum_error _ _ HR) as HE. set (A := Z.to_N (Z.abs sum)) in *.
  assert (Z.abs (sum - signed neg v') = Z.of_N (gap A 1 v')) as E.
  { unfold gap, signed, A in *. rewrite N.mul_1_r. clear HR HE. destruct neg.
    - assert (sum <= 0)%Z as L by (destruct (proj1 HN eq_refl) as [?|[? _]]; lia). lia.
    - assert (0 <= sum)%Z as L. { destruct (Z.lt_ge_cases sum 0) as [L|L]; [|exact L]. assert (false = true) as X by (apply HN; left; exact L). discriminate X. } lia. }
  rewrite E. replace (2 ^ 53)%Z with (Z.of_N (2 ^ 53)) by reflexivity. rewrite <- N2Z.inj_mul. replace (Z.abs sum) with (Z.of_N A) by (unfold A; lia). lia.
Qed.

(** ** Positive numbers *)
Definition positive (x : f64) : bool := match x with Fin false v => negb (v =? 0) | Inf false => true | _ => false end.
Lemma rounds_0 n d : d <> 0 -> rounds n d 0 <-> 2 * n <= d.
Proof.
  intro ND. assert (double 1) as D1 by (exists 1, 0; split; reflexivity). split.
  - intros [_ H]. apply N.nlt_ge. intro L. destruct (H 1 D1 ltac:(discriminate)) as [X|[X _]]; unfold gap in X; lia.
  - intro L. split; [exact double_0|]. intros w DW NW.
    assert (even_double 0) as E0 by (exists 0, 0; split; [apply p2|split; [reflexivity|left; reflexivity]]).
    assert (1 * d <= w * d) as X by (apply N.mul_le_mono_r; lia).
    assert (gap n d 0 <= gap n d w) as Y by (unfold gap; revert X; generalize (w * d); clear - L; intros; lia).
    destruct (N.eq_dec (gap n d 0) (gap n d w)) as [E|NE]; [right; split; [exact E|exact E0]|left; lia].
Qed.
Lemma zpow_N b e : (0 <= b)%Z -> (0 <= e)%Z -> (b ^ e)%Z = Z.of_N (Z.to_N b ^ Z.to_N e).
Proof. intros HB HE. rewrite N2Z.inj_pow, !Z2N.id by assumption. reflexivity. Qed.
Lemma tiny_iff m k v : decimal_rounds m k v -> v <> 0 <-> not_tiny m k.
Proof.
  intro H. apply (proj1 (decimal_unit _ _ _)) in H. pose proof (ten_nz (Z.to_N (- k))) as ND.
  assert (v = 0 <-> 2 * (m * 10 ^ Z.to_N k * unit) <= 10 ^ Z.to_N (- k)) as E.
  { rewrite <- rounds_0 by exact ND. split; [intros <-; exact H|]. intro H0. exact (rounds_unique _ _ _ _ ND H H0). }
  unfold not_tiny. rewrite (zpow_N 10) by lia. rewrite (zpow_N 10) by lia. rewrite (zpow_N 2 1075) by lia.
  rewrite <- !N2Z.inj_mul, <- N2Z.inj_lt. change (Z.to_N 10) with 10. change (Z.to_N 2) with 2. change (Z.to_N 1075) with (1 + 1074).
  replace (Z.to_N (Z.max 0 (- k))) with (Z.to_N (- k)) by lia. replace (Z.to_N (Z.max 0 k)) with (Z.to_N k) by lia. rewrite N.pow_add_r, unit_is. change (2 ^ 1) with 2.
  replace (m * (2 * unit) * 10 ^ Z.to_N k) with (2 * (m * 10 ^ Z.to_N k * unit)) by (generalize unit; clear; intros; lia).
  rewrite E. apply N.nle_gt.
Qed.
Lemma stands_float s x : stands_for s x -> float_text s (positive x).
Proof.
  intros [sg neg ma m f ex e v x' HS HM HE HR HB|sg neg w HS HW|sg neg w HS HW].
  - apply fl_number with neg m f e; try assumption. rewrite <- (tiny_iff _ _ _ HR). unfold bounded in HB. subst x'.
    destruct (v <? 2 ^ 1024 * 2 ^ 1074) eqn:EV; destruct neg; cbn [positive].
    + split; [discriminate|intros [X _]; discriminate X].
    + rewrite negb_true_iff, N.eqb_neq. split; [intro H; split; [reflexivity|exact H]|intros [_ H]; exact H].
    + split; [discriminate|intros [X _]; discriminate X].
    + split; [|reflexivity]. intros _. split; [reflexivity|]. intros ->. discriminate EV.
  - assert (positive (Inf neg) = negb neg) as -> by (destruct neg; reflexivity). apply fl_infinite; assumption.
  - apply fl_nan with neg; assumption.
Qed.
Lemma float_stands s p : float_text s p -> exists x, stands_for s x.
Proof.
  intros [sg neg ma m f ex e p' HS HM HE _|sg neg w HS HW|sg neg w HS HW].
  - eexists. eapply sf_number; try eassumption; [apply (proj2 (decimal_iff _ _ _)); reflexivity|unfold bounded; reflexivity].
  - eexists. apply sf_infinite; eassumption.
  - eexists. eapply sf_nan; eassumption.
Qed.
Lemma float_det s p q : float_text s p -> float_text s q -> p = q.
Proof. intros H1 H2. apply float_iff in H1. apply float_iff in H2. congruence. Qed.
