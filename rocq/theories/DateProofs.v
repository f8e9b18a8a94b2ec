(** * Lemmas about DateFmt.v *)

From Coq Require Import Lia.
From Verif Require Import Bytes Spec BytesFacts NumberProofs WordProofs DateFmt SpecDate.
Open Scope N_scope.

(** ** The calendar: years of 365 and 366 days are checked day by day, the cycle of 400 years year by year *)
Fixpoint all_from (n : nat) (k : N) (f : N -> bool) : bool := match n with O => true | S n => if f k then all_from n (k + 1) f else false end.
Lemma all_from_all n f : forall k, all_from n k f = true -> forall j, k <= j -> j < k + N.of_nat n -> f j = true.
Proof.
  induction n as [|n IH]; intros k H j H1 H2; [lia|]. cbn [all_from] in H. destruct (f k) eqn:E; [|discriminate].
  destruct (N.eq_dec j k) as [->|NE]; [exact E|]. apply (IH (k + 1) H); lia.
Qed.
Lemma all_below n f : all_from (N.to_nat n) 0 f = true -> forall j, j < n -> f j = true.
Proof. intros H j L. apply (all_from_all _ _ _ H); [lia|]. rewrite N2Nat.id. lia. Qed.
Lemma mod_plus a b c : b <> 0 -> (b * a + c) mod b = c mod b.
Proof. intros H. rewrite N.add_comm, N.mul_comm. apply N.mod_add. exact H. Qed.
Lemma div_plus a b c : b <> 0 -> (b * a + c) / b = a + c / b.
Proof. intros H. rewrite N.add_comm, N.mul_comm, N.div_add by exact H. lia. Qed.

Definition year_length (lp : bool) : N := if lp then 366 else 365.
(** the years *)
Lemma delta_check : all_from 400 0 (fun y => (year_delta (y + 1) =? year_delta y + (if leap_year y then 1 else 0)) && (year_delta y <=? 97)) = true.
Proof. vm_compute. reflexivity. Qed.
Lemma delta_step y : y < 400 -> year_delta (y + 1) = year_delta y + (if leap_year y then 1 else 0).
Proof. intros L. pose proof (all_below 400 _ delta_check y L) as H. cbv beta in H. apply andb_true_iff in H as [H _]. apply N.eqb_eq in H. exact H. Qed.
Lemma delta_small y : y <= 400 -> year_delta y <= 97.
Proof.
  intros L. destruct (N.eq_dec y 400) as [->|NE]; [vm_compute; discriminate|].
  pose proof (all_below 400 _ delta_check y ltac:(lia)) as H. cbv beta in H. apply andb_true_iff in H as [_ H]. apply N.leb_le in H. exact H.
Qed.
(** the days before year [y] of a cycle, and of all *)
Definition cycle_begin (y : N) : N := 365 * y + year_delta y.
Definition year_begin (y : N) : N := 146097 * (y / 400) + cycle_begin (y mod 400).
Lemma cycle_step y : y < 400 -> cycle_begin (y + 1) = cycle_begin y + year_length (leap_year y).
Proof. intros L. unfold cycle_begin. rewrite (delta_step y L). destruct (leap_year y); cbn [year_length]; lia. Qed.
Lemma cycle_yo y o : y < 400 -> o < year_length (leap_year y) -> cycle_to_yo (cycle_begin y + o) = (y, o).
Proof.
  intros LY LO. unfold cycle_to_yo, cycle_begin. pose proof (delta_small y ltac:(lia)) as D. pose proof (delta_step y LY) as DS.
  destruct (N.lt_ge_cases (year_delta y + o) 365) as [L|L].
  - assert ((365 * y + year_delta y + o) / 365 = y) as EY by (symmetry; apply (N.div_unique _ _ _ (year_delta y + o)); lia).
    assert ((365 * y + year_delta y + o) mod 365 = year_delta y + o) as EO by (symmetry; apply (N.mod_unique _ _ y); lia).
    rewrite EY, EO. replace (year_delta y + o <? year_delta y) with false by (symmetry; apply N.ltb_ge; lia). f_equal. lia.
  - assert (o < 365 + (if leap_year y then 1 else 0)) as LO2 by (destruct (leap_year y); cbn [year_length] in LO; lia).
    assert ((365 * y + year_delta y + o) / 365 = y + 1) as EY by (symmetry; apply (N.div_unique _ _ _ (year_delta y + o - 365)); destruct (leap_year y); lia).
    assert ((365 * y + year_delta y + o) mod 365 = year_delta y + o - 365) as EO by (symmetry; apply (N.mod_unique _ _ (y + 1)); destruct (leap_year y); lia).
    rewrite EY, EO. replace (year_delta y + o - 365 <? year_delta (y + 1)) with true by (symmetry; apply N.ltb_lt; rewrite DS; destruct (leap_year y); lia).
    replace (y + 1 - 1) with y by lia. f_equal. lia.
Qed.
Lemma cycle_total : cycle_begin 400 = 146097.
Proof. vm_compute. reflexivity. Qed.
Lemma cycle_mono n y : y + n <= 400 -> cycle_begin y <= cycle_begin (y + n).
Proof.
  induction n as [|n IH] using N.peano_ind; intros H; [rewrite N.add_0_r; lia|]. rewrite <- N.add_1_r, N.add_assoc, cycle_step by lia. specialize (IH ltac:(lia)). lia.
Qed.
Lemma cycle_end y o : y < 400 -> o < year_length (leap_year y) -> cycle_begin y + o < 146097.
Proof.
  intros L LO. pose proof (cycle_mono (400 - (y + 1)) (y + 1) ltac:(lia)) as H. replace (y + 1 + (400 - (y + 1))) with 400 in H by lia.
  rewrite cycle_total, cycle_step in H by exact L. lia.
Qed.
Lemma leap_mod y : leap_year (y mod 400) = leap_year y.
Proof.
  pose proof (N.div_mod y 400 ltac:(discriminate)) as E. set (q := y / 400) in *. set (r := y mod 400) in *. rewrite E. clearbody q r. unfold leap_year.
  rewrite (mod_plus q 400 r) by discriminate. replace (400 * q + r) with (4 * (100 * q) + r) at 1 by lia. rewrite mod_plus by discriminate.
  replace (400 * q + r) with (100 * (4 * q) + r) by lia. rewrite mod_plus by discriminate. reflexivity.
Qed.
Lemma begin_step y : year_begin (y + 1) = year_begin y + year_length (leap_year y).
Proof.
  unfold year_begin. pose proof (N.div_mod y 400 ltac:(discriminate)) as E. assert (y mod 400 < 400) as L by (apply N.mod_lt; discriminate).
  pose proof (cycle_step _ L) as S. rewrite leap_mod in S. destruct (N.lt_ge_cases (y mod 400 + 1) 400) as [L2|L2].
  - assert ((y + 1) / 400 = y / 400) as -> by (symmetry; apply (N.div_unique _ _ _ (y mod 400 + 1)); lia).
    assert ((y + 1) mod 400 = y mod 400 + 1) as -> by (symmetry; apply (N.mod_unique _ _ (y / 400)); lia). rewrite S. lia.
  - assert (y mod 400 = 399) as E9 by lia. assert ((y + 1) / 400 = y / 400 + 1) as -> by (symmetry; apply (N.div_unique _ _ _ 0); lia).
    assert ((y + 1) mod 400 = 0) as -> by (symmetry; apply (N.mod_unique _ _ (y / 400 + 1)); lia).
    rewrite E9 in S |- *. change (399 + 1) with 400 in S. rewrite cycle_total in S. change (cycle_begin 0) with 0. lia.
Qed.
Lemma date_year y o : o < year_length (leap_year y) ->
  date_of (year_begin y + o) = let '(m, d) := month_day 1 (month_lengths (leap_year y)) o in (y, m, d, o).
Proof.
  intros LO. assert (y mod 400 < 400) as L by (apply N.mod_lt; discriminate). assert (o < year_length (leap_year (y mod 400))) as LO2 by (rewrite leap_mod; exact LO).
  pose proof (cycle_end _ _ L LO2) as LE. unfold date_of, year_begin. rewrite <- N.add_assoc, mod_plus, div_plus by discriminate.
  rewrite (N.mod_small _ _ LE), (N.div_small _ _ LE), (cycle_yo _ _ L LO2), leap_mod. destruct (month_day _ _ o) as [m d].
  rewrite N.add_0_r, <- (N.div_mod y 400) by discriminate. reflexivity.
Qed.
Lemma begin_le n y : year_begin y + n <= year_begin (y + n).
Proof.
  induction n as [|n IH] using N.peano_ind; [rewrite !N.add_0_r; lia|]. rewrite <- N.add_1_r, !N.add_assoc, begin_step. destruct (leap_year (y + n)); cbn [year_length]; lia.
Qed.
Lemma each_day k : exists y o, k = year_begin y + o /\ o < year_length (leap_year y).
Proof.
  induction k as [|k (y & o & -> & L)] using N.peano_ind.
  - exists 0, 0. split; reflexivity.
  - destruct (N.lt_ge_cases (o + 1) (year_length (leap_year y))) as [H|H].
    + exists y, (o + 1). split; [lia|exact H].
    + exists (y + 1), 0. rewrite begin_step. split; [lia|]. destruct (leap_year (y + 1)); reflexivity.
Qed.

(** the months *)
Definition check_month (lp : bool) (o : N) : bool :=
  let '(m, d) := month_day 1 (month_lengths lp) o in
  let '(m2, d2) := month_day 1 (month_lengths lp) (o + 1) in
  let l := nth (N.to_nat (m - 1)) (month_lengths lp) 0 in
  (1 <=? m) && (m <=? 12) && (1 <=? d) && (d <=? 31) &&
  (if o + 1 <? year_length lp then if d <? l then (m2 =? m) && (d2 =? d + 1) else (d =? l) && (m <? 12) && (m2 =? m + 1) && (d2 =? 1)
   else (d =? l) && (m =? 12)).
Lemma months_checked : all_from 365 0 (check_month false) && all_from 366 0 (check_month true) = true.
Proof. vm_compute. reflexivity. Qed.
Lemma check_months lp o : o < year_length lp -> check_month lp o = true.
Proof. pose proof months_checked as H. apply andb_true_iff in H as [H1 H2]. destruct lp; intros L; [apply (all_below 366 _ H2); exact L|apply (all_below 365 _ H1); exact L]. Qed.

(** the weeks of ISO 8601, in a year that begins on day [j] of the week *)
Definition iso_delta (j : N) : N := let x := (j + 6) mod 7 in if x <? 3 then x + 7 else x.
Definition iso_count (j : N) (lp : bool) : N := if (j =? 3) || lp && (j =? 2) then 53 else 52.
Definition check_iso (j : N) (lp : bool) (o : N) : bool :=
  let raw := (o + 1 + iso_delta j) / 7 in
  let w := (j + o) mod 7 in
  if o + 3 <? w then raw <? 1
  else if year_length lp <=? o + 3 - w then (1 <=? raw) && (iso_count j lp <? raw) && ((o + 3 - w - year_length lp) / 7 =? 0)
  else (1 <=? raw) && (raw <=? iso_count j lp) && (raw =? (o + 3 - w) / 7 + 1).
Definition check_last (j : N) (lp : bool) (o : N) : bool :=
  let w := ((j + year_length lp) mod 7 + o) mod 7 in
  if o + 3 <? w then iso_count j lp =? (year_length lp + (o + 3) - w) / 7 + 1 else true.
Lemma iso_checked : all_from 7 0 (fun j => all_from 365 0 (check_iso j false) && all_from 366 0 (check_iso j true) &&
  all_from 7 0 (check_last j false) && all_from 7 0 (check_last j true)) = true.
Proof. vm_compute. reflexivity. Qed.
Lemma check_isos j lp o : j < 7 -> o < year_length lp -> check_iso j lp o = true.
Proof.
  intros LJ. pose proof (all_below 7 _ iso_checked j LJ) as H. cbv beta in H. rewrite !andb_true_iff in H. destruct H as (((H1 & H2) & _) & _).
  destruct lp; intros L; [apply (all_below 366 _ H2); exact L|apply (all_below 365 _ H1); exact L].
Qed.
Lemma check_lasts j lp o : j < 7 -> o + 3 < ((j + year_length lp) mod 7 + o) mod 7 -> iso_count j lp = (year_length lp + (o + 3) - ((j + year_length lp) mod 7 + o) mod 7) / 7 + 1.
Proof.
  intros LJ L. pose proof (all_below 7 _ iso_checked j LJ) as H. cbv beta in H. rewrite !andb_true_iff in H. destruct H as ((_ & H1) & H2).
  assert (o < 7) as LO by (assert (((j + year_length lp) mod 7 + o) mod 7 < 7) by (apply N.mod_lt; discriminate); lia).
  assert (check_last j lp o = true) as C by (destruct lp; [apply (all_below 7 _ H2); exact LO|apply (all_below 7 _ H1); exact LO]).
  unfold check_last in C. apply N.ltb_lt in L. rewrite L in C. apply N.eqb_eq in C. exact C.
Qed.
Lemma new_year_begin y : new_year y = (year_begin y + 5) mod 7.
Proof.
  unfold new_year, year_begin, cycle_begin. generalize (365 * (y mod 400) + year_delta (y mod 400)). generalize (y / 400). intros q x.
  replace (146097 * q + x + 5) with (7 * (20871 * q) + (x + 5)) by lia. rewrite mod_plus by discriminate. reflexivity.
Qed.
Lemma monday_based y o : (weekday (year_begin y + o) + 6) mod 7 = (new_year y + o) mod 7.
Proof.
  unfold weekday. rewrite N.add_mod_idemp_l by discriminate. rewrite new_year_begin, N.add_mod_idemp_l by discriminate.
  replace (year_begin y + o + 6 + 6) with (7 * 1 + (year_begin y + 5 + o)) by lia. apply mod_plus. discriminate.
Qed.
Lemma new_year_next y : new_year (y + 1) = (new_year y + year_length (leap_year y)) mod 7.
Proof. rewrite !new_year_begin, begin_step, N.add_mod_idemp_l by discriminate. f_equal. lia. Qed.
Lemma new_year_lt y : new_year y < 7.
Proof. apply N.mod_lt. discriminate. Qed.

Definition length_of (y m : N) : N := nth (N.to_nat (m - 1)) (month_lengths (leap_year y)) 0.
(** what is known about every day *)
Record good_day (k : N) (y m d o : N) (y2 m2 d2 o2 : N) : Prop := {
  gd_m : 1 <= m /\ m <= 12; gd_d : 1 <= d /\ d <= 31; gd_o : o <= 365;
  gd_iso : exists yt mt dt ot, date_of (k + 3 - (weekday k + 6) mod 7) = (yt, mt, dt, ot) /\ iso_week y o = (yt, ot / 7 + 1);
  gd_next : d < length_of y m /\ y2 = y /\ m2 = m /\ d2 = d + 1 /\ o2 = o + 1 \/
            d = length_of y m /\ m < 12 /\ y2 = y /\ m2 = m + 1 /\ d2 = 1 /\ o2 = o + 1 \/
            d = length_of y m /\ m = 12 /\ y2 = y + 1 /\ m2 = 1 /\ d2 = 1 /\ o2 = 0
}.
Lemma days_good k y m d o y2 m2 d2 o2 : 366 <= k -> date_of k = (y, m, d, o) -> date_of (k + 1) = (y2, m2, d2, o2) -> good_day k y m d o y2 m2 d2 o2.
Proof.
  intros HK E1 E2. destruct (each_day k) as (y0 & o0 & -> & LO). pose proof (date_year y0 o0 LO) as E. pose proof (check_months _ _ LO) as C. unfold check_month in C.
  destruct (month_day 1 _ o0) as [m0 d0] eqn:EM. rewrite E1 in E. assert (y0 = y /\ m0 = m /\ d0 = d /\ o0 = o) as (-> & -> & -> & ->) by (repeat split; congruence). clear E E1.
  destruct (month_day 1 _ (o + 1)) as [m3 d3] eqn:EM3. fold (length_of y m) in C.
  rewrite !andb_true_iff, !N.leb_le in C. destruct C as ((((A1 & A2) & A3) & A4) & C).
  split; [split; assumption|split; assumption|destruct (leap_year y); cbn [year_length] in LO; lia| |].
  - rewrite monday_based. pose proof (check_isos _ _ _ (new_year_lt y) LO) as CI. unfold check_iso in CI. set (w := (new_year y + o) mod 7) in *.
    change (iso_count (new_year y) (leap_year y)) with (nisoweeks y) in CI. unfold iso_week. change (isoweek_delta y) with (iso_delta (new_year y)). cbv zeta in CI |- *.
    set (raw := (o + 1 + iso_delta (new_year y)) / 7) in *. destruct (N.ltb_spec (o + 3) w) as [L|L].
    + assert (1 <= y) as LY.
      { destruct (N.eq_dec y 0) as [->|]; [|lia]. change (year_begin 0) with 0 in HK. change (year_length (leap_year 0)) with 366 in LO. lia. }
      assert (exists p, y = p + 1) as [p EP] by (exists (y - 1); lia). clearbody raw. subst w y. rewrite new_year_next in L |- *.
      rewrite (N.ltb_lt raw 1) in CI. replace (raw <? 1) with true by (symmetry; apply N.ltb_lt; exact CI). replace (p + 1 - 1) with p by lia.
      change (nisoweeks p) with (iso_count (new_year p) (leap_year p)). rewrite (check_lasts _ _ _ (new_year_lt p) L). set (w := ((new_year p + _) mod 7 + o) mod 7) in *.
      assert (w < 7) as LW by (apply N.mod_lt; discriminate).
      assert (year_length (leap_year p) + (o + 3) - w < year_length (leap_year p)) as LP by (destruct (leap_year p); cbn [year_length]; lia).
      pose proof (date_year p _ LP) as DP. replace (year_begin (p + 1) + o + 3 - w) with (year_begin p + (year_length (leap_year p) + (o + 3) - w)).
      2:{ rewrite begin_step. destruct (leap_year p); cbn [year_length]; lia. }
      rewrite DP. destruct (month_day _ _ (year_length (leap_year p) + (o + 3) - w)) as [mp dp]. do 4 eexists. split; [reflexivity|]. reflexivity.
    + assert (w < 7) as LW by (apply N.mod_lt; discriminate). destruct (N.leb_spec (year_length (leap_year y)) (o + 3 - w)) as [L2|L2].
      * rewrite !andb_true_iff, N.leb_le, N.eqb_eq in CI. destruct CI as ((C1 & C2) & C3). replace (raw <? 1) with false by (symmetry; apply N.ltb_ge; exact C1). rewrite C2.
        set (z := o + 3 - w - year_length (leap_year y)) in *.
        assert (z < year_length (leap_year (y + 1))) as LZ by (destruct (leap_year (y + 1)), (leap_year y); cbn [year_length] in *; lia).
        pose proof (date_year (y + 1) z LZ) as DZ. replace (year_begin y + o + 3 - w) with (year_begin (y + 1) + z) by (rewrite begin_step; lia).
        rewrite DZ. destruct (month_day _ _ z) as [mz dz]. do 4 eexists. split; [reflexivity|]. rewrite C3. reflexivity.
      * rewrite !andb_true_iff, !N.leb_le, N.eqb_eq in CI. destruct CI as ((C1 & C2) & C3). replace (raw <? 1) with false by (symmetry; apply N.ltb_ge; exact C1).
        replace (nisoweeks y <? raw) with false by (symmetry; apply N.ltb_ge; exact C2). rewrite C3.
        pose proof (date_year y _ L2) as DZ. replace (year_begin y + o + 3 - w) with (year_begin y + (o + 3 - w)) by lia.
        rewrite DZ. destruct (month_day _ _ (o + 3 - w)) as [mz dz]. do 4 eexists. split; reflexivity.
  - rewrite <- N.add_assoc in E2. destruct (N.ltb_spec (o + 1) (year_length (leap_year y))) as [L|L].
    + rewrite (date_year y _ L), EM3 in E2. assert (y2 = y /\ m2 = m3 /\ d2 = d3 /\ o2 = o + 1) as (-> & -> & -> & ->) by (repeat split; congruence).
      destruct (N.ltb_spec d (length_of y m)) as [L2|L2].
      * left. rewrite !andb_true_iff, !N.eqb_eq in C. destruct C as (-> & ->). split; [exact L2|]. repeat (split; [reflexivity|]). reflexivity.
      * right. left. rewrite !andb_true_iff, !N.eqb_eq, N.ltb_lt in C. destruct C as (((C1 & C2) & ->) & ->). split; [exact C1|]. split; [exact C2|]. repeat (split; [reflexivity|]). reflexivity.
    + right. right. rewrite !andb_true_iff, !N.eqb_eq in C. destruct C as [C1 C2]. replace (year_begin y + (o + 1)) with (year_begin (y + 1) + 0) in E2 by (rewrite begin_step; lia).
      rewrite date_year in E2 by (destruct (leap_year (y + 1)); reflexivity). assert (month_day 1 (month_lengths (leap_year (y + 1))) 0 = (1, 1)) as EZ by reflexivity.
      rewrite EZ in E2. assert (y2 = y + 1 /\ m2 = 1 /\ d2 = 1 /\ o2 = 0) as (-> & -> & -> & ->) by (repeat split; congruence).
      split; [exact C1|]. split; [exact C2|]. repeat (split; [reflexivity|]). reflexivity.
Qed.

Lemma leap_iff y : leap_year y = true <-> leap y.
Proof. unfold leap_year, leap. rewrite andb_true_iff, orb_true_iff, negb_true_iff, N.eqb_neq, !N.eqb_eq. reflexivity. Qed.
Lemma length_has y m : 1 <= m -> m <= 12 -> month_has y m (length_of y m).
Proof.
  intros H1 H2. assert (m = 1 \/ m = 2 \/ m = 3 \/ m = 4 \/ m = 5 \/ m = 6 \/ m = 7 \/ m = 8 \/ m = 9 \/ m = 10 \/ m = 11 \/ m = 12) as K by lia.
  unfold length_of. destruct (leap_year y) eqn:E.
  - apply leap_iff in E. destruct K as [->|[->|[->|[->|[->|[->|[->|[->|[->|[->|[->| ->]]]]]]]]]]]; cbn; try (apply mh_leap; assumption);
      first [apply mh_long; cbn; tauto|apply mh_short; cbn; tauto].
  - assert (~ leap y) as N by (intros L; apply leap_iff in L; congruence).
    destruct K as [->|[->|[->|[->|[->|[->|[->|[->|[->|[->|[->| ->]]]]]]]]]]]; cbn; try (apply mh_february; assumption);
      first [apply mh_long; cbn; tauto|apply mh_short; cbn; tauto].
Qed.
Lemma month_has_det y m l1 l2 : month_has y m l1 -> month_has y m l2 -> l1 = l2.
Proof.
  intros H1 H2. destruct H1 as [m H|m H|H|H]; inversion H2 as [m' H'|m' H'|H'|H']; subst; try reflexivity; cbn in *; exfalso; intuition (try discriminate; subst; try discriminate; auto).
Qed.

Notation epoch := 719528.
Lemma date_epoch : date_of epoch = (1970, 1, 1, 0).
Proof. vm_compute. reflexivity. Qed.
(** the date of the model is the date of the calendar, and the day of the year counts from its 1 January *)
Lemma falls n : forall y m d o, date_of (n + epoch) = (y, m, d, o) -> falls_on n y m d /\ exists a, n = a + o /\ falls_on a y 1 1.
Proof.
  induction n as [|n IH] using N.peano_ind; intros y m d o E.
  - rewrite N.add_0_l, date_epoch in E. assert (y = 1970 /\ m = 1 /\ d = 1 /\ o = 0) as (-> & -> & -> & ->) by (repeat split; congruence).
    split; [constructor|]. exists 0. split; [reflexivity|constructor].
  - destruct (date_of (n + epoch)) as [[[y0 m0] d0] o0] eqn:E0. destruct (IH _ _ _ _ eq_refl) as [F (a & EA & FA)].
    replace (N.succ n + epoch) with (n + epoch + 1) in E by lia.
    destruct (days_good (n + epoch) _ _ _ _ _ _ _ _ ltac:(lia) E0 E) as [[M1 M2] _ _ _ G]. rewrite <- N.add_1_r.
    pose proof (length_has y0 m0 M1 M2) as HL.
    destruct G as [(H & -> & -> & -> & ->)|[(H & H2 & -> & -> & -> & ->)|(H & -> & -> & -> & -> & ->)]].
    + split; [apply fo_day with (length_of y0 m0); assumption|]. exists a. split; [lia|exact FA].
    + split; [apply fo_month with d0; [exact F|rewrite H; exact HL|exact H2]|]. exists a. split; [lia|exact FA].
    + assert (falls_on (n + 1) (y0 + 1) 1 1) as K by (apply fo_year with d0; [exact F|rewrite H; exact HL]). split; [exact K|]. exists (n + 1). split; [lia|exact K].
Qed.
Lemma falls_det n y m d : falls_on n y m d -> exists o, date_of (n + epoch) = (y, m, d, o).
Proof.
  induction 1 as [|n y m d l H [o IH] HM HL|n y m d H [o IH] HM HL|n y d H [o IH] HM]; [exists 0; exact date_epoch|..];
    replace (n + 1 + epoch) with (n + epoch + 1) by lia; destruct (date_of (n + epoch + 1)) as [[[y2 m2] d2] o2] eqn:E2;
    destruct (days_good (n + epoch) _ _ _ _ _ _ _ _ ltac:(lia) IH E2) as [[M1 M2] _ _ _ G]; pose proof (month_has_det _ _ _ _ HM (length_has _ _ M1 M2)) as EL; subst.
  - destruct G as [(K & -> & -> & -> & ->)|[(K & _)|(K & _)]]; [eexists; reflexivity|lia..].
  - destruct G as [(K & _)|[(K & _ & -> & -> & -> & ->)|(K & -> & _)]]; [lia|eexists; reflexivity|lia].
  - destruct G as [(K & _)|[(K & K2 & _)|(K & _ & -> & -> & -> & ->)]]; [lia|lia|eexists; reflexivity].
Qed.
Lemma year_starts y a b : falls_on a y 1 1 -> falls_on b y 1 1 -> a = b.
Proof.
  assert (forall n a, falls_on a y 1 1 -> falls_on (a + n + 1) y 1 1 -> False) as H.
  { intros n a0 HA HB. assert (forall n y' m' d', falls_on (a0 + n) y' m' d' -> y <= y' /\ (y' = y -> 1 < m' \/ m' = 1 /\ d' = n + 1)) as K.
    { clear n HB. intros n. induction n as [|n IH] using N.peano_ind; intros y' m' d' HF.
      - rewrite N.add_0_r in HF. destruct (falls_det _ _ _ _ HF) as [o1 E1]. destruct (falls_det _ _ _ _ HA) as [o2 E2].
        assert (y' = y /\ m' = 1 /\ d' = 1) as (-> & -> & ->) by (repeat split; congruence). split; [lia|]. intros _. right. lia.
      - destruct (date_of (a0 + n + epoch)) as [[[y0 m0] d0] o0] eqn:E0. destruct (falls _ _ _ _ _ E0) as [F _]. destruct (IH _ _ _ F) as [I1 I2].
        destruct (falls_det _ _ _ _ HF) as [o1 E1]. replace (a0 + N.succ n + epoch) with (a0 + n + epoch + 1) in E1 by lia.
        destruct (days_good (a0 + n + epoch) _ _ _ _ _ _ _ _ ltac:(lia) E0 E1) as [[M1 M2] _ _ _ G].
        destruct G as [(K & -> & -> & -> & _)|[(K & _ & -> & -> & -> & _)|(K & -> & -> & -> & -> & _)]]; (split; [lia|]); intros EY; [destruct (I2 EY); lia|lia|lia]. }
    rewrite <- N.add_assoc in HB. destruct (K _ _ _ _ HB) as [_ K2]. destruct (K2 eq_refl) as [|[_ K3]]; lia. }
  intros HA HB. destruct (N.lt_trichotomy a b) as [L|[E|L]]; [|exact E|].
  - exfalso. apply (H (b - a - 1) a HA). replace (a + (b - a - 1) + 1) with b by lia. exact HB.
  - exfalso. apply (H (a - b - 1) b HB). replace (b + (a - b - 1) + 1) with a by lia. exact HA.
Qed.

(** ** Weekdays and weeks *)
Lemma weekday_since n : weekday (n + epoch) = since_sunday n.
Proof. unfold weekday, since_sunday. replace (n + epoch + 6) with (7 * 102790 + (n + 4)) by lia. apply mod_plus. discriminate. Qed.
Lemma mod7 x : x mod 7 < 7.
Proof. apply N.mod_lt. discriminate. Qed.
Lemma succ_mod7 x : (x + 1) mod 7 = if x mod 7 =? 6 then 0 else x mod 7 + 1.
Proof.
  pose proof (N.div_mod x 7 ltac:(discriminate)) as H. pose proof (mod7 x) as L. destruct (N.eqb_spec (x mod 7) 6) as [E|E].
  - symmetry. apply (N.mod_unique _ _ (x / 7 + 1)); lia.
  - symmetry. apply (N.mod_unique _ _ (x / 7)); lia.
Qed.
Lemma how_many_step w a k : how_many w a (a + k + 1) = how_many w a (a + k) + (if since_sunday (a + k + 1) =? w then 1 else 0).
Proof.
  unfold how_many. replace (N.to_nat (a + k + 1 + 1 - a)) with (S (N.to_nat (a + k + 1 - a))) by lia. rewrite seq_S, filter_app, app_length. cbn [filter plus].
  replace (a + N.of_nat (N.to_nat (a + k + 1 - a))) with (a + k + 1) by lia.
  destruct (since_sunday (a + k + 1) =? w); cbn [length]; lia.
Qed.
Lemma how_many_weeks w a k : w < 7 -> how_many w a (a + k) = (k + 7 - (since_sunday (a + k) + 7 - w) mod 7) / 7.
Proof.
  intros HW. assert (forall x, (since_sunday x + 7 - w) mod 7 = (x + 11 - w) mod 7) as EX.
  { intros x. unfold since_sunday. rewrite <- N.add_sub_assoc by lia. rewrite N.add_mod_idemp_l by discriminate. f_equal. lia. }
  assert (forall x, (since_sunday x =? w) = ((x + 11 - w) mod 7 =? 0)) as EQ.
  { intros x. rewrite <- EX. assert (since_sunday x < 7) as L by apply mod7. apply eq_true_iff_eq. rewrite !N.eqb_eq. split.
    - intros ->. replace (w + 7 - w) with 7 by lia. reflexivity.
    - intros H. apply N.mod_divide in H; [|discriminate]. destruct H as [z H]. lia. }
  rewrite EX. induction k as [|k IH] using N.peano_ind.
  - rewrite N.add_0_r. unfold how_many. replace (N.to_nat (a + 1 - a)) with 1%nat by lia. cbn [seq filter]. rewrite N.add_0_r, EQ. pose proof (mod7 (a + 11 - w)) as L.
    destruct (N.eqb_spec ((a + 11 - w) mod 7) 0) as [->|NE]; cbn [length]; [reflexivity|]. symmetry. apply N.div_small. revert L NE. generalize ((a + 11 - w) mod 7). clear. intros. lia.
  - rewrite <- N.add_1_r, N.add_assoc, how_many_step, IH, EQ. clear IH. replace (a + k + 1 + 11 - w) with (a + k + 11 - w + 1) by lia.
    set (x := a + k + 11 - w). rewrite succ_mod7. pose proof (mod7 x) as L. destruct (N.eqb_spec (x mod 7) 6) as [->|NE].
    + replace (0 =? 0) with true by reflexivity. replace (k + 1 + 7 - 0) with (k + 7 - 6 + 1 * 7) by lia. rewrite N.div_add by discriminate. reflexivity.
    + replace (x mod 7 + 1 =? 0) with false by (symmetry; apply N.eqb_neq; generalize (x mod 7); clear; intros; lia). rewrite N.add_0_r. f_equal. revert L NE. generalize (x mod 7). clear. intros. lia.
Qed.

(** ** The clock *)
Lemma at_time_is now n h mi s : at_time now n h mi s -> n = now / 86400 /\ h = now mod 86400 / 3600 /\ mi = now mod 86400 / 60 mod 60 /\ s = now mod 86400 mod 60.
Proof.
  intros (-> & Hh & Hm & Hs). assert ((86400 * n + 3600 * h + 60 * mi + s) / 86400 = n) as E1 by (symmetry; apply (N.div_unique _ _ _ (3600 * h + 60 * mi + s)); lia).
  assert ((86400 * n + 3600 * h + 60 * mi + s) mod 86400 = 3600 * h + 60 * mi + s) as E2 by (symmetry; apply (N.mod_unique _ _ n); lia).
  rewrite E1, E2. split; [reflexivity|]. split; [apply (N.div_unique _ _ _ (60 * mi + s)); lia|].
  assert ((3600 * h + 60 * mi + s) / 60 = 60 * h + mi) as -> by (symmetry; apply (N.div_unique _ _ _ s); lia).
  split; [apply (N.mod_unique _ _ h); lia|apply (N.mod_unique _ _ (60 * h + mi)); lia].
Qed.
Lemma at_time_ex now : exists n h mi s, at_time now n h mi s.
Proof.
  exists (now / 86400), (now mod 86400 / 3600), (now mod 86400 / 60 mod 60), (now mod 86400 mod 60). unfold at_time.
  pose proof (N.div_mod now 86400 ltac:(discriminate)) as E. assert (now mod 86400 < 86400) as L by (apply N.mod_lt; discriminate).
  set (t := now mod 86400) in *. set (q := now / 86400) in *. clearbody t q. subst now.
  pose proof (N.div_mod t 3600 ltac:(discriminate)) as E1. assert (t mod 3600 < 3600) as L1 by (apply N.mod_lt; discriminate).
  pose proof (N.div_mod t 60 ltac:(discriminate)) as E2. assert (t mod 60 < 60) as L2 by (apply N.mod_lt; discriminate).
  pose proof (N.div_mod (t / 60) 60 ltac:(discriminate)) as E3. assert (t / 60 mod 60 < 60) as L3 by (apply N.mod_lt; discriminate).
  assert (t / 60 / 60 = t / 3600) as E4 by (rewrite N.div_div by discriminate; reflexivity). rewrite E4 in E3.
  revert E1 E2 E3 L1 L2 L3 L. generalize (t / 60 mod 60), (t / 60), (t mod 60), (t / 3600), (t mod 3600). clear. intros. lia.
Qed.
Lemma moment_is now ns n h mi s y m d o : at_time now n h mi s -> date_of (n + epoch) = (y, m, d, o) ->
  moment now ns = mkMoment y m d o (since_sunday n) h mi s ns now.
Proof.
  intros HT HD. destruct (at_time_is _ _ _ _ _ HT) as (E1 & E2 & E3 & E4). unfold moment. rewrite <- E1, <- E2, <- E3, <- E4, HD, weekday_since. reflexivity.
Qed.
Lemma moment_ex now ns : exists n h mi s y m d o, at_time now n h mi s /\ date_of (n + epoch) = (y, m, d, o) /\
  moment now ns = mkMoment y m d o (since_sunday n) h mi s ns now.
Proof.
  destruct (at_time_ex now) as (n & h & mi & s & HT). destruct (date_of (n + epoch)) as [[[y m] d] o] eqn:E. exists n, h, mi, s, y, m, d, o.
  split; [exact HT|]. split; [exact E|]. apply moment_is; assumption.
Qed.
Lemma date_good n y m d o : date_of (n + epoch) = (y, m, d, o) -> exists y2 m2 d2 o2, good_day (n + epoch) y m d o y2 m2 d2 o2.
Proof. intros E. destruct (date_of (n + epoch + 1)) as [[[y2 m2] d2] o2] eqn:E2. exists y2, m2, d2, o2. apply days_good; [lia|assumption..]. Qed.
Lemma year_part n y m d o : date_of (n + epoch) = (y, m, d, o) -> exists a, n = a + o /\ in_year n y a.
Proof.
  intros E. destruct (falls n _ _ _ _ E) as [F (a & EA & FA)]. exists a. split; [exact EA|]. split; [exists m, d; exact F|]. split; [exact FA|lia].
Qed.
Lemma in_year_is n y a y1 m d o : in_year n y a -> date_of (n + epoch) = (y1, m, d, o) -> y = y1 /\ n = a + o.
Proof.
  intros ((m0 & d0 & F) & FA & L) E. destruct (falls_det _ _ _ _ F) as [o0 E0]. assert (y = y1) as -> by congruence. split; [reflexivity|].
  destruct (falls n _ _ _ _ E) as [_ (b & EB & FB)]. rewrite (year_starts _ _ _ FA FB). exact EB.
Qed.
Lemma thursday_is n t : thursday n t -> t + (since_sunday n + 6) mod 7 = n + 3.
Proof.
  intros (H4 & L1 & L2). unfold since_sunday in *. rewrite N.add_mod_idemp_l by discriminate. pose proof (N.div_mod (t + 4) 7 ltac:(discriminate)) as E. rewrite H4 in E.
  assert ((n + 4 + 6) mod 7 = n + 3 - t) as ->; [|lia].
  symmetry. apply (N.mod_unique _ _ ((t + 4) / 7 + 1)); [lia|]. revert E. generalize ((t + 4) / 7). intros z E. lia.
Qed.
Lemma thursday_ex n : thursday n (n + 3 - (since_sunday n + 6) mod 7).
Proof.
  unfold thursday, since_sunday. rewrite (N.add_mod_idemp_l (n + 4)) by discriminate. pose proof (N.div_mod (n + 4 + 6) 7 ltac:(discriminate)) as E. pose proof (mod7 (n + 4 + 6)) as L.
  set (r := (n + 4 + 6) mod 7) in *. set (q := (n + 4 + 6) / 7) in *. clearbody r q. assert (r <= n + 3) as LR by lia. split; [|lia].
  symmetry. apply (N.mod_unique _ _ (q - 1)); lia.
Qed.
Lemma iso_is n y m d o t yt at_ : date_of (n + epoch) = (y, m, d, o) -> thursday n t -> in_year t yt at_ -> iso_week y o = (yt, how_many 4 at_ t).
Proof.
  intros E HT HY. destruct (date_good _ _ _ _ _ E) as (y2 & m2 & d2 & o2 & G). destruct (gd_iso _ _ _ _ _ _ _ _ _ G) as (y3 & m3 & d3 & o3 & E3 & EI).
  rewrite weekday_since in E3. pose proof (thursday_is _ _ HT) as ET.
  replace (n + epoch + 3 - (since_sunday n + 6) mod 7) with (t + epoch) in E3.
  2:{ pose proof (mod7 (since_sunday n + 6)) as L. destruct HT as (_ & L1 & L2). lia. }
  destruct (in_year_is _ _ _ _ _ _ _ HY E3) as [-> EA]. rewrite EI. f_equal. rewrite EA. rewrite how_many_weeks by reflexivity. rewrite <- EA. destruct HT as [-> _].
  replace ((4 + 7 - 4) mod 7) with 0 by reflexivity. rewrite N.sub_0_r. replace (o3 + 7) with (o3 + 1 * 7) by lia. rewrite N.div_add by discriminate. reflexivity.
Qed.
Lemma begin_10000 : year_begin 10000 = 2932897 + epoch.
Proof. vm_compute. reflexivity. Qed.
Lemma early n y m d o : n < 2932897 -> date_of (n + epoch) = (y, m, d, o) -> y < 10000.
Proof.
  intros L E. destruct (each_day (n + epoch)) as (y0 & o0 & EN & LO). pose proof (date_year y0 o0 LO) as E0. rewrite <- EN, E in E0. destruct (month_day 1 _ o0) as [m0 d0].
  assert (y = y0) as -> by congruence. destruct (N.lt_ge_cases y0 10000) as [H|H]; [exact H|]. pose proof (begin_le (y0 - 10000) 10000) as K.
  replace (10000 + (y0 - 10000)) with y0 in K by lia. rewrite begin_10000 in K. lia.
Qed.
Lemma early_time now n h mi s : at_time now n h mi s -> now < year_10000 -> n < 2932897.
Proof. intros (-> & _) L. unfold year_10000 in L. lia. Qed.
Lemma early_thursday n t : n < 2932897 -> thursday n t -> t < 2932897.
Proof.
  intros L (H & L1 & _). destruct (N.lt_ge_cases t 2932897) as [K|K]; [exact K|].
  assert (t = 2932897 \/ t = 2932898 \/ t = 2932899) as D by lia. destruct D as [->|[->| ->]]; vm_compute in H; discriminate.
Qed.

(** ** Numbers *)
Definition fill_char (p : pad) : option ascii := match p with PadNone => None | PadZero => Some "0"%char | PadSpace => Some " "%char end.
Definition width (s : style) : nat := match s with One => 1 | Two => 2 | Year4 => 4 | Wide n => n end.
Definition limit (s : style) (v : N) : Prop := match s with One => v < 10 | Two => v < 100 | Year4 => v < 10000 | Wide _ => True end.
Definition fill (p : pad) (w : nat) (v : N) : bytes :=
  match p with PadNone => dec_N v | PadZero => pad_left "0" w (dec_N v) | PadSpace => pad_left " " w (dec_N v) end.
Lemma repeat_made (c : ascii) u : Forall (eq c) u -> u = repeat c (length u).
Proof. induction 1 as [|x u <- _ IH]; [reflexivity|]. cbn [length repeat]. f_equal. exact IH. Qed.
Lemma made_repeat (c : ascii) n : Forall (eq c) (repeat c n).
Proof. induction n; constructor; auto. Qed.
Lemma filled_is p w v t : filled_up (fill_char p) w v t <-> t = fill p w v.
Proof.
  assert (forall c t, (exists u d, plain_decimal d v /\ t = u ++ d /\ Forall (eq c) u /\ length t = Nat.max w (length d)) <-> t = pad_left c w (dec_N v)) as H.
  { intros c t0. unfold pad_left. split.
    - intros (u & d & HD & -> & HU & L). rewrite (plain_decimal_det _ _ _ HD (dec_N_plain v)) in *. rewrite (repeat_made _ _ HU). rewrite app_length in L. do 2 f_equal. lia.
    - intros ->. exists (repeat c (w - length (dec_N v))), (dec_N v). split; [apply dec_N_plain|]. split; [reflexivity|]. split; [apply made_repeat|].
      rewrite app_length, repeat_length. lia. }
  destruct p; cbn [fill_char fill].
  - unfold filled_up. split.
    + intros (u & d & HD & -> & ->). apply (plain_decimal_det _ _ _ HD). apply dec_N_plain.
    + intros ->. exists [], (dec_N v). split; [apply dec_N_plain|]. split; reflexivity.
  - apply H.
  - apply H.
Qed.
Lemma two_checked : all_from 100 0 (fun v => beq (write_two v PadNone) (fill PadNone 2 v) && beq (write_two v PadZero) (fill PadZero 2 v) && beq (write_two v PadSpace) (fill PadSpace 2 v)) = true.
Proof. vm_compute. reflexivity. Qed.
Lemma one_checked : all_from 10 0 (fun v => beq [low_digit v] (dec_N v)) = true.
Proof. vm_compute. reflexivity. Qed.
Lemma beq_true (a b : bytes) : beq a b = true -> a = b.
Proof. intros H. destruct (beq_spec a b); congruence. Qed.
Lemma number_written st v p : limit st v -> write_number st v p = fill p (width st) v.
Proof.
  destruct st as [| | |n]; cbn [limit write_number width]; intros L.
  - pose proof (all_below 10 _ one_checked v L) as H. cbv beta in H. apply beq_true in H. rewrite H. unfold fill, pad_left. rewrite <- H.
    destruct p; reflexivity.
  - pose proof (all_below 100 _ two_checked v L) as H. cbv beta in H. rewrite !andb_true_iff in H. destruct H as ((H1 & H2) & H3). apply beq_true in H1, H2, H3. destruct p; assumption.
  - replace (10000 <=? v) with false by (symmetry; apply N.leb_gt; exact L). destruct p; reflexivity.
  - destruct p; reflexivity.
Qed.

(** ** Fields *)
Lemma twelve_is h x : h < 24 -> (twelve h x <-> x = if h mod 12 =? 0 then 12 else h mod 12).
Proof.
  intros L. assert (h mod 12 = if h <? 12 then h else h - 12) as ->.
  { destruct (N.ltb_spec h 12) as [K|K]; [apply N.mod_small; exact K|]. symmetry. apply (N.mod_unique _ _ 1); lia. }
  unfold twelve. destruct (N.ltb_spec h 12) as [K|K]; [destruct (N.eqb_spec h 0) as [E|E]|destruct (N.eqb_spec (h - 12) 0) as [E|E]]; lia.
Qed.
Lemma monday_is n u : (1 <= u /\ u <= 7 /\ u mod 7 = since_sunday n) <-> u = (since_sunday n + 6) mod 7 + 1.
Proof.
  assert (since_sunday n < 7) as L by apply mod7. set (w := since_sunday n) in *. clearbody w.
  assert (w = 0 \/ w = 1 \/ w = 2 \/ w = 3 \/ w = 4 \/ w = 5 \/ w = 6) as K by lia. split.
  - intros (H1 & H2 & H3). assert (u = 1 \/ u = 2 \/ u = 3 \/ u = 4 \/ u = 5 \/ u = 6 \/ u = 7) as D by lia. subst w.
    destruct D as [->|[->|[->|[->|[->|[->| ->]]]]]]; reflexivity.
  - intros ->. destruct K as [->|[->|[->|[->|[->|[->| ->]]]]]]; vm_compute; repeat split; discriminate.
Qed.
Lemma weeks_is n y m d o a w : date_of (n + epoch) = (y, m, d, o) -> n = a + o -> w < 7 -> weeks_from w o (since_sunday n) = how_many w a n.
Proof. intros E EA L. unfold weeks_from. rewrite EA at 2. rewrite how_many_weeks by exact L. rewrite <- EA. reflexivity. Qed.

Definition numeric_is (now ns : N) (c : ascii) (p : option ascii) (w : nat) (v : N) : Prop :=
  exists st q f, clookup c numerics = Some (st, q, f) /\ fill_char q = p /\ width st = w /\ f (moment now ns) = v.
Lemma field_numeric now ns c p w v : field now ns c p w v -> numeric_is now ns c p w v.
Proof.
  intros H. unfold numeric_is. destruct H;
    lazymatch goal with H : at_time now ?n _ _ _ |- _ => destruct (date_of (n + epoch)) as [[[Y M] D] O] eqn:ED; pose proof (moment_is now ns _ _ _ _ _ _ _ _ H ED) as EM | |- _ => idtac end;
    try lazymatch goal with HF : falls_on _ ?y ?m ?d |- _ =>
      let o := fresh "o" in let E := fresh "E" in destruct (falls_det _ _ _ _ HF) as [o E]; assert (Y = y /\ M = m /\ D = d) as (? & ? & ?) by (repeat split; congruence); subst Y M D end;
    (do 3 eexists; split; [reflexivity|]; split; [reflexivity|]; split; [reflexivity|]); try rewrite EM;
    cbn [t_year t_month t_day t_ord t_wday t_hour t_min t_sec t_nano t_stamp]; try reflexivity.
  - destruct (date_good _ _ _ _ _ ED) as (? & ? & ? & ? & G). destruct (gd_m _ _ _ _ _ _ _ _ _ G). replace (m + 2) with (m - 1 + 1 * 3) by lia.
    rewrite N.div_add by discriminate. reflexivity.
  - symmetry. apply monday_is. repeat split; assumption.
  - destruct (in_year_is _ _ _ _ _ _ _ H0 ED) as [_ EA]. lia.
  - destruct (in_year_is _ _ _ _ _ _ _ H0 ED) as [_ EA]. eapply weeks_is; [exact ED|exact EA|reflexivity].
  - destruct (in_year_is _ _ _ _ _ _ _ H0 ED) as [_ EA]. eapply weeks_is; [exact ED|exact EA|reflexivity].
  - unfold iso_of. cbn [t_year t_ord]. rewrite (iso_is _ _ _ _ _ _ _ _ ED H0 H1). reflexivity.
  - unfold iso_of. cbn [t_year t_ord]. rewrite (iso_is _ _ _ _ _ _ _ _ ED H0 H1). reflexivity.
  - unfold iso_of. cbn [t_year t_ord]. rewrite (iso_is _ _ _ _ _ _ _ _ ED H0 H1). reflexivity.
  - symmetry. apply twelve_is; [apply H|assumption].
  - symmetry. apply twelve_is; [apply H|assumption].
  - destruct (moment_ex now ns) as (? & ? & ? & ? & ? & ? & ? & ? & _ & _ & ->). reflexivity.
  - destruct (moment_ex now ns) as (? & ? & ? & ? & ? & ? & ? & ? & _ & _ & ->). reflexivity.
Qed.

Lemma numeric_field now ns c st q f : clookup c numerics = Some (st, q, f) -> field now ns c (fill_char q) (width st) (f (moment now ns)).
Proof.
  intros H. destruct (moment_ex now ns) as (n & h & mi & s & y & m & d & o & HT & ED & EM). destruct (falls n _ _ _ _ ED) as [F _].
  destruct (year_part _ _ _ _ _ ED) as (a & EA & HY). pose proof (thursday_ex n) as HTH. set (t := n + 3 - (since_sunday n + 6) mod 7) in *.
  assert (exists yt at_, in_year t yt at_) as (yt & at_ & HYT).
  { destruct (date_of (t + epoch)) as [[[y0 m0] d0] o0] eqn:E0. destruct (year_part _ _ _ _ _ E0) as (a0 & _ & K). exists y0, a0. exact K. }
  pose proof (iso_is _ _ _ _ _ _ _ _ ED HTH HYT) as EI.
  assert (h < 24) as Lh by apply HT.
  unfold numerics in H. cbn [clookup] in H.
  repeat lazymatch type of H with (if aeqb ?k c then _ else _) = _ =>
    destruct (aeqb k c) eqn:?EC;
    [apply aeqb_eq in EC; subst c; injection H as <- <- <-; rewrite EM; cbn [fill_char width];
     cbn [t_year t_month t_day t_ord t_wday t_hour t_min t_sec t_nano t_stamp]|clear EC] end; [..|discriminate H].
  - eapply fd_Y; eassumption.
  - eapply fd_C; eassumption.
  - eapply fd_y; eassumption.
  - destruct (date_good _ _ _ _ _ ED) as (? & ? & ? & ? & G). destruct (gd_m _ _ _ _ _ _ _ _ _ G). replace ((m - 1) / 3 + 1) with ((m + 2) / 3); [eapply fd_q; eassumption|].
    replace (m + 2) with (m - 1 + 1 * 3) by lia. rewrite N.div_add by discriminate. reflexivity.
  - eapply fd_m; eassumption.
  - eapply fd_d; eassumption.
  - eapply fd_e; eassumption.
  - eapply fd_w; eassumption.
  - destruct (proj2 (monday_is n _) eq_refl) as (U1 & U2 & U3). eapply fd_u; eassumption.
  - rewrite (weeks_is _ _ _ _ _ a 0 ED EA) by reflexivity. eapply fd_U; eassumption.
  - rewrite (weeks_is _ _ _ _ _ a 1 ED EA) by reflexivity. eapply fd_W; eassumption.
  - unfold iso_of. cbn [t_year t_ord]. rewrite EI. eapply fd_G; eassumption.
  - unfold iso_of. cbn [t_year t_ord]. rewrite EI. eapply fd_g; eassumption.
  - unfold iso_of. cbn [t_year t_ord]. rewrite EI. eapply fd_V; eassumption.
  - replace (o + 1) with (n - a + 1) by lia. eapply fd_j; eassumption.
  - eapply fd_H; eassumption.
  - eapply fd_k; eassumption.
  - eapply fd_I; [eassumption|]. apply twelve_is; [exact Lh|reflexivity].
  - eapply fd_l; [eassumption|]. apply twelve_is; [exact Lh|reflexivity].
  - eapply fd_M; eassumption.
  - eapply fd_S; eassumption.
  - apply fd_f.
  - apply fd_s.
Qed.
Lemma numeric_limit now ns c st q f : now < year_10000 -> clookup c numerics = Some (st, q, f) -> limit st (f (moment now ns)).
Proof.
  intros LN H. destruct (moment_ex now ns) as (n & h & mi & s & y & m & d & o & HT & ED & EM). pose proof (early_time _ _ _ _ _ HT LN) as L.
  pose proof (early _ _ _ _ _ L ED) as LY. destruct (date_good _ _ _ _ _ ED) as (? & ? & ? & ? & G). destruct (gd_m _ _ _ _ _ _ _ _ _ G) as [M1 M2].
  destruct (gd_d _ _ _ _ _ _ _ _ _ G) as [D1 D2]. pose proof (gd_o _ _ _ _ _ _ _ _ _ G) as O2. destruct HT as (HT1 & T1 & T2 & T3).
  pose proof (thursday_ex n) as HTH. set (t := n + 3 - (since_sunday n + 6) mod 7) in *.
  assert (exists yt v, iso_week y o = (yt, v) /\ yt < 10000 /\ v < 100) as (yt & v & EI & I1 & I2).
  { destruct (date_of (t + epoch)) as [[[y0 m0] d0] o0] eqn:E0. destruct (year_part _ _ _ _ _ E0) as (a0 & EA0 & K). pose proof (iso_is _ _ _ _ _ _ _ _ ED HTH K) as EI.
    exists y0, (how_many 4 a0 t). split; [exact EI|]. split; [exact (early _ _ _ _ _ (early_thursday _ _ L HTH) E0)|].
    rewrite EA0, how_many_weeks by reflexivity. destruct (date_good _ _ _ _ _ E0) as (? & ? & ? & ? & G0). pose proof (gd_o _ _ _ _ _ _ _ _ _ G0).
    apply N.div_lt_upper_bound; [discriminate|]. revert H0. clear. generalize ((since_sunday (a0 + o0) + 7 - 4) mod 7). intros. lia. }
  assert (forall x, x mod 100 < 100) as H100 by (intros; apply N.mod_lt; discriminate).
  assert (forall w0, weeks_from w0 o (since_sunday n) < 100) as HW.
  { intros w0. unfold weeks_from. apply N.div_lt_upper_bound; [discriminate|]. revert O2. clear. generalize ((since_sunday n + 7 - w0) mod 7). intros. lia. }
  assert (since_sunday n < 7) as LW by apply mod7. pose proof (mod7 (since_sunday n + 6)) as LW6. pose proof (fun x => twelve_is h x T1) as H12.
  unfold numerics in H. cbn [clookup] in H.
  repeat lazymatch type of H with (if aeqb ?k c then _ else _) = _ =>
    destruct (aeqb k c) eqn:?EC;
    [apply aeqb_eq in EC; subst c; injection H as <- <- <-; rewrite EM; cbn [limit];
     cbn [t_year t_month t_day t_ord t_wday t_hour t_min t_sec t_nano t_stamp]|clear EC] end; [..|discriminate H]; try exact I; try assumption; try apply HW; try apply H100;
    try (unfold iso_of; cbn [t_year t_ord]; rewrite EI; cbn [fst snd]; first [assumption|apply H100]); try (revert M2 D2 T1 T2 T3 LW; clear; intros; lia).
  - apply N.div_lt_upper_bound; [discriminate|]. revert LY. clear. intros; lia.
  - assert ((m - 1) / 3 < 9) as K by (apply N.div_lt_upper_bound; [discriminate|]; revert M2; clear; intros; lia). revert K. generalize ((m - 1) / 3). clear. intros; lia.
  - revert LW6. generalize ((since_sunday n + 6) mod 7). clear. intros; lia.
  - unfold hour12. cbn [t_hour]. destruct (proj2 (H12 _) eq_refl) as (_ & K & _). revert K. cbv zeta. generalize (if h mod 12 =? 0 then 12 else h mod 12). clear. intros; lia.
  - unfold hour12. cbn [t_hour]. destruct (proj2 (H12 _) eq_refl) as (_ & K & _). revert K. cbv zeta. generalize (if h mod 12 =? 0 then 12 else h mod 12). clear. intros; lia.
Qed.

(** ** The fraction of the second *)
Lemma fraction_is ns k t : (k <= 9)%nat -> (fraction_digits ns k t <-> t = cut_nanos k ns).
Proof.
  intros L. unfold fraction_digits, cut_nanos. split.
  - intros (u & H & <-). apply (filled_is PadZero) in H. unfold fill in H. rewrite <- H. rewrite firstn_app, Nat.sub_diag, firstn_all. cbn [firstn]. rewrite app_nil_r. reflexivity.
  - intros ->. exists (skipn k (pad_left "0" 9 (dec_N ns))). rewrite firstn_skipn. split; [apply (filled_is PadZero); reflexivity|].
    apply firstn_length_le. unfold pad_left. rewrite app_length, repeat_length. lia.
Qed.
Lemma shown_is ns t : fraction_shown ns t <-> t = auto_nanos ns.
Proof.
  assert (ns mod 1000000 = 0 -> ns mod 1000 = 0) as HM.
  { intros H. apply N.mod_divide in H as [z ->]; [|discriminate]. replace (z * 1000000) with (1000 * (1000 * z) + 0) by lia. rewrite mod_plus by discriminate. reflexivity. }
  unfold auto_nanos. split.
  - intros [->|t0 H1 H2 H3|t0 H1 H2 H3|t0 H1 H3]; [reflexivity|..]; apply fraction_is in H3; try (apply Nat.leb_le; reflexivity); subst t0.
    + apply N.eqb_neq in H1. apply N.eqb_eq in H2. rewrite H1, H2. reflexivity.
    + destruct (N.eqb_spec ns 0) as [->|_]; [destruct H1; reflexivity|]. apply N.eqb_neq in H1. apply N.eqb_eq in H2. rewrite H1, H2. reflexivity.
    + destruct (N.eqb_spec ns 0) as [->|_]; [destruct H1; reflexivity|]. destruct (N.eqb_spec (ns mod 1000000) 0) as [E|_]; [destruct H1; apply HM; exact E|].
      apply N.eqb_neq in H1. rewrite H1. reflexivity.
  - intros ->. destruct (N.eqb_spec ns 0) as [->|H0]; [apply fs_none; reflexivity|]. destruct (N.eqb_spec (ns mod 1000000) 0) as [E|E].
    + apply fs_milli; [exact H0|exact E|]. apply fraction_is; [apply Nat.leb_le; reflexivity|reflexivity].
    + destruct (N.eqb_spec (ns mod 1000) 0) as [E2|E2].
      * apply fs_micro; [exact E|exact E2|]. apply fraction_is; [apply Nat.leb_le; reflexivity|reflexivity].
      * apply fs_nano; [exact E2|]. apply fraction_is; [apply Nat.leb_le; reflexivity|reflexivity].
Qed.

(** ** What follows a % *)
Lemma numeric_letter c x : clookup c numerics = Some x ->
  padding c = None /\ aeqb c "." = false /\ aeqb c ":" = false /\ clookup c [("3", 3%nat); ("6", 6%nat); ("9", 9%nat)]%char = None /\ clookup c composites = None.
Proof.
  intros H. unfold numerics in H. cbn [clookup] in H.
  repeat lazymatch type of H with (if aeqb ?k c then _ else _) = _ => destruct (aeqb k c) eqn:?EC; [apply aeqb_eq in EC; subst c; repeat split; reflexivity|clear EC] end. discriminate H.
Qed.
Lemma item_numeric m c st q f r : clookup c numerics = Some (st, q, f) -> item_of m (c :: r) = Some (write_number st (f m) q, r).
Proof.
  intros H. destruct (numeric_letter _ _ H) as (E1 & E2 & E3 & E4 & E5). unfold item_of. rewrite E1, E2, E3, E4, E5. unfold one_item. rewrite H. reflexivity.
Qed.
Lemma name_is n t : day_name n t <-> t = nth_name weekday_names (since_sunday n).
Proof.
  unfold day_name, nth_name. assert (since_sunday n < 7) as L by apply mod7. change [B "Sunday"; _; _; _; _; _; _] with weekday_names. split.
  - intros H. symmetry. apply nth_error_nth. exact H.
  - intros ->. apply nth_error_nth'. change (length weekday_names) with 7%nat. lia.
Qed.
Lemma short_day n : firstn 3 (nth_name weekday_names (since_sunday n)) = nth_name weekday_short (since_sunday n).
Proof.
  assert (since_sunday n < 7) as L by apply mod7. set (w := since_sunday n) in *. clearbody w.
  assert (w = 0 \/ w = 1 \/ w = 2 \/ w = 3 \/ w = 4 \/ w = 5 \/ w = 6) as K by lia. destruct K as [->|[->|[->|[->|[->|[->| ->]]]]]]; reflexivity.
Qed.
Lemma month_is m t : 1 <= m -> m <= 12 -> (month_name m t <-> t = nth_name month_names (m - 1)).
Proof.
  intros L1 L2. unfold month_name, nth_name. change [B "January"; _; _; _; _; _; _; _; _; _; _; _] with month_names. split.
  - intros [_ H]. symmetry. apply nth_error_nth. exact H.
  - intros ->. split; [exact L1|]. apply nth_error_nth'. change (length month_names) with 12%nat. lia.
Qed.
Lemma short_month m : 1 <= m -> m <= 12 -> firstn 3 (nth_name month_names (m - 1)) = nth_name month_short (m - 1).
Proof.
  intros L1 L2. assert (m = 1 \/ m = 2 \/ m = 3 \/ m = 4 \/ m = 5 \/ m = 6 \/ m = 7 \/ m = 8 \/ m = 9 \/ m = 10 \/ m = 11 \/ m = 12) as K by lia.
  destruct K as [->|[->|[->|[->|[->|[->|[->|[->|[->|[->|[->| ->]]]]]]]]]]]; reflexivity.
Qed.
Lemma falls_month n y m d : falls_on n y m d -> 1 <= m /\ m <= 12.
Proof. intros F. destruct (falls_det _ _ _ _ F) as [o E]. destruct (date_good _ _ _ _ _ E) as (? & ? & ? & ? & G). exact (gd_m _ _ _ _ _ _ _ _ _ G). Qed.

Section At.
Variables (now ns : N).
Hypothesis LN : now < year_10000.
Let m := moment now ns.
Lemma number_shown c st q f p : clookup c numerics = Some (st, q, f) -> write_number st (f m) p = fill p (width st) (f m).
Proof. intros H. apply number_written. eapply numeric_limit; eassumption. Qed.
Lemma item_done d t r : directive now ns d t -> item_of m (d ++ r) = Some (t, r).
Proof.
  assert (forall n h mi s y mo da, at_time now n h mi s -> falls_on n y mo da -> t_month m = mo) as HM.
  { intros n h mi s y mo da HT HF. destruct (falls_det _ _ _ _ HF) as [o E]. unfold m. rewrite (moment_is _ ns _ _ _ _ _ _ _ _ HT E). reflexivity. }
  assert (forall n h mi s, at_time now n h mi s -> t_wday m = since_sunday n /\ t_hour m = h) as HW.
  { intros n h mi s HT. destruct (date_of (n + epoch)) as [[[y mo] da] o] eqn:E. unfold m. rewrite (moment_is _ ns _ _ _ _ _ _ _ _ HT E). split; reflexivity. }
  assert (t_nano m = ns) as HN by (unfold m; destruct (moment_ex now ns) as (? & ? & ? & ? & ? & ? & ? & ? & _ & _ & ->); reflexivity).
  intros H. destruct H as [c p w v t HF HP|c p w v t HF HP|c p w v t HF HP|c p w v t HF HP|n h mi s t HT HD|n h mi s t HT HD|n h mi s y mo da t HT HF HD|n h mi s y mo da t c HT HF HD HC
    |n h mi s HT HL|n h mi s HT HL|n h mi s HT HL|n h mi s HT HL|t HS|k c t HC HS|k c t HC HS|c t HC|c t HC].
  - apply field_numeric in HF as (st & q & f & HC & <- & <- & <-). apply filled_is in HP. subst t. cbn [app]. rewrite (item_numeric _ _ _ _ _ _ HC). fold m. rewrite (number_shown _ _ _ _ _ HC). reflexivity.
  - apply field_numeric in HF as (st & q & f & HC & <- & <- & <-). apply (filled_is PadNone) in HP. subst t. fold m.
    change (item_of m ((B "-" ++ [c]) ++ r)) with (match clookup c numerics with Some (st, _, v) => Some (write_number st (v m) PadNone, r) | None => None end). rewrite HC, (number_shown _ _ _ _ _ HC). reflexivity.
  - apply field_numeric in HF as (st & q & f & HC & <- & <- & <-). apply (filled_is PadZero) in HP. subst t. fold m.
    change (item_of m ((B "0" ++ [c]) ++ r)) with (match clookup c numerics with Some (st, _, v) => Some (write_number st (v m) PadZero, r) | None => None end). rewrite HC, (number_shown _ _ _ _ _ HC). reflexivity.
  - apply field_numeric in HF as (st & q & f & HC & <- & <- & <-). apply (filled_is PadSpace) in HP. subst t. fold m.
    change (item_of m ((B "_" ++ [c]) ++ r)) with (match clookup c numerics with Some (st, _, v) => Some (write_number st (v m) PadSpace, r) | None => None end). rewrite HC, (number_shown _ _ _ _ _ HC). reflexivity.
  - apply name_is in HD. subst t. destruct (HW _ _ _ _ HT) as [<- _]. reflexivity.
  - apply name_is in HD. subst t. rewrite short_day. destruct (HW _ _ _ _ HT) as [<- _]. reflexivity.
  - destruct (falls_month _ _ _ _ HF). apply month_is in HD; [|assumption..]. subst t. rewrite <- (HM _ _ _ _ _ _ _ HT HF). reflexivity.
  - destruct (falls_month _ _ _ _ HF). apply month_is in HD; [|assumption..]. subst t. rewrite short_month by assumption. rewrite <- (HM _ _ _ _ _ _ _ HT HF).
    destruct HC as [<-|[<-|[]]]; reflexivity.
  - destruct (HW _ _ _ _ HT) as [_ EH]. rewrite <- EH in HL. apply N.ltb_lt in HL. transitivity (Some (if t_hour m <? 12 then B "AM" else B "PM", r)); [reflexivity|]. rewrite HL. reflexivity.
  - destruct (HW _ _ _ _ HT) as [_ EH]. rewrite <- EH in HL. apply N.ltb_ge in HL. transitivity (Some (if t_hour m <? 12 then B "AM" else B "PM", r)); [reflexivity|]. rewrite HL. reflexivity.
  - destruct (HW _ _ _ _ HT) as [_ EH]. rewrite <- EH in HL. apply N.ltb_lt in HL. transitivity (Some (if t_hour m <? 12 then B "am" else B "pm", r)); [reflexivity|]. rewrite HL. reflexivity.
  - destruct (HW _ _ _ _ HT) as [_ EH]. rewrite <- EH in HL. apply N.ltb_ge in HL. transitivity (Some (if t_hour m <? 12 then B "am" else B "pm", r)); [reflexivity|]. rewrite HL. reflexivity.
  - apply shown_is in HS. subst t. transitivity (Some (auto_nanos (t_nano m), r)); [reflexivity|]. rewrite HN. reflexivity.
  - assert (k <= 9)%nat as LK by (destruct HC as [E|[E|[E|[]]]]; injection E; intros; lia). apply fraction_is in HS; [|exact LK]. subst t. rewrite <- HN.
    destruct HC as [E|[E|[E|[]]]]; injection E as <- <-; reflexivity.
  - assert (k <= 9)%nat as LK by (destruct HC as [E|[E|[E|[]]]]; injection E; intros; lia). apply fraction_is in HS; [|exact LK]. subst t. rewrite <- HN.
    destruct HC as [E|[E|[E|[]]]]; injection E as <- <-; reflexivity.
  - destruct HC as [E|[E|[E|[E|[E|[]]]]]]; injection E as <- <-; reflexivity.
  - destruct HC as [E|[E|[E|[]]]]; injection E as <- <-; reflexivity.
Qed.
Opaque write_number nth_name auto_nanos write_two.
Lemma item_short c g r : short_for c g -> item_of m (c :: r) = option_map (fun t => (t, r)) (format_items (length g) m g).
Proof.
  intros H. unfold short_for in H. cbn [In] in H. repeat (destruct H as [K|H]; [injection K as <- <-; reflexivity|]). destruct H.
Qed.
Transparent write_number nth_name auto_nanos write_two.
Lemma length_item d t : directive now ns d t -> (1 <= length d)%nat.
Proof.
  destruct 1 as [c p w v t HF HP|c p w v t HF HP|c p w v t HF HP|c p w v t HF HP|n h mi s t HT HD|n h mi s t HT HD|n h mi s y mo da t HT HF HD|n h mi s y mo da t c HT HF HD HC
    |n h mi s HT HL|n h mi s HT HL|n h mi s HT HL|n h mi s HT HL|t HS|k c t HC HS|k c t HC HS|c t HC|c t HC]; try (rewrite ?app_length; cbn; lia).
  - destruct HC as [<-|[<-|[]]]; cbn; lia.
  - destruct HC as [E|[E|[E|[E|[E|[]]]]]]; injection E as <- <-; cbn; lia.
  - destruct HC as [E|[E|[E|[]]]]; injection E as <- <-; cbn; lia.
Qed.
Lemma format_done f o : in_format now ns f o -> forall k, (length f <= k)%nat -> format_items k m f = Some o.
Proof.
  induction 1 as [|c f o NE H IH|d f t o HD H IH|c g f t o HS Hg IHg H IH]; intros k LK.
  - destruct k; reflexivity.
  - destruct k as [|k]; [cbn in LK; lia|]. cbn [format_items]. assert (aeqb c "%" = false) as -> by (destruct (aeqb c "%") eqn:E; [apply aeqb_eq in E; contradiction|reflexivity]).
    cbn [length] in LK. rewrite IH by lia. reflexivity.
  - destruct k as [|k]; [cbn in LK; lia|]. change (B "%" ++ d ++ f) with ("%"%char :: d ++ f). cbn [format_items]. change (aeqb "%" "%") with true. cbv iota.
    rewrite (item_done _ _ _ HD). rewrite app_length in LK. cbn [length B list_ascii_of_string] in LK. rewrite app_length in LK. rewrite IH by (change (length (B "%")) with 1%nat in LK; lia). reflexivity.
  - destruct k as [|k]; [cbn in LK; lia|]. change (B "%" ++ c :: f) with ("%"%char :: c :: f). cbn [format_items]. change (aeqb "%" "%") with true. cbv iota.
    rewrite (item_short _ _ _ HS), (IHg _ (le_n _)). cbn [option_map]. rewrite app_length in LK. change (length (B "%")) with 1%nat in LK. cbn [length] in LK. rewrite IH by lia. reflexivity.
Qed.

(** conversely *)
Lemma numeric_directive c st q f : clookup c numerics = Some (st, q, f) -> directive now ns [c] (write_number st (f m) q) /\
  directive now ns (B "-" ++ [c]) (write_number st (f m) PadNone) /\ directive now ns (B "0" ++ [c]) (write_number st (f m) PadZero) /\
  directive now ns (B "_" ++ [c]) (write_number st (f m) PadSpace).
Proof.
  intros H. pose proof (numeric_field now ns _ _ _ _ H) as HF. fold m in HF. rewrite !(number_shown _ _ _ _ _ H).
  split; [eapply di_number; [exact HF|apply filled_is; reflexivity]|]. split; [eapply di_bare; [exact HF|apply (filled_is PadNone); reflexivity]|].
  split; [eapply di_zeros; [exact HF|apply (filled_is PadZero); reflexivity]|eapply di_spaces; [exact HF|apply (filled_is PadSpace); reflexivity]].
Qed.
Lemma text_directive c f : clookup c texts_of = Some f -> c = "+"%char \/ directive now ns [c] (f m).
Proof.
  intros H. destruct (moment_ex now ns) as (n & h & mi & s & y & mo & da & o & HT & ED & EM). fold m in EM. destruct (falls n _ _ _ _ ED) as [F _].
  destruct (falls_month _ _ _ _ F) as [M1 M2].
  unfold texts_of in H. cbn [clookup] in H.
  repeat lazymatch type of H with (if aeqb ?k c then _ else _) = _ =>
    destruct (aeqb k c) eqn:?EC; [apply aeqb_eq in EC; subst c; injection H as <-; try rewrite EM; cbn [t_wday t_month t_hour]|clear EC] end; [..|discriminate H].
  - right. apply (di_A _ _ _ _ _ _ _ HT). apply name_is. reflexivity.
  - right. rewrite <- short_day. apply (di_a _ _ _ _ _ _ _ HT). apply name_is. reflexivity.
  - right. apply (di_B _ _ _ _ _ _ _ _ _ _ HT F). apply month_is; [assumption..|reflexivity].
  - right. rewrite <- short_month by assumption. apply (di_b _ _ _ _ _ _ _ _ _ _ (B "b") HT F); [apply month_is; [assumption..|reflexivity]|left; reflexivity].
  - right. rewrite <- short_month by assumption. apply (di_b _ _ _ _ _ _ _ _ _ _ (B "h") HT F); [apply month_is; [assumption..|reflexivity]|right; left; reflexivity].
  - right. destruct (N.ltb_spec h 12) as [L|L]; [exact (di_am _ _ _ _ _ _ HT L)|exact (di_pm _ _ _ _ _ _ HT L)].
  - right. destruct (N.ltb_spec h 12) as [L|L]; [exact (di_am2 _ _ _ _ _ _ HT L)|exact (di_pm2 _ _ _ _ _ _ HT L)].
  - right. apply di_zone. left. reflexivity.
  - right. apply di_zone. right. left. reflexivity.
  - left. reflexivity.
  - right. apply di_char. left. reflexivity.
  - right. apply di_char. right. left. reflexivity.
  - right. apply di_char. right. right. left. reflexivity.
Qed.
Definition item_good (s t r : bytes) : Prop :=
  (exists d, s = d ++ r /\ directive now ns d t) \/
  (exists c g, s = c :: r /\ short_for c g /\ format_items (length g) m g = Some t).
Lemma digits_letter c n : clookup c [("3", 3%nat); ("6", 6%nat); ("9", 9%nat)]%char = Some n -> In (n, [c]) [(3%nat, B "3"); (6%nat, B "6"); (9%nat, B "9")] /\ (n <= 9)%nat.
Proof.
  cbn [clookup]. intros H.
  repeat lazymatch type of H with (if aeqb ?k c then _ else _) = _ => destruct (aeqb k c) eqn:?EC; [apply aeqb_eq in EC; subst c; injection H as <-; split; [cbn; tauto|lia]|clear EC] end. discriminate H.
Qed.
Lemma item_sound s t r : item_of m s = Some (t, r) -> item_good s t r.
Proof.
  assert (t_nano m = ns) as HN by (unfold m; destruct (moment_ex now ns) as (? & ? & ? & ? & ? & ? & ? & ? & _ & _ & ->); reflexivity).
  destruct s as [|c s1]; [discriminate|]. intros H. unfold item_of in H. destruct (padding c) as [p|] eqn:EP.
  { destruct s1 as [|c2 s2]; [discriminate|]. destruct (clookup c2 numerics) as [[[st q] f]|] eqn:EC; [|discriminate]. assert (t = write_number st (f m) p /\ r = s2) as [-> ->] by (split; congruence).
    destruct (numeric_directive _ _ _ _ EC) as (_ & D1 & D2 & D3). left. unfold padding in EP. exists [c; c2]. split; [reflexivity|].
    destruct (aeqb c "-") eqn:E1; [apply aeqb_eq in E1; subst c; injection EP as <-; exact D1|].
    destruct (aeqb c "0") eqn:E2; [apply aeqb_eq in E2; subst c; injection EP as <-; exact D2|].
    destruct (aeqb c "_") eqn:E3; [apply aeqb_eq in E3; subst c; injection EP as <-; exact D3|]. discriminate. }
  destruct (aeqb c ".") eqn:E1.
  { apply aeqb_eq in E1. subst c. destruct s1 as [|c2 s2]; [discriminate|]. destruct (aeqb c2 "f") eqn:E2.
    - apply aeqb_eq in E2. subst c2. assert (t = auto_nanos (t_nano m) /\ r = s2) as [-> ->] by (split; congruence). left. exists (B ".f"). split; [reflexivity|]. apply di_fraction. apply shown_is. rewrite HN. reflexivity.
    - destruct (clookup c2 _) as [n|] eqn:EC; [|discriminate]. destruct s2 as [|c3 s3]; [discriminate|]. destruct (aeqb c3 "f") eqn:E3; [|discriminate]. apply aeqb_eq in E3. subst c3.
      assert (t = B "." ++ cut_nanos n (t_nano m) /\ r = s3) as [-> ->] by (split; congruence). destruct (digits_letter _ _ EC) as [HI HL]. left. exists (B "." ++ [c2] ++ B "f"). split; [reflexivity|].
      apply di_point with n; [exact HI|]. rewrite HN. apply fraction_is; [exact HL|reflexivity]. }
  destruct (aeqb c ":") eqn:E2.
  { apply aeqb_eq in E2. subst c. left. destruct (starts_with (B "::z") s1) eqn:S1; [|destruct (starts_with (B ":z") s1) eqn:S2; [|destruct (starts_with (B "z") s1) eqn:S3; [|discriminate]]].
    - apply starts_with_iff in S1 as [v ->]. assert (t = B "+00" /\ r = v) as [-> ->] by (split; [congruence|]; injection H; intros <- _; reflexivity).
      exists (B ":::z"). split; [reflexivity|]. apply di_zone. cbn. tauto.
    - apply starts_with_iff in S2 as [v ->]. assert (t = B "+00:00:00" /\ r = v) as [-> ->] by (split; [congruence|]; injection H; intros <- _; reflexivity).
      exists (B "::z"). split; [reflexivity|]. apply di_zone. cbn. tauto.
    - apply starts_with_iff in S3 as [v ->]. assert (t = B "+00:00" /\ r = v) as [-> ->] by (split; [congruence|]; injection H; intros <- _; reflexivity).
      exists (B ":z"). split; [reflexivity|]. apply di_zone. cbn. tauto. }
  destruct (clookup c [("3", 3%nat); ("6", 6%nat); ("9", 9%nat)]%char) as [n|] eqn:EC.
  { destruct s1 as [|c2 s2]; [discriminate|]. destruct (aeqb c2 "f") eqn:E3; [|discriminate]. apply aeqb_eq in E3. subst c2.
    assert (t = cut_nanos n (t_nano m) /\ r = s2) as [-> ->] by (split; congruence). destruct (digits_letter _ _ EC) as [HI HL]. left. exists ([c] ++ B "f"). split; [reflexivity|].
    apply di_digits with n; [exact HI|]. rewrite HN. apply fraction_is; [exact HL|reflexivity]. }
  assert (forall g, short_for c g -> item_of m (c :: s1) = Some (t, r) -> item_good (c :: s1) t r) as HSF.
  { intros g HG K. rewrite (item_short _ _ s1 HG) in K. destruct (format_items (length g) m g) as [t0|] eqn:EF; [|discriminate]. assert (t0 = t /\ s1 = r) as [-> ->] by (cbn [option_map] in K; split; congruence).
    right. exists c, g. split; [reflexivity|]. split; assumption. }
  destruct (clookup c composites) as [g|] eqn:EG.
  { apply (HSF g); [|unfold item_of; rewrite EP, E1, E2, EC, EG; exact H].
    unfold composites in EG. cbn [clookup] in EG. unfold short_for.
    repeat lazymatch type of EG with (if aeqb ?k c then _ else _) = _ => destruct (aeqb k c) eqn:?EK; [apply aeqb_eq in EK; subst c; injection EG as <-; cbn [In]; tauto|clear EK] end. discriminate EG. }
  destruct (one_item m c) as [t0|] eqn:EO; [|discriminate]. cbn [option_map] in H. assert (t0 = t /\ s1 = r) as [-> ->] by (split; congruence).
  unfold one_item in EO. destruct (clookup c numerics) as [[[st q] f]|] eqn:EN.
  - assert (t = write_number st (f m) q) as -> by congruence. left. exists [c]. split; [reflexivity|]. apply (numeric_directive _ _ _ _ EN).
  - destruct (clookup c texts_of) as [f|] eqn:ET; [|discriminate]. cbn [option_map] in EO. assert (f m = t) as <- by congruence. destruct (text_directive _ _ ET) as [->|HD].
    + apply (HSF (B "%Y-%m-%dT%H:%M:%S%.f%:z")); [unfold short_for; cbn [In]; tauto|]. unfold item_of. rewrite EP, E1, E2, EC, EG. unfold one_item. rewrite EN, ET. reflexivity.
    + left. exists [c]. split; [reflexivity|exact HD].
Qed.
(** formats without %D and the like first, then all *)
Definition basic (f : bytes) : Prop := forall c g r u, short_for c g -> f <> u ++ B "%" ++ c :: r.
Lemma basic_sound k : forall f o, basic f -> format_items k m f = Some o -> in_format now ns f o.
Proof.
  induction k as [|k IH]; intros f o HB H; [destruct f; [injection H as <-; constructor|discriminate]|]. destruct f as [|c f]; [injection H as <-; constructor|].
  cbn [format_items] in H. destruct (aeqb c "%") eqn:EC.
  - apply aeqb_eq in EC. subst c. destruct (item_of m f) as [[t r]|] eqn:EI; [|discriminate]. destruct (format_items k m r) as [o2|] eqn:EF; [|discriminate].
    assert (o = t ++ o2) as -> by (cbn [option_map] in H; congruence). destruct (item_sound _ _ _ EI) as [(d & -> & HD)|(c & g & -> & HS & _)].
    + apply (if_directive _ _ d r t o2 HD). apply IH; [|exact EF]. intros c g r0 u HS E. apply (HB c g r0 ("%"%char :: d ++ u) HS). rewrite E. cbn [app]. rewrite <- app_assoc. reflexivity.
    + destruct (HB c g r [] HS). reflexivity.
  - destruct (format_items k m f) as [o2|] eqn:EF; [|discriminate]. assert (o = c :: o2) as -> by (cbn [option_map] in H; congruence).
    apply if_char; [intros ->; discriminate|]. apply IH; [|exact EF]. intros c0 g r0 u HS E. apply (HB c0 g r0 (c :: u) HS). rewrite E. reflexivity.
Qed.
Fixpoint basicb (f : bytes) : bool :=
  match f with
  | c :: r => (if aeqb c "%" then match r with c2 :: _ => negb (existsb (aeqb c2) (B "DxFvRTXrc+")) | [] => true end else true) && basicb r
  | [] => true
  end.
Lemma basicb_ok f : basicb f = true -> basic f.
Proof.
  intros H c g r u HS E. revert f H E. induction u as [|x u IH]; intros f H E; subst f.
  - cbn [app B list_ascii_of_string basicb] in H. change (aeqb "%" "%") with true in H. apply andb_true_iff in H as [H _]. unfold short_for in HS. cbn [In] in HS.
    repeat (destruct HS as [K|HS]; [injection K as <- <-; discriminate H|]). destruct HS.
  - cbn [app basicb] in H. apply andb_true_iff in H as [_ H]. exact (IH _ H eq_refl).
Qed.
Lemma short_basic c g : short_for c g -> basic g.
Proof. intros HS. apply basicb_ok. unfold short_for in HS. cbn [In] in HS. repeat (destruct HS as [K|HS]; [injection K as <- <-; reflexivity|]). destruct HS. Qed.
Lemma format_sound k : forall f o, format_items k m f = Some o -> in_format now ns f o.
Proof.
  induction k as [|k IH]; intros f o H; [destruct f; [injection H as <-; constructor|discriminate]|]. destruct f as [|c f]; [injection H as <-; constructor|].
  cbn [format_items] in H. destruct (aeqb c "%") eqn:EC.
  - apply aeqb_eq in EC. subst c. destruct (item_of m f) as [[t r]|] eqn:EI; [|discriminate]. destruct (format_items k m r) as [o2|] eqn:EF; [|discriminate].
    assert (o = t ++ o2) as -> by (cbn [option_map] in H; congruence). destruct (item_sound _ _ _ EI) as [(d & -> & HD)|(c & g & -> & HS & HG)].
    + apply (if_directive _ _ d r t o2 HD). apply IH. exact EF.
    + apply (if_short _ _ c g r t o2 HS); [|apply IH; exact EF]. eapply basic_sound; [eapply short_basic; exact HS|exact HG].
  - destruct (format_items k m f) as [o2|] eqn:EF; [|discriminate]. assert (o = c :: o2) as -> by (cbn [option_map] in H; congruence).
    apply if_char; [intros ->; discriminate|]. apply IH. exact EF.
Qed.
End At.
Lemma format_iff now ns f o : now < year_10000 -> (chrono_format now ns f = Some o <-> in_format now ns f o).
Proof. intros L. split; [apply format_sound; exact L|]. intros H. apply (format_done now ns L f o H). apply le_n. Qed.
