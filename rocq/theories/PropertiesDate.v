(** * Property theorems: the dates of {:date;} *)

From Coq Require Import Lia.
From Verif Require Import Bytes Json Utils State Engine Spec SpecEngine BytesFacts NumberProofs WordProofs DoubleProofs DoubleShow Samples PropertiesHandlers DateFmt SpecDate DateProofs.
Open Scope N_scope.

(** ** C112 *)
(** The calendar: every day has exactly one date. *)
Theorem C112_calendar : forall n, exists y m d l, falls_on n y m d /\ month_has y m l /\ 1 <= m /\ m <= 12 /\ 1 <= d /\ d <= l /\
  forall y2 m2 d2, falls_on n y2 m2 d2 -> y2 = y /\ m2 = m /\ d2 = d.
Proof.
  intros n. destruct (date_of (n + 719528)) as [[[y m] d] o] eqn:E. destruct (falls n _ _ _ _ E) as [F _]. destruct (date_good _ _ _ _ _ E) as (? & ? & ? & ? & G).
  destruct (gd_m _ _ _ _ _ _ _ _ _ G) as [M1 M2]. destruct (gd_d _ _ _ _ _ _ _ _ _ G) as [D1 _]. exists y, m, d, (length_of y m).
  split; [exact F|]. split; [apply length_has; assumption|]. split; [exact M1|]. split; [exact M2|]. split; [exact D1|]. split.
  - destruct (gd_next _ _ _ _ _ _ _ _ _ G) as [(K & _)|[(-> & _)|(-> & _)]]; [apply N.lt_le_incl; exact K|apply N.le_refl..].
  - intros y2 m2 d2 F2. destruct (falls_det _ _ _ _ F2) as [o2 E2]. rewrite E in E2. repeat split; congruence.
Qed.
Print Assumptions C112_calendar.

(** Until the year 10000 a time is written in a format exactly as the documentation of the format says, or refused. *)
Theorem C112_format : forall now ns f o, now < year_10000 -> (chrono_format now ns f = Some o <-> in_format now ns f o).
Proof. exact format_iff. Qed.
Print Assumptions C112_format.

(** Whether a format is refused depends on the format only, never on the time. *)
Lemma same_rest m m2 f : option_map snd (item_of m f) = option_map snd (item_of m2 f).
Proof.
  destruct f as [|c r]; [reflexivity|]. unfold item_of. destruct (padding c).
  { destruct r as [|c2 r2]; [reflexivity|]. destruct (clookup c2 numerics) as [[[? ?] ?]|]; reflexivity. }
  destruct (aeqb c "."). { destruct r as [|c2 r2]; [reflexivity|]. destruct (aeqb c2 "f"); [reflexivity|]. destruct (clookup c2 _); [|reflexivity]. destruct r2 as [|c3 r3]; [reflexivity|]. destruct (aeqb c3 "f"); reflexivity. }
  destruct (aeqb c ":"). { destruct (starts_with _ r); [reflexivity|]. destruct (starts_with _ r); [reflexivity|]. destruct (starts_with _ r); reflexivity. }
  destruct (clookup c [_; _; _]). { destruct r as [|c2 r2]; [reflexivity|]. destruct (aeqb c2 "f"); reflexivity. }
  destruct (clookup c composites); [reflexivity|]. unfold one_item. destruct (clookup c numerics) as [[[? ?] ?]|]; [reflexivity|]. destruct (clookup c texts_of); reflexivity.
Qed.
Lemma same_fate k m m2 : forall f, format_items k m f = None <-> format_items k m2 f = None.
Proof.
  induction k as [|k IH]; intros f; [destruct f; reflexivity|]. destruct f as [|c r]; [split; discriminate|]. cbn [format_items]. destruct (aeqb c "%").
  - pose proof (same_rest m m2 r) as H. destruct (item_of m r) as [[t r1]|], (item_of m2 r) as [[t2 r2]|]; try discriminate H; [|reflexivity].
    assert (r1 = r2) as -> by (cbn [option_map snd] in H; congruence). specialize (IH r2). destruct (format_items k m r2), (format_items k m2 r2); cbn [option_map]; split; intros K; try discriminate; try reflexivity.
    all: first [pose proof (proj1 IH eq_refl) as X; discriminate X | pose proof (proj2 IH eq_refl) as X; discriminate X].
  - specialize (IH r). destruct (format_items k m r), (format_items k m2 r); cbn [option_map]; split; intros K; try discriminate; try reflexivity.
    all: first [pose proof (proj1 IH eq_refl) as X; discriminate X | pose proof (proj2 IH eq_refl) as X; discriminate X].
Qed.
Theorem C112_any_time : forall now ns now2 ns2 f o, now < year_10000 -> now2 < year_10000 -> in_format now ns f o -> exists o2, in_format now2 ns2 f o2.
Proof.
  intros now ns now2 ns2 f o L L2 H. apply format_iff in H; [|exact L]. destruct (chrono_format now2 ns2 f) as [o2|] eqn:E.
  - exists o2. apply format_iff; assumption.
  - apply (same_fate _ _ (moment now ns)) in E. unfold chrono_format in H. congruence.
Qed.
Print Assumptions C112_any_time.

(** The letters that mean something after a %; any other character there, or nothing, and the format is refused. *)
Definition letters : bytes := B "YCyqmdewuUWGgVjHkIlMSfsAaBbhpPZztn%DxFvRTXrc+-0_.:369".
Lemma refused_after now ns s : now < year_10000 -> (forall c r, s = c :: r -> ~ In c letters) -> item_of (moment now ns) s = None.
Proof.
  intros L H. destruct (item_of (moment now ns) s) as [[t r]|] eqn:E; [|reflexivity]. exfalso. destruct s as [|c s]; [discriminate|]. specialize (H c s eq_refl).
  assert (forall k, In k letters -> aeqb c k = false) as HA by (intros k HK; destruct (aeqb c k) eqn:EK; [apply aeqb_eq in EK; subst k; contradiction|reflexivity]).
  assert (forall A (l : list (ascii * A)), (forall k v, In (k, v) l -> In k letters) -> clookup c l = None) as HL.
  { intros A l. induction l as [|[k v] l IH]; intros HI; [reflexivity|]. cbn [clookup]. destruct (aeqb k c) eqn:EK; [apply aeqb_eq in EK; subst k; destruct H; apply (HI c v); left; reflexivity|].
    apply IH. intros k0 v0 HI0. apply (HI k0 v0). right. exact HI0. }
  unfold item_of, padding in E. rewrite !HA in E by (vm_compute; tauto). rewrite !HL in E.
  2:{ intros k v HI. cbn [composites In] in HI. repeat (destruct HI as [K|HI]; [injection K as <- _; vm_compute; tauto|]). destruct HI. }
  2:{ intros k v HI. cbn [In] in HI. repeat (destruct HI as [K|HI]; [injection K as <- _; vm_compute; tauto|]). destruct HI. }
  unfold one_item in E. rewrite (HL _ numerics) in E.
  2:{ intros k v HI. cbn [numerics In] in HI. repeat (destruct HI as [K|HI]; [injection K as <- _; vm_compute; tauto|]). destruct HI. }
  rewrite (HL _ texts_of) in E; [discriminate|].
  intros k v HI. cbn [texts_of In] in HI. repeat (destruct HI as [K|HI]; [injection K as <- _; vm_compute; tauto|]). destruct HI.
Qed.
Theorem C112_refused : forall now ns f o s, now < year_10000 -> in_format now ns f o -> (forall c r, s = c :: r -> ~ In c letters) ->
  chrono_format now ns (f ++ B "%" ++ s) = None.
Proof.
  intros now ns f o s L H HS. unfold chrono_format. generalize (length (f ++ B "%" ++ s)) as k.
  assert (forall k, format_items k (moment now ns) (B "%" ++ s) = None) as H0.
  { intros k. destruct k as [|k]; [reflexivity|]. change (B "%" ++ s) with ("%"%char :: s). cbn [format_items]. change (aeqb "%" "%") with true. cbv iota. rewrite refused_after by assumption. reflexivity. }
  induction H as [|c f o NE H IH|d f t o HD H IH|c g f t o HG Hg IHg H IH]; intros k; [apply H0|..]; destruct k as [|k]; try reflexivity.
  - cbn [app format_items]. assert (aeqb c "%" = false) as -> by (destruct (aeqb c "%") eqn:E; [apply aeqb_eq in E; contradiction|reflexivity]). rewrite IH. reflexivity.
  - rewrite <- !app_assoc. change (B "%" ++ d ++ f ++ B "%" ++ s) with ("%"%char :: d ++ f ++ B "%" ++ s). cbn [format_items]. change (aeqb "%" "%") with true. cbv iota.
    rewrite (item_done now ns L _ _ _ HD), IH. reflexivity.
  - change ((B "%" ++ c :: f) ++ B "%" ++ s) with ("%"%char :: c :: f ++ B "%" ++ s). cbn [format_items]. change (aeqb "%" "%") with true. cbv iota.
    rewrite (item_short now ns _ _ _ HG), (format_done now ns L _ _ Hg _ (le_n _)). cbn [option_map]. rewrite IH. reflexivity.
Qed.
Print Assumptions C112_refused.

(** ** The order of times *)
Lemma before_asym a b : before a b -> before b a -> False.
Proof.
  induction 1 as [c b|c d a b L|c a b H IH]; intros K; inversion K; subst; try lia; auto.
Qed.
Lemma before_app a b x y : before a b -> length a = length b -> before (a ++ x) (b ++ y).
Proof.
  induction 1 as [c b|c d a b L|c a b H IH]; intros E; [discriminate|apply bf_less; exact L|]. cbn [app]. apply bf_same, IH. cbn [length] in E. lia.
Qed.
Lemma before_tail a x y : before x y -> before (a ++ x) (a ++ y).
Proof. intros H. induction a; [exact H|]. apply bf_same. exact IHa. Qed.
Lemma digits_order a x : decimal a x -> forall b y, decimal b y -> length a = length b -> (x < y -> before a b) /\ (x = y -> a = b).
Proof.
  induction 1 as [|a n d HA IH HD]; intros b y HB E; destruct HB as [|b n2 d2 HB HD2].
  - split; [lia|reflexivity].
  - rewrite app_length in E. cbn [length] in E. lia.
  - rewrite app_length in E. cbn [length] in E. lia.
  - rewrite !app_length in E. cbn [length] in E. destruct (IH _ _ HB ltac:(lia)) as [I1 I2]. split.
    + intros L. destruct (N.lt_ge_cases n n2) as [K|K]; [apply before_app; [apply I1; exact K|lia]|]. assert (n = n2) as EN by lia. rewrite (I2 EN). apply before_tail, bf_less.
      rewrite !N_ascii_embedding by lia. lia.
    + intros EN. assert (n = n2 /\ d = d2) as [-> ->] by lia. rewrite (I2 eq_refl). reflexivity.
Qed.
Lemma fill_decimal w v : decimal (fill PadZero w v) v.
Proof. unfold fill, pad_left. apply zeros_decimal, dec_N_plain. Qed.
Lemma fill_length w v : (0 < w)%nat -> v < 10 ^ N.of_nat w -> length (fill PadZero w v) = w.
Proof.
  intros HW L. unfold fill, pad_left. rewrite app_length, repeat_length. enough (length (dec_N v) <= w)%nat by lia.
  destruct (N.eq_dec v 0) as [->|NE]; [change (length (dec_N 0)) with 1%nat; lia|]. destruct (dec_length v NE) as [[LL _] LP].
  assert (10 ^ N.of_nat (length (dec_N v) - 1) < 10 ^ N.of_nat w) as K by (eapply N.le_lt_trans; eassumption). apply N.pow_lt_mono_r_iff in K; lia.
Qed.
Lemma fields_order w v v2 x x2 : (0 < w)%nat -> v < 10 ^ N.of_nat w -> v2 < 10 ^ N.of_nat w -> v < v2 \/ v = v2 /\ before x x2 ->
  before (fill PadZero w v ++ x) (fill PadZero w v2 ++ x2).
Proof.
  intros HW L L2 [H|[-> H]]; [|apply before_tail; exact H].
  apply before_app; [|rewrite !fill_length by assumption; reflexivity]. apply (proj1 (digits_order _ _ (fill_decimal w v) _ _ (fill_decimal w v2) ltac:(rewrite !fill_length by assumption; reflexivity))). exact H.
Qed.
Definition earlier_date (y m d y2 m2 d2 : N) : Prop := y < y2 \/ y = y2 /\ (m < m2 \/ m = m2 /\ d < d2).
Lemma dates_order n2 y2 m2 d2 : falls_on n2 y2 m2 d2 -> forall n y m d, falls_on n y m d -> n < n2 -> earlier_date y m d y2 m2 d2.
Proof.
  assert (forall n y m d y' m' d', falls_on n y m d -> falls_on n y' m' d' -> y = y' /\ m = m' /\ d = d') as U.
  { intros n y m d y' m' d' F F'. destruct (falls_det _ _ _ _ F) as [o E]. destruct (falls_det _ _ _ _ F') as [o' E']. rewrite E in E'. repeat split; congruence. }
  unfold earlier_date.
  induction 1 as [|k y1 m1 d1 l F IH HM HL|k y1 m1 d1 F IH HM HL|k y1 d1 F IH HM]; intros n y m d FN L; [lia|..];
    (assert (n < k \/ n = k) as [K|K] by lia; [specialize (IH _ _ _ _ FN K); lia|subst k; destruct (U _ _ _ _ _ _ _ FN F) as (-> & -> & ->); lia]).
Qed.
Lemma sortable_is now ns n h mi s y m d o : now < year_10000 -> at_time now n h mi s -> date_of (n + epoch) = (y, m, d, o) ->
  chrono_format now ns sortable = Some (fill PadZero 4 y ++ B "-" ++ fill PadZero 2 m ++ B "-" ++ fill PadZero 2 d ++ B " " ++ fill PadZero 2 h ++ B ":" ++ fill PadZero 2 mi ++ B ":" ++ fill PadZero 2 s ++ []).
Proof.
  intros L HT HD. pose proof (early _ _ _ _ _ (early_time _ _ _ _ _ HT L) HD) as LY. destruct (date_good _ _ _ _ _ HD) as (? & ? & ? & ? & G).
  destruct (gd_m _ _ _ _ _ _ _ _ _ G) as [M1 M2]. destruct (gd_d _ _ _ _ _ _ _ _ _ G) as [D1 D2]. unfold chrono_format. rewrite (moment_is now ns _ _ _ _ _ _ _ _ HT HD). destruct HT as (_ & Hh & Hm & Hs).
  rewrite <- (number_written Year4 y PadZero LY : _ = fill PadZero 4 y).
  rewrite <- (number_written Two m PadZero ltac:(cbn [limit]; lia) : _ = fill PadZero 2 m), <- (number_written Two d PadZero ltac:(cbn [limit]; lia) : _ = fill PadZero 2 d),
    <- (number_written Two h PadZero ltac:(cbn [limit]; lia) : _ = fill PadZero 2 h), <- (number_written Two mi PadZero ltac:(cbn [limit]; lia) : _ = fill PadZero 2 mi),
    <- (number_written Two s PadZero ltac:(cbn [limit]; lia) : _ = fill PadZero 2 s).
  Opaque write_number. reflexivity. Transparent write_number.
Qed.
Lemma sorted_up now ns now2 ns2 o o2 : now2 < year_10000 -> now < now2 -> in_format now ns sortable o -> in_format now2 ns2 sortable o2 -> before o o2.
Proof.
  intros L2 L H H2. assert (now < year_10000) as L1 by lia. apply format_iff in H; [|exact L1]. apply format_iff in H2; [|exact L2].
  destruct (moment_ex now ns) as (n & h & mi & s & y & m & d & od & HT & HD & _). destruct (moment_ex now2 ns2) as (n2 & h2 & mi2 & s2 & y2 & m2 & d2 & od2 & HT2 & HD2 & _).
  rewrite (sortable_is _ _ _ _ _ _ _ _ _ _ L1 HT HD) in H. rewrite (sortable_is _ _ _ _ _ _ _ _ _ _ L2 HT2 HD2) in H2. assert (forall a b : bytes, Some a = Some b -> a = b) as SI by congruence. apply SI in H, H2. subst o o2. clear SI.
  pose proof (early _ _ _ _ _ (early_time _ _ _ _ _ HT L1) HD) as LY. pose proof (early _ _ _ _ _ (early_time _ _ _ _ _ HT2 L2) HD2) as LY2.
  destruct (date_good _ _ _ _ _ HD) as (? & ? & ? & ? & G). destruct (gd_m _ _ _ _ _ _ _ _ _ G) as [M1 M2]. destruct (gd_d _ _ _ _ _ _ _ _ _ G) as [D1 D2]. clear G.
  destruct (date_good _ _ _ _ _ HD2) as (? & ? & ? & ? & G). destruct (gd_m _ _ _ _ _ _ _ _ _ G) as [M3 M4]. destruct (gd_d _ _ _ _ _ _ _ _ _ G) as [D3 D4]. clear G.
  destruct (falls n _ _ _ _ HD) as [F _]. destruct (falls n2 _ _ _ _ HD2) as [F2 _].
  assert (n < n2 \/ n = n2 /\ (h < h2 \/ h = h2 /\ (mi < mi2 \/ mi = mi2 /\ s < s2))) as T.
  { destruct HT as (-> & ? & ? & ?). destruct HT2 as (-> & ? & ? & ?). clear - L H H0 H1 H2 H3 H4. lia. }
  assert (earlier_date y m d y2 m2 d2 \/ (y = y2 /\ m = m2 /\ d = d2) /\ (h < h2 \/ h = h2 /\ (mi < mi2 \/ mi = mi2 /\ s < s2))) as O.
  { destruct T as [T|[-> T]]; [left; exact (dates_order _ _ _ _ F2 _ _ _ _ F T)|right]. split; [|exact T]. rewrite HD in HD2. repeat split; congruence. }
  destruct HT as (_ & Hh & Hm & Hs). destruct HT2 as (_ & Hh2 & Hm2 & Hs2).
  change (10000) with (10 ^ N.of_nat 4) in LY, LY2. assert (forall v, v < 60 -> v < 10 ^ N.of_nat 2) as W by (intros v V; change (10 ^ N.of_nat 2) with 100; lia).
  clear - O LY LY2 M1 M2 D1 D2 M3 M4 D3 D4 Hh Hm Hs Hh2 Hm2 Hs2 W. unfold earlier_date in O.
  apply fields_order; [lia|exact LY|exact LY2|]. destruct O as [[O|[-> O]]|[(-> & -> & ->) O]]; [left; exact O|right; split; [reflexivity|]|right; split; [reflexivity|]]; apply before_tail.
  - apply fields_order; [lia|apply W; lia|apply W; lia|]. destruct O as [O|[-> O]]; [left; exact O|right; split; [reflexivity|]]. apply before_tail.
    apply fields_order; [lia|apply W; lia|apply W; lia|]. left; exact O.
  - apply before_tail, before_tail, before_tail, before_tail.
    apply fields_order; [lia|apply W; lia|apply W; lia|]. destruct O as [O|[-> O]]; [left; exact O|right; split; [reflexivity|]]. apply before_tail.
    apply fields_order; [lia|apply W; lia|apply W; lia|]. destruct O as [O|[-> O]]; [left; exact O|right; split; [reflexivity|]]. apply before_tail.
    apply fields_order; [lia|apply W; lia|apply W; lia|]. left; exact O.
Qed.
(** Times in this format sort as texts in the order of time, and different times look different. *)
Theorem C112_sorted : forall now ns now2 ns2 o o2, now < year_10000 -> now2 < year_10000 -> in_format now ns sortable o -> in_format now2 ns2 sortable o2 ->
  (now < now2 <-> before o o2) /\ (now = now2 <-> o = o2).
Proof.
  intros now ns now2 ns2 o o2 L L2 H H2. assert (now = now2 -> o = o2) as S.
  { intros <-. pose proof (proj2 (format_iff _ _ _ _ L) H) as K. pose proof (proj2 (format_iff _ _ _ _ L) H2) as K2.
    destruct (moment_ex now ns) as (n & h & mi & s & y & m & d & od & HT & HD & _). rewrite (sortable_is _ _ _ _ _ _ _ _ _ _ L HT HD) in K. rewrite (sortable_is _ _ _ _ _ _ _ _ _ _ L HT HD) in K2. congruence. }
  destruct (N.lt_trichotomy now now2) as [T|[T|T]].
  - pose proof (sorted_up _ _ _ _ _ _ L2 T H H2) as K. split; split; intros X; [exact K|exact T|lia|subst o2; destruct (before_asym _ _ K K)].
  - specialize (S T). subst o2. split; split; intros X; [lia|destruct (before_asym _ _ X X)|reflexivity|exact T].
  - pose proof (sorted_up _ _ _ _ _ _ L T H2 H) as K. split; split; intros X; [lia|destruct (before_asym _ _ K X)|lia|subst o2; destruct (before_asym _ _ K K)].
Qed.
Print Assumptions C112_sorted.

(** ** The bif *)
(** the machine formats dates as chrono does; the nanoseconds are those of the moment of the call *)
Definition dates (env : Env) : Prop := forall now f, exists ns, ns < 1000000000 /\ env.(e_date) now f = chrono_format now ns f.
Theorem C112_date : forall env s i mods body only p s1, dates env -> Forall modifier mods ->
  ~ In "&"%char mods -> ~ In "!"%char mods -> ~ In "+"%char mods ->
  may_start s -> selected only i mods (B "date") ->
  prepared env (B "date") (started s) (started_in s i) only body p [] s1 ->
  trim body <> [] -> ~ occurs (B "{:") (trim body) ->
  let now := env.(e_now) s1.(strace) in
  now < year_10000 ->
  (exists ns o, ns < 1000000000 /\ in_format now ns (trim body) o /\
     eval_bif env s i (bif_text mods (B "date") body) only = finished mods o (add_event (EvNow now) s1) (started_in s i)) \/
  ((forall now2 ns o, now2 < year_10000 -> ~ in_format now2 ns (trim body) o) /\
     eval_bif env s i (bif_text mods (B "date") body) only = BPanic PDate).
Proof.
  intros env s i mods body only p s1 HD HM HA HG HU HS HO HP HN HC now HL. destruct (HD now (trim body)) as (ns & L & EF).
  assert (contains (B "{:") (trim body) = false) as HF by (destruct (contains (B "{:") (trim body)) eqn:E; [apply contains_iff in E; contradiction|reflexivity]).
  pose proof (C75_date env s i mods body only p s1 (trim body) (add_event (EvNow now) s1) (started_in s i) HM HA HG HU HS HO HP) as K. cbv zeta in K. fold now in K. rewrite HF in K.
  specialize (K eq_refl). rewrite EF in K. destruct (trim body) as [|c b] eqn:ET; [contradiction|]. destruct (chrono_format now ns (c :: b)) as [o|] eqn:EC.
  - left. exists ns, o. split; [exact L|]. split; [apply format_iff; assumption|exact K].
  - right. split; [|exact K]. intros now2 ns2 o L2 H. destruct (C112_any_time _ _ now ns _ _ L2 HL H) as [o2 H2]. apply format_iff in H2; [|exact HL]. congruence.
Qed.
Print Assumptions C112_date.

(** Without a format, or with %s, the seconds since 1970 are shown in decimal, at any time. *)
Theorem C112_stamp : forall env s i mods body only p s1, dates env -> Forall modifier mods ->
  ~ In "&"%char mods -> ~ In "!"%char mods -> ~ In "+"%char mods ->
  may_start s -> selected only i mods (B "date") ->
  prepared env (B "date") (started s) (started_in s i) only body p [] s1 ->
  trim body = [] \/ trim body = B "%s" ->
  let now := env.(e_now) s1.(strace) in
  exists o, plain_decimal o now /\
    eval_bif env s i (bif_text mods (B "date") body) only = finished mods o (add_event (EvNow now) s1) (started_in s i).
Proof.
  intros env s i mods body only p s1 HD HM HA HG HU HS HO HP HB now. exists (dec_N now). split; [apply dec_N_plain|]. destruct (HD now (trim body)) as (ns & _ & EF).
  pose proof (C75_date env s i mods body only p s1 (trim body) (add_event (EvNow now) s1) (started_in s i) HM HA HG HU HS HO HP) as K. cbv zeta in K. fold now in K.
  assert (contains (B "{:") (trim body) = false) as HF by (destruct HB as [-> | ->]; reflexivity). rewrite HF in K. specialize (K eq_refl). rewrite EF in K.
  destruct HB as [HB|HB]; rewrite HB in K; [exact K|]. assert (chrono_format now ns (B "%s") = Some (dec_N now)) as E.
  { unfold chrono_format. destruct (moment_ex now ns) as (? & ? & ? & ? & ? & ? & ? & ? & _ & _ & ->). change (format_items _ ?m _) with (option_map (app (dec_N m.(t_stamp))) (Some [])). cbn [option_map t_stamp]. rewrite app_nil_r. reflexivity. }
  rewrite E in K. exact K.
Qed.
Print Assumptions C112_stamp.

(** ** Examples *)
Definition env_dates (env : Env) : Env :=
  mkEnv env.(e_md5) env.(e_sha256) env.(e_lower) env.(e_from_str) env.(e_to_string) env.(e_to_pretty) env.(e_fadd) env.(e_parent) (fun now f => chrono_format now 0 f)
    env.(e_cwd) env.(e_tmp) env.(e_exists) env.(e_is_file) env.(e_canon) env.(e_read) env.(e_read_err) env.(e_mkdir) env.(e_create) env.(e_write)
    env.(e_mtime) env.(e_age) (fun _ => 1729001985) env.(e_local_now) env.(e_rand) env.(e_rand_bytes) env.(e_python) env.(e_php).
(** the example of the documentation, as a page *)
Example C112_page : dates (env_dates env0) /\ output_in (env_dates env0) "{:date; %Y-%m-%d %H:%M:%S :} {:date; :}" = B "2024-10-15 14:19:45 1729001985" /\
  in_format 1729001985 0 (B "%A, %-d %B %Y (%G-W%V-%u), %l:%M %p, day %j%%") (B "Tuesday, 15 October 2024 (2024-W42-2),  2:19 PM, day 289%").
Proof.
  split; [intros now f; exists 0; split; reflexivity|]. split; [vm_compute; reflexivity|]. apply format_iff; vm_compute; reflexivity.
Qed.
(** leap years, the last and the first days of ISO years, the last second before the year 10000; formats that are refused *)
Example C112_days : chrono_format 951782399 0 (B "%F %j") = Some (B "2000-02-28 059") /\ chrono_format 951868800 0 (B "%F") = Some (B "2000-03-01") /\
  chrono_format 4107542399 0 (B "%F %T") = Some (B "2100-02-28 23:59:59") /\ chrono_format 4107542400 0 (B "%F") = Some (B "2100-03-01") /\
  chrono_format 1609459200 0 (B "%G-%V %U %W") = Some (B "2020-53 00 00") /\ chrono_format 1735603200 0 (B "%G-%V") = Some (B "2025-01") /\
  chrono_format 253402300799 0 (B "%F %T") = Some (B "9999-12-31 23:59:59") /\
  chrono_format 0 0 (B "100%") = None /\ chrono_format 0 0 (B "%Q") = None /\ chrono_format 0 0 (B "%-D") = None.
Proof. vm_compute. repeat split; reflexivity. Qed.
(** the clock goes from one year to the next *)
Example C112_order : in_format 1735689599 0 sortable (B "2024-12-31 23:59:59") /\ in_format 1735689600 0 sortable (B "2025-01-01 00:00:00") /\
  before (B "2024-12-31 23:59:59") (B "2025-01-01 00:00:00").
Proof.
  assert (in_format 1735689599 0 sortable (B "2024-12-31 23:59:59")) as H by (apply format_iff; vm_compute; reflexivity).
  assert (in_format 1735689600 0 sortable (B "2025-01-01 00:00:00")) as H2 by (apply format_iff; vm_compute; reflexivity).
  split; [exact H|]. split; [exact H2|]. refine (proj1 (proj1 (C112_sorted _ _ _ _ _ _ _ _ H H2)) _); reflexivity.
Qed.
