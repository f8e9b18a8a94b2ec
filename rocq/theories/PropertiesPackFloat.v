(** * C111: the floats of MessagePack *)
From Verif Require Import Bytes BytesFacts Json Utils State Engine Template Spec SpecEngine Float64 SpecDouble JsonFloat SpecJsonFloat JsonText SpecJson
  MsgPack SpecPack PackFloat SpecPackFloat JsonProofs MsgProofs DoubleProofs DoubleShow JsonFloatProofs PackFloatProofs Samples
  PropertiesJson PropertiesDouble PropertiesJsonFloat PropertiesPack.
Open Scope N_scope.
Opaque N.pow unit.

(** Four or eight bytes are exactly one number of IEEE 754, or none; the number is shown as the shortest decimal that is nearest to it. *)
Theorem C111_float : forall x, length x = 4%nat \/ length x = 8%nat -> exists r, float_word x r /\ (forall r', float_word x r' -> r' = r) /\
  match r with
  | None => pack_float x = None
  | Some (neg, v) => double v /\ v < 2 ^ 1024 * 2 ^ 1074 /\
      exists t g, pack_float x = Some (t, g) /\ json_shows neg v t /\ (g = true <-> neg = false /\ v <> 0)
  end.
Proof.
  intros x HL. destruct (float_word_some x HL) as [r HR]. exists r. split; [exact HR|]. split; [intros r' H; eapply float_word_det; eassumption|].
  pose proof (float_word_read x r HR) as E. destruct r as [[neg v]|]; [|exact E]. destruct (float_word_double x neg v HR) as [DV LV]. split; [exact DV|]. split; [exact LV|].
  do 2 eexists. split; [exact E|]. split; [apply digits_shows; assumption|]. rewrite andb_true_iff, !negb_true_iff, N.eqb_neq. reflexivity.
Qed.
Print Assumptions C111_float.

(** Every double has exactly one text of eight bytes. *)
Theorem C111_every : forall neg v, double v -> v < 2 ^ 1024 * 2 ^ 1074 ->
  exists x, length x = 8%nat /\ float_word x (Some (neg, v)) /\ forall y, length y = 8%nat -> float_word y (Some (neg, v)) -> y = x.
Proof.
  intros neg v DV LV. destruct (bits_written neg v DV LV) as [L H]. eexists. split; [exact L|]. split; [exact H|].
  intros y LY HY. apply (float_word_inj y _ (Some (neg, v))); [congruence|discriminate|exact HY|exact H].
Qed.
Print Assumptions C111_every.

(** A single is shown as the double of the same value. *)
Theorem C111_single : forall x neg v, length x = 4%nat -> float_word x (Some (neg, v)) ->
  exists y, length y = 8%nat /\ float_word y (Some (neg, v)) /\ pack_float y = pack_float x.
Proof.
  intros x neg v L H. destruct (float_word_double x neg v H) as [DV LV]. destruct (bits_written neg v DV LV) as [L8 H8]. eexists. split; [exact L8|]. split; [exact H8|].
  rewrite (float_word_read _ _ H8), (float_word_read _ _ H). reflexivity.
Qed.
Print Assumptions C111_single.

(** Different doubles are shown differently. *)
Theorem C111_told_apart : forall x y, length x = 8%nat -> length y = 8%nat -> pack_float x <> None -> pack_float x = pack_float y -> x = y.
Proof.
  intros x y LX LY HN E. destruct (float_word_some x (or_intror LX)) as [r HX]. destruct (float_word_some y (or_intror LY)) as [q HY].
  rewrite (float_word_read _ _ HX) in E, HN. rewrite (float_word_read _ _ HY) in E. destruct r as [[a v]|]; [|congruence]. destruct q as [[b w]|]; [|discriminate E].
  destruct (float_word_double _ _ _ HX) as [DV LV]. destruct (float_word_double _ _ _ HY) as [DW LW].
  assert (json_print a v = json_print b w) as EP by congruence. pose proof (print_stands a v DV LV) as S1. pose proof (print_stands b w DW LW) as S2. rewrite EP in S1.
  destruct (proj2 (C108_number _) _ _ S1 S2) as [X _]. assert (a = b /\ v = w) as [-> ->] by (split; congruence).
  apply (float_word_inj x y (Some (b, w))); [congruence|discriminate|exact HX|exact HY].
Qed.
Print Assumptions C111_told_apart.

Definition written_back (x : bytes) : option (bytes * bool) :=
  if Nat.eqb (length (double_bytes x true)) 8 then pack_float (double_bytes x true) else None.
Lemma print_back neg v : double v -> v < 2 ^ 1024 * 2 ^ 1074 ->
  forall g, length (double_bytes (json_print neg v) g) = 8%nat /\ pack_float (double_bytes (json_print neg v) g) = Some (json_print neg v, negb neg && negb (v =? 0)).
Proof.
  intros DV LV g. rewrite (bytes_written neg v g DV LV). destruct (bits_written neg v DV LV) as [L H]. split; [exact L|]. exact (float_word_read _ _ H).
Qed.
Lemma float_back t x g : json_float t = Some (x, g) -> number_ok written_back (NFloat x g).
Proof.
  intro H. destruct (C109_prints t x g H) as (_ & _ & _ & _ & _ & _ & _ & TX & TI). split; [exact TX|]. split; [exact TI|].
  unfold json_float in H. destruct (json_value t) as [[sg v]|] eqn:EV; [|discriminate H]. destruct (value_valid t sg v EV) as (DV & LV & _).
  assert (x = json_print sg v /\ g = negb sg && negb (v =? 0)) as [-> ->] by (split; congruence). unfold written_back.
  destruct (print_back sg v DV LV true) as [-> E]. rewrite Nat.eqb_refl. exact E.
Qed.
Lemma number_back n : number_ok written_back n -> num_packs pack_float double_bytes n.
Proof.
  destruct n as [n|p|x g]; cbn [number_ok num_packs]; [auto..|]. intros (_ & _ & H). unfold written_back in H. change (double_bytes x g) with (double_bytes x true).
  destruct (Nat.eqb_spec (length (double_bytes x true)) 8) as [L|L]; [|discriminate H]. auto.
Qed.
Lemma value_back : forall v, value_ok written_back v -> small v -> packs pack_float double_bytes v.
Proof.
  fix IH 1. intros v HV HS. destruct v as [|b|n|s|l|m]; [constructor|constructor| | | |].
  - constructor. inversion HV. apply number_back. assumption.
  - constructor. inversion HS. assumption.
  - inversion HV as [| | | |? F|]; subst. inversion HS as [| | | |? L G|]; subst. constructor; [exact L|]. clear L HV HS.
    induction l as [|a l IHl]; constructor; inversion F; inversion G; subst; [apply IH; assumption|apply IHl; assumption].
  - inversion HV as [| | | | |? ND F]; subst. inversion HS as [| | | | |? L K G]; subst. constructor; [exact L|exact ND|exact K|]. clear L HV HS ND K.
    induction m as [|[k a] m IHm]; constructor; inversion F; inversion G; subst; [apply IH; assumption|apply IHm; assumption].
Qed.

(** A value that was read from JSON text is written to MessagePack and read back unchanged, floats included. *)
Theorem C111_converted : forall t v, json_text json_float t v -> small v -> pack_of pack_float (to_vec double_bytes v) v.
Proof.
  intros t v HT HS. apply C103_round_trip.
  - apply value_back; [|exact HS]. destruct (read_ok json_float written_back (fun t x g _ _ E => float_back t x g E)) as (_ & R & _). eapply R. exact HT.
  - apply (nested_le v 127 1023); [apply Nat.leb_le; reflexivity|]. eapply read_depth. exact HT.
Qed.
Print Assumptions C111_converted.

Lemma field_below m k t n : field m k t n -> n < 2 ^ (8 * N.of_nat k).
Proof. intros (u & _ & L & HB). apply be_iff in HB. subst n. rewrite <- L. apply be_bound. Qed.
Lemma int_back t z n : packed_int t z -> whole_number z n -> number_ok written_back n.
Proof.
  intros HI HW. assert ((- 2 ^ 63 <= z < 2 ^ 64)%Z) as HZ.
  { assert (forall j, j <= 64 -> forall x, x < 2 ^ j -> (- 2 ^ 63 <= Z.of_N x < 2 ^ 64)%Z) as HU.
    { intros j HJ x HX. assert (x < 2 ^ 64) as H by (eapply N.lt_le_trans; [exact HX|apply N.pow_le_mono_r; [discriminate|exact HJ]]). apply N2Z.inj_lt in H. rewrite N2Z.inj_pow in H.
      change (Z.of_N 2 ^ Z.of_N 64)%Z with (2 ^ 64)%Z in H. lia. }
    assert (forall bits x y, 0 < bits -> bits <= 64 -> complement bits x y -> (- 2 ^ 63 <= y < 2 ^ 64)%Z) as HC.
    { intros bits x y H0 HB [_ [H1 H2]]. assert ((2 ^ (Z.of_N bits - 1) <= 2 ^ 63)%Z) by (apply Z.pow_le_mono_r; lia). lia. }
    destruct HI as [x H|x H|t x H|t x H|t x H|t x H|t x y H HY|t x y H HY|t x y H HY|t x y H HY].
    - apply (HU 7); [discriminate|exact H].
    - assert ((0 < 2 ^ 63)%Z) by reflexivity. assert ((32 < 2 ^ 63)%Z) by reflexivity. lia.
    - apply field_below in H. eapply HU; [|exact H]. discriminate.
    - apply field_below in H. eapply HU; [|exact H]. discriminate.
    - apply field_below in H. eapply HU; [|exact H]. discriminate.
    - apply field_below in H. eapply HU; [|exact H]. discriminate.
    - eapply HC; [| |exact HY]; [reflexivity|discriminate].
    - eapply HC; [| |exact HY]; [reflexivity|discriminate].
    - eapply HC; [| |exact HY]; [reflexivity|discriminate].
    - eapply HC; [| |exact HY]; [reflexivity|discriminate]. }
  destruct HW as [x|p]; cbn [number_ok].
  - apply N2Z.inj_lt. rewrite N2Z.inj_pow. exact (proj2 HZ).
  - apply N2Z.inj_le. rewrite N2Z.inj_pow. change (Z.of_N 2 ^ Z.of_N 63)%Z with (2 ^ 63)%Z. change (Z.of_N (N.pos p)) with (Zpos p). lia.
Qed.
Lemma pack_back y x g : length y = 4%nat \/ length y = 8%nat -> pack_float y = Some (x, g) -> number_ok written_back (NFloat x g).
Proof.
  intros HL E. destruct (float_word_some y HL) as [r HR]. rewrite (float_word_read _ _ HR) in E. destruct r as [[neg v]|]; [|discriminate E].
  assert (x = json_print neg v /\ g = negb neg && negb (v =? 0)) as [-> ->] by (split; congruence). destruct (float_word_double _ _ _ HR) as [DV LV].
  destruct (shows_token _ _ _ (digits_shows neg v DV LV)) as [TX TI]. split; [exact TX|]. split; [exact TI|]. unfold written_back.
  destruct (print_back neg v DV LV true) as [-> X]. rewrite Nat.eqb_refl. exact X.
Qed.
Lemma packed_back : (forall d t v, packed pack_float d t v -> value_ok written_back v) /\
  (forall d t l, packed_items pack_float d t l -> Forall (value_ok written_back) l) /\
  (forall d f t l, packed_entries pack_float d f t l -> Forall (fun kv => value_ok written_back (snd kv)) l).
Proof.
  apply packed_mutind; intros; try (constructor; auto; fail).
  - constructor. eapply int_back; eassumption.
  - constructor. eapply pack_back; [|eassumption]. destruct H as [[? _]|[? _]]; auto.
  - constructor; [apply later_nodup|]. apply (later_in (value_ok written_back)). assumption.
Qed.
(** And so is a value that was read from MessagePack, however it was written. *)
Theorem C111_repacked : forall c v, pack_of pack_float c v -> small v -> pack_of pack_float (to_vec double_bytes v) v.
Proof.
  intros c v HP HS. pose proof (C103_value _ _ _ HP) as (_ & HN & _). destruct HP as (t & rest & _ & HP). apply C103_round_trip; [|exact HN].
  apply value_back; [|exact HS]. apply (proj1 packed_back) in HP. exact HP.
Qed.
Print Assumptions C111_repacked.

(** A schema has the same effect as JSON text and as the MessagePack data made from the value of that text. *)
Theorem C111_same : forall env dec t v tpl, speaks_json env json_float -> speaks_pack dec pack_float -> json_text json_float t v -> small v ->
  merge_schema_msgpack dec (to_vec double_bytes v) tpl = merge_schema_str env t tpl.
Proof.
  intros env dec t v tpl HJ HP HT HS. pose proof (C111_converted t v HT HS) as HK.
  exact (proj2 (proj1 (C103_schema dec pack_float _ tpl HP) v HK) env json_float t HJ HT).
Qed.
Print Assumptions C111_same.

(** ** Examples *)
Definition of_bytes (l : list N) : bytes := map ascii_of_N l.
Definition shown (l : list N) : option (string * bool) := match pack_float (of_bytes l) with Some (x, g) => Some (string_of_list_ascii x, g) | None => None end.
(** a double is shown exactly, also one that JSON text does not bring across (C109_drift); the single nearest to 0.1 is not shown as 0.1;
    both zeros, infinities and NaN *)
Example C111_values :
  shown [63; 248; 0; 0; 0; 0; 0; 0] = Some ("1.5"%string, true) /\
  shown [64; 59; 216; 252; 146; 45; 117; 141] = Some ("27.847603927706178"%string, true) /\
  shown [61; 204; 204; 205] = Some ("0.10000000149011612"%string, true) /\
  shown [0; 0; 0; 0; 0; 0; 0; 0] = Some ("0.0"%string, false) /\ shown [128; 0; 0; 0] = Some ("-0.0"%string, false) /\
  shown [127; 128; 0; 0] = None /\ shown [255; 240; 0; 0; 0; 0; 0; 0] = None /\
  shown [127; 248; 0; 0; 0; 0; 0; 1] = None.
Proof. vm_compute. intuition reflexivity. Qed.
Example C111_round_trip : exists v, json_text json_float (B "{""data"":{""n"":[-1.5,7]}}") v /\ small v /\
  from_slice pack_float (to_vec double_bytes v) = Some v.
Proof.
  eexists. split; [apply read_json_iff; vm_compute; reflexivity|]. split.
  - repeat lazymatch goal with
    | |- small (JNum _) => apply sm_num
    | |- small (JStr _) => apply sm_str
    | |- small (JArr _) => apply sm_arr
    | |- small (JObj _) => apply sm_obj
    | |- Forall _ (_ :: _) => apply Forall_cons; cbn [fst snd]
    | |- Forall _ [] => apply Forall_nil
    | |- str_packs _ => split
    | |- _ => vm_compute; reflexivity
    end.
  - vm_compute. reflexivity.
Qed.
