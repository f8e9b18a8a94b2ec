(** * Property theorems: schemas as MessagePack (C103) *)
From Verif Require Import Bytes Json Utils ConstantsGen State Engine Template JsonText MsgPack Spec SpecJson SpecPack SpecApi BytesFacts
  MergeProofs JsonProofs MsgProofs Samples PropertiesJson PropertiesApi.

(** ** The format *)
(** What the reader takes is the format, no more and no less. *)
Theorem C103_reads : forall fb c v, from_slice fb c = Some v <-> pack_of fb c v.
Proof. exact from_slice_iff. Qed.
Print Assumptions C103_reads.
(** Data has at most one value, and no two ways to end it. *)
Theorem C103_one_value : forall fb d t v r d' t' v' r', packed fb d t v -> packed fb d' t' v' -> t ++ r = t' ++ r' -> t = t' /\ v = v'.
Proof. exact packed_unique. Qed.
Print Assumptions C103_one_value.
(** Data that was cut short anywhere is refused; what follows a value is not looked at. *)
Theorem C103_cut : forall fb d c x v, packed fb d (c ++ x) v -> x <> [] -> forall v', ~ pack_of fb c v'.
Proof.
  intros fb d c x v HP HX v' (t & rest & -> & HT). rewrite <- app_assoc in HP.
  destruct (packed_unique fb _ _ _ [] _ _ _ (rest ++ x) HP HT) as (E & _); [rewrite app_nil_r; reflexivity|].
  apply (f_equal (@length ascii)) in E. rewrite !app_length in E. destruct x; [congruence|cbn in E; lia].
Qed.
Print Assumptions C103_cut.
Theorem C103_rest : forall fb c x v, pack_of fb c v -> pack_of fb (c ++ x) v.
Proof. intros fb c x v (t & rest & -> & H). exists t, (rest ++ x). rewrite app_assoc. auto. Qed.
Print Assumptions C103_rest.
(** Binary data, extension types and the unused marker are not values, and nothing is not a value either. *)
Theorem C103_no_value : forall fb v, ~ pack_of fb [] v /\
  forall m r, In m [193; 196; 197; 198; 199; 200; 201; 212; 213; 214; 215; 216]%N -> ~ pack_of fb (ascii_of_N m :: r) v.
Proof.
  intros fb v. split.
  - intros (t & rest & E & HP). apply packed_nonempty in HP. destruct t; [congruence|discriminate].
  - intros m r HI HP. apply from_slice_iff in HP. unfold from_slice in HP.
    cbn [In] in HI. repeat destruct HI as [<-|HI]; try contradiction; cbn in HP; discriminate.
Qed.
Print Assumptions C103_no_value.
(** What has been read has no key twice, is not too deep, and all its strings are texts. *)
Theorem C103_value : forall fb c v, pack_of fb c v -> wf_json v /\ nested 1023 v /\ forall x, string_in x v -> utf8_valid x = true.
Proof. intros fb c v (t & rest & _ & HP). apply (proj1 (packed_facts fb)) in HP as (H1 & H2 & H3). auto. Qed.
Print Assumptions C103_value.
(** A value that is not too deep is read back from what the writer writes. *)
Theorem C103_round_trip : forall fb fw v, packs fb fw v -> (nested 1023 v <-> pack_of fb (to_vec fw v) v).
Proof.
  intros fb fw v HV. split.
  - intro HN. exists (to_vec fw v), []. rewrite app_nil_r. split; [reflexivity|]. apply written_packed; assumption.
  - intro HP. apply C103_value in HP. tauto.
Qed.
Print Assumptions C103_round_trip.
(** Different values are written differently, whatever their depth. *)
Theorem C103_injective : forall fb fw v v', packs fb fw v -> packs fb fw v' -> to_vec fw v = to_vec fw v' -> v = v'.
Proof.
  intros fb fw v v' H H' E. destruct (nested_some v) as (d & HD). destruct (nested_some v') as (d' & HD').
  apply (packed_unique fb d (to_vec fw v) v [] d' (to_vec fw v') v' []); [apply written_packed; assumption..|]. rewrite E. reflexivity.
Qed.
Print Assumptions C103_injective.

(** ** Schemas *)
Definition speaks_pack (dec : bytes -> json + bytes) (fb : bytes -> option (bytes * bool)) : Prop :=
  forall c v, dec c = inl v <-> from_slice fb c = Some v.
Lemma sp_pack dec fb c v : speaks_pack dec fb -> (dec c = inl v <-> pack_of fb c v).
Proof. intro H. rewrite (H c v). apply from_slice_iff. Qed.
Lemma sp_none dec fb c : speaks_pack dec fb -> (forall v, ~ pack_of fb c v) -> exists e, dec c = inr e.
Proof. intros H HN. destruct (dec c) as [v|e] eqn:E; [|eauto]. apply (sp_pack dec fb) in E; [|exact H]. exfalso. exact (HN _ E). Qed.
(** A schema given as MessagePack does what the value does, and what a JSON text of the value does; other data is refused. *)
Theorem C103_schema : forall dec fb c tpl, speaks_pack dec fb ->
  (forall v, pack_of fb c v ->
     merge_schema_msgpack dec c tpl = match merge_schema_value v tpl with TOk _ tpl' => TOk None tpl' | TPanic p => TPanic p | TLoop => TLoop end /\
     forall env fl t, speaks_json env fl -> json_text fl t v -> merge_schema_msgpack dec c tpl = merge_schema_str env t tpl) /\
  ((forall v, ~ pack_of fb c v) -> exists e, merge_schema_msgpack dec c tpl = TOk (Some (B "Is not a valid MessagePack data: " ++ e)) tpl).
Proof.
  intros dec fb c tpl HS. split.
  - intros v HP. assert (merge_schema_msgpack dec c tpl = match merge_schema_value v tpl with TOk _ tpl' => TOk None tpl' | TPanic p => TPanic p | TLoop => TLoop end) as E.
    { unfold merge_schema_msgpack. apply (sp_pack dec fb) in HP; [|exact HS]. rewrite HP. reflexivity. }
    split; [exact E|]. intros env fl t HJ HT. rewrite E. symmetry. apply (proj1 (C98_schema env fl t tpl HJ)). exact HT.
  - intro HN. destruct (sp_none dec fb c HS HN) as (e & E). exists e. unfold merge_schema_msgpack. rewrite E. reflexivity.
Qed.
Print Assumptions C103_schema.
(** A value written as MessagePack and the same value printed as JSON make the same schema. *)
Theorem C103_same : forall env dec fl fb fw v tpl, speaks_json env fl -> speaks_pack dec fb -> value_ok fl v -> packs fb fw v -> nested 127 v ->
  merge_schema_msgpack dec (to_vec fw v) tpl = merge_schema_str env (print_json v) tpl.
Proof.
  intros env dec fl fb fw v tpl HJ HS HV HP HN.
  assert (pack_of fb (to_vec fw v) v) as HK. { apply C103_round_trip; [exact HP|]. apply (nested_le v 127 1023); [|exact HN]. apply Nat.leb_le. reflexivity. }
  apply (proj2 (proj1 (C103_schema dec fb (to_vec fw v) tpl HS) v HK) env fl); [exact HJ|]. apply C98_round_trip; assumption.
Qed.
Print Assumptions C103_same.
(** The two ways to start from a file: with data, or with none; no other call takes empty data. *)
Theorem C103_from_file : forall env dec fb p, speaks_pack dec fb ->
  from_file_msgpack env dec p [] = from_file_value env p (JObj []) /\
  (forall c v, pack_of fb c v -> from_file_msgpack env dec p c = from_file_value env p v) /\
  (forall c, c <> [] -> (forall v, ~ pack_of fb c v) -> exists e t, from_file_msgpack env dec p c = TOk (Some (B "Invalid MessagePack data: " ++ e)) t) /\
  forall tpl, exists e, merge_schema_msgpack dec [] tpl = TOk (Some (B "Is not a valid MessagePack data: " ++ e)) tpl.
Proof.
  intros env dec fb p HS. destruct (C102_constructors env dec p) as (_ & _ & HE & HD & HX). split; [exact HE|]. split; [|split].
  - intros c v HP. apply HD; [|apply (sp_pack dec fb); assumption]. intros ->. exact (proj1 (C103_no_value fb v) HP).
  - intros c HN HV. destruct (sp_none dec fb c HS HV) as (e & E). exists e. exact (HX c e HN E).
  - intro tpl. apply (proj2 (C103_schema dec fb [] tpl HS)). intros v. exact (proj1 (C103_no_value fb v)).
Qed.
Print Assumptions C103_from_file.
(** C12 and C13 for packed schemas. *)
Theorem C103_merge : forall fb c b, pack_of fb c b -> forall a,
  merge_schema (merge_schema a b) b = merge_schema a b /\
  forall p v, at_path p b = Some v -> ~ is_obj v -> at_path p (merge_schema a b) = Some v.
Proof.
  intros fb c b HP a. destruct (C103_value _ _ _ HP) as (HW & _). split; [apply merge_idem; exact HW|]. intros p v. apply merge_second_wins. exact HW.
Qed.
Print Assumptions C103_merge.

(** ** Examples *)
(** 1.5 is 3FF8000000000000, and nothing else is a number here *)
Definition fw0 (x : bytes) (g : bool) : bytes := map ascii_of_N [63; 248; 0; 0; 0; 0; 0; 0]%N.
Definition fb0 (x : bytes) : option (bytes * bool) := if beq x (fw0 [] true) then Some (B "1.5", true) else None.
Definition dec0 (c : bytes) : json + bytes := match from_slice fb0 c with Some v => inl v | None => inr (B "error") end.
Lemma dec0_speaks : speaks_pack dec0 fb0.
Proof. intros c v. unfold dec0. destruct (from_slice fb0 c) as [w|]; split; intro H; congruence. Qed.
(** the bytes of the example in template.rs 201-203 *)
Definition doc_bytes : bytes := map ascii_of_N [129; 164; 100; 97; 116; 97; 129; 163; 107; 101; 121; 165; 118; 97; 108; 117; 101]%N.
Definition doc_value : json := JObj [(B "data", JObj [(B "key", JStr (B "value"))])].
Example C103_doc : pack_of fb0 doc_bytes doc_value /\ to_vec fw0 doc_value = doc_bytes /\
  merge_schema_msgpack dec0 doc_bytes t0 = merge_schema_str (env_json (inl JNull)) (B "{""data"":{""key"":""value""}}") t0.
Proof.
  assert (pack_of fb0 doc_bytes doc_value) as H by (apply C103_reads; vm_compute; reflexivity). split; [exact H|]. split; [vm_compute; reflexivity|].
  apply (proj2 (proj1 (C103_schema dec0 fb0 doc_bytes t0 dec0_speaks) _ H) _ fl0); [apply env_json_speaks|].
  apply C98_reads. vm_compute. reflexivity.
Qed.
Definition mixed_value : json :=
  JObj [(B "a", JArr [JNum (NPos 0); JNum (NPos 127); JNum (NPos 128); JNum (NPos 65535); JNum (NPos 18446744073709551615); JNum (NNeg 1); JNum (NNeg 32); JNum (NNeg 33);
          JNum (NNeg 9223372036854775808); JNum (NFloat (B "1.5") true); JBool true; JBool false; JNull]); (B "b", JStr (B "ñ"))].
Example C103_mixed : packs fb0 fw0 mixed_value /\ value_ok fl0 mixed_value /\ nested 127 mixed_value /\ pack_of fb0 (to_vec fw0 mixed_value) mixed_value.
Proof.
  assert (packs fb0 fw0 mixed_value) as H.
  { constructor; [reflexivity| | |].
    - repeat constructor; cbn; intuition discriminate.
    - repeat constructor.
    - constructor; [|constructor; [|constructor]]; cbn [snd].
      + constructor; [reflexivity|]. repeat (constructor; [constructor; try (vm_compute; reflexivity)|]); try (vm_compute; discriminate); try constructor; vm_compute; reflexivity.
      + constructor. split; reflexivity. }
  assert (nested 127 mixed_value) as HN by (repeat constructor). split; [exact H|]. split; [|split; [exact HN|]].
  - apply (proj1 (proj2 (read_ok fl0 fl0 fl0_reader)) 127 (print_json mixed_value)). apply C98_reads. vm_compute. reflexivity.
  - apply C103_reads. vm_compute. reflexivity.
Qed.
(** bytes after the value do no harm here, but the same in JSON text does; a second key may be binary, a first one not *)
Example C103_odd : pack_of fb0 (doc_bytes ++ B "garbage") doc_value /\
  (forall v, ~ json_text fl0 (print_json doc_value ++ B "garbage") v) /\
  pack_of fb0 (map ascii_of_N [130; 161; 97; 1; 196; 1; 98; 2]%N) (JObj [(B "a", JNum (NPos 1)); (B "b", JNum (NPos 2))]) /\
  (forall v, ~ pack_of fb0 (map ascii_of_N [130; 196; 1; 98; 2; 161; 97; 1]%N) v) /\
  (forall v, ~ pack_of fb0 (map ascii_of_N [129; 1; 2]%N) v).
Proof.
  split; [apply C103_reads; vm_compute; reflexivity|]. split; [intros v H; apply C98_reads in H; vm_compute in H; discriminate|].
  split; [apply C103_reads; vm_compute; reflexivity|]. split; intros v H; apply C103_reads in H; vm_compute in H; discriminate.
Qed.
(** a value too deep for JSON text *)
Fixpoint boxes (n : nat) : json := match n with O => JNull | S n => JArr [boxes n] end.
Example C103_deep : pack_of fb0 (to_vec fw0 (boxes 200)) (boxes 200) /\ (forall t, ~ json_text fl0 t (boxes 200)).
Proof.
  split; [apply C103_reads; vm_compute; reflexivity|]. intros t H. assert (~ nested 127 (boxes 200)) as HN.
  { assert (forall n d, nested d (boxes n) -> n <= d) as K. { induction n as [|n IH]; intros d HD; [lia|]. cbn [boxes] in HD. inversion HD as [| | | |d' ? HF|]; subst. apply Forall_inv in HF. apply IH in HF. lia. }
    intro HD. apply K in HD. apply Nat.leb_le in HD. discriminate HD. }
  exact (C98_too_deep fl0 _ HN t H).
Qed.
