(** * More instances of the preservation theorem: exit, local definitions, fuel *)

From Verif Require Import Bytes Json Utils ConstantsGen State Engine Template Spec SpecEngine BytesFacts
  EscapeProofs MergeProofs TextProofs TemplateProofs FrameProofs FrameRun SimProofs EngineFrames.

(** ** The log of started bifs and of the exit flag *)

Definition logged (s : Shared) : Prop :=
  exit_log s.(slog) s.(exit) /\ bifs_started s.(slog) = s.(bisf_count).
Definition log_grows (s s' : Shared) : Prop := later s s' /\ exists l, s'.(slog) = l ++ s.(slog).

Lemma log_keep s s' : later s s' -> s'.(slog) = s.(slog) -> log_grows s s'.
Proof. intros L E. split; [exact L|]. exists []. exact E. Qed.

Lemma log_frame env : frame env (fun s _ _ => logged s) (fun _ => log_grows) (fun _ => True).
Proof.
  assert (forall x s, logged s -> logged (set_indir_store x s) /\ log_grows s (set_indir_store x s)) as HS.
  { intros x s H. split; [exact H|]. apply log_keep; [apply later_same|]; reflexivity. }
  assert (forall s s' x, logged s -> s' = set_indir_store x s -> logged s' /\ log_grows s s') as HS'.
  { intros s s' x HI ->. apply HS. exact HI. }
  assert (forall a b c, log_grows a b -> log_grows b c -> log_grows a c) as HT.
  { intros a b c [L1 [l1 E1]] [L2 [l2 E2]]. split; [eapply later_trans; eassumption|].
    exists (l2 ++ l1). rewrite E2, E1, app_assoc. reflexivity. }
  constructor; try (intros; exact I).
  - intros _ s. apply log_keep; [apply later_refl|reflexivity].
  - intros _. exact HT.
  - auto.
  - intros _ s s' [(E & L & _) _]. auto.
  - intros f s d c Hf [H1 H2]. destruct (later_benign f s Hf) as [L E]. unfold logged. destruct Hf;
      try (split; [split; assumption|apply log_keep; [exact L|reflexivity]]).
    split; [split; [apply (el_set _ (exit s)); exact H1|exact H2]|]. split; [exact L|]. exists [SExit v]. reflexivity.
  - intros s d c EX HM [H1 H2]. rewrite EX in H1. split.
    + split; [cbn [slog set_bisf_count exit]; rewrite EX; apply el_bif; exact H1|].
      cbn [slog set_bisf_count bifs_started bisf_count]. lia.
    + split; [apply later_count|]. exists [SBif]. reflexivity.
  - intros l s d c H. split; [exact H|]. apply log_keep; [apply later_same|]; reflexivity.
  - intros nm v s d c H. destruct (upd _ _ _); [|exact I]. split; [exact H|]. apply log_keep; [apply later_same|]; reflexivity.
  - intros h to v s d c H. destruct (upd _ _ _); [|exact I]. split; [exact H|]. apply log_keep; [apply later_same|]; reflexivity.
  - intros s i HI. destruct (create_store s i) as [x E]. destruct (HS' _ _ _ HI E) as [A C]. auto.
  - intros f s c _ HI. destruct (upd_indir _ f s) eqn:E; [|exact I]. apply upd_indir_store in E as [x E]. eauto.
  - intros f s d c _ HI. destruct (upd_indir _ f s) eqn:E; [|exact I]. apply upd_indir_store in E as [x E]. eauto.
  - auto.
  - intros s d c s2 i2 HI HR HI2 _. destruct (drop_store s2 i2) as [x E].
    destruct (HS' _ _ _ HI2 E) as [A C]. eauto.
  - intros s c s2 i2 HI HR HI2 _. destruct (update_store s2 (indir i2) (own_id c)) as [x E].
    destruct (HS' _ _ _ HI2 E) as [A C]. destruct (drop_store (update_indir s2 (indir i2) (own_id c)) i2) as [y E2].
    destruct (HS' _ _ _ A E2) as [A2 C2]. eauto.
Qed.

(** ** Local definitions *)
Definition keeps_below (c : N) (s s' : Shared) : Prop :=
  later s s' /\
  (forall j, (1 <= j < c)%N -> same_local (get_indir s (block_id j)) (get_indir s' (block_id j))) /\
  (forall j, (j = 1 \/ 1 <= j < c)%N -> oget (block_id j) s.(indir_store) <> None ->
     oget (block_id j) s'.(indir_store) <> None).

Lemma block_id_inj a b : block_id a = block_id b -> a = b.
Proof. unfold block_id. intro H. apply app_inv_head in H. apply dec_inj in H. exact H. Qed.
Lemma own_id_max c : own_id c = block_id (N.max 1 c).
Proof.
  unfold own_id. destruct (c <? 1)%N eqn:E.
  - apply N.ltb_lt in E. rewrite N.max_l by lia. reflexivity.
  - apply N.ltb_ge in E. rewrite N.max_r by lia. reflexivity.
Qed.
Lemma block_ne a b : a <> b -> beq (block_id a) (block_id b) = false.
Proof. intro H. apply beq_neq. intro E. apply H, block_id_inj, E. Qed.

Lemma same_local_refl a : same_local a a. Proof. intros sec _. reflexivity. Qed.
Lemma same_local_trans a b c : same_local a b -> same_local b c -> same_local a c.
Proof. intros H1 H2 sec N. rewrite H2, H1 by exact N. reflexivity. Qed.

Lemma keeps_store c s s' : later s s' ->
  (forall j, (j = 1 \/ 1 <= j < c)%N -> oget (block_id j) s.(indir_store) <> None ->
     oget (block_id j) s'.(indir_store) <> None) ->
  (forall j, (1 <= j < c)%N -> oget (block_id j) s'.(indir_store) = oget (block_id j) s.(indir_store)) -> keeps_below c s s'.
Proof.
  intros L P H. split; [exact L|]. split; [|exact P]. intros j Hj. unfold get_indir. rewrite (H j Hj). apply same_local_refl.
Qed.

Lemma keeps_same c s s' : later s s' -> s'.(indir_store) = s.(indir_store) -> keeps_below c s s'.
Proof. intros L E. apply keeps_store; [exact L| |]; intros; rewrite E; auto. Qed.

Lemma oget_oset_some k k' v m : oget k m <> None -> oget k (oset k' v m) <> None.
Proof. rewrite oget_oset. destruct (beq k k'); [discriminate|auto]. Qed.

Lemma keeps_put c j v s : (c <= j)%N -> (1 <= j)%N -> keeps_below c s (set_indir_store (oset (block_id j) v (indir_store s)) s).
Proof.
  intros H H1. apply keeps_store; [apply later_same; reflexivity| |].
  - intros k _ Hk. cbn [indir_store set_indir_store]. apply oget_oset_some. exact Hk.
  - intros k Hk. cbn [indir_store set_indir_store]. rewrite oget_oset, block_ne by lia. reflexivity.
Qed.

Lemma keeps_drop c s i : i.(block_count) = (c + 1)%N -> keeps_below (c + 1) s (drop_block s i).
Proof.
  intro E. unfold drop_block. rewrite E. destruct (_ && _) eqn:C; [|apply keeps_same; [apply later_refl|reflexivity]].
  apply andb_true_iff in C as [C _]. apply negb_true_iff in C. apply beq_neq in C.
  assert ((c + 1)%N <> 1%N) as Hc by (intro E1; apply C; rewrite E1; reflexivity).
  apply keeps_store; [apply later_same; reflexivity| |].
  - intros j Hj. cbn [indir_store set_indir_store]. rewrite oget_oremove, block_ne by lia. auto.
  - intros j Hj. cbn [indir_store set_indir_store]. rewrite oget_oremove, block_ne by lia. reflexivity.
Qed.

Lemma keeps_below_trans c s1 s2 s3 : keeps_below c s1 s2 -> keeps_below c s2 s3 -> keeps_below c s1 s3.
Proof.
  intros (L1 & D1 & P1) (L2 & D2 & P2). split; [eapply later_trans; eassumption|]. split.
  - intros j Hj. eapply same_local_trans; [apply D1|apply D2]; exact Hj.
  - intros j Hj H. apply P2; [exact Hj|]. apply P1; assumption.
Qed.
Lemma keeps_below_level c s s' : keeps_below (c + 1) s s' -> keeps_below c s s'.
Proof. intros (L & D & P). split; [exact L|]. split; intros j Hj; [apply D|apply P]; lia. Qed.

Lemma at_level_keep c0 c s s' d : at_level s d c -> keeps_below c0 s s' -> (c < c0)%N -> at_level s' d c.
Proof.
  intros [(k & Hk & ->) H] (_ & _ & P) L. split; [exists k; auto|]. apply P; [lia|exact H].
Qed.

Lemma at_level_store c s s' d : at_level s d c -> s'.(indir_store) = s.(indir_store) -> at_level s' d c.
Proof. intros [H1 H2] E. split; [exact H1|]. rewrite E. exact H2. Qed.

Lemma create_own s i : at_level s (indir i) (block_count i) ->
  oget (own_id (block_count i)) (indir_store (fst (create_block_schema s i))) = oget (indir i) (indir_store s) /\
  (fst (create_block_schema s i) = s \/
   exists v, fst (create_block_schema s i) = set_indir_store (oset (own_id (block_count i)) v (indir_store s)) s).
Proof.
  intros [_ H]. unfold create_block_schema. cbn [fst]. fold (own_id (block_count i)).
  destruct (beq_spec (indir i) (own_id (block_count i))) as [->|N]; [split; [reflexivity|left; reflexivity]|].
  destruct (oget (indir i) (indir_store s)) as [v|] eqn:E; [|contradiction].
  cbn [indir_store set_indir_store]. rewrite oget_oset, beq_refl. split; [reflexivity|right; exists v; reflexivity].
Qed.

Lemma create_keeps s i : at_level s (indir i) (block_count i) ->
  keeps_below (block_count i) s (fst (create_block_schema s i)).
Proof.
  intro H. destruct (create_own s i H) as [_ [->|[v ->]]]; [apply keeps_same; [apply later_refl|reflexivity]|].
  rewrite own_id_max. apply keeps_put; lia.
Qed.

Lemma own_level s c : oget (own_id c) s.(indir_store) <> None -> at_level s (own_id c) c.
Proof. intro H. split; [|exact H]. exists (N.max 1 c). rewrite own_id_max. split; [lia|reflexivity]. Qed.

Lemma upd_same_local sec f v v' : upd sec f v = Some v' -> In sec snippet_sections -> same_local v v'.
Proof. intros E H k N. apply (idx_other _ _ _ _ _ E). intros ->. contradiction. Qed.

Lemma local_frame env : frame env at_level keeps_below (fun _ => True).
Proof.
  constructor; try (intros; exact I).
  - intros c s. apply keeps_same; [apply later_refl|reflexivity].
  - apply keeps_below_trans.
  - apply keeps_below_level.
  - intros c s s' ((E & L & _) & _). auto.
  - intros f s d c Hf HI. destruct (later_benign f s Hf) as [L _]. pose proof (benign_store f s Hf) as E.
    split; [apply (at_level_store _ _ _ _ HI E)|apply keeps_same; assumption].
  - intros s d c _ _ HI. split; [exact HI|apply keeps_same; [apply later_count|reflexivity]].
  - intros l s d c HI. split; [exact HI|apply keeps_same; [apply later_same|]; reflexivity].
  - intros nm v s d c HI. destruct (upd _ _ _); [|exact I]. split; [exact HI|apply keeps_same; [apply later_same|]; reflexivity].
  - intros h to v s d c HI. destruct (upd _ _ _); [|exact I]. split; [exact HI|apply keeps_same; [apply later_same|]; reflexivity].
  - intros s i HI. pose proof (create_keeps s i HI) as HK. destruct (create_own s i HI) as [Eo Hs].
    split; [apply own_level; rewrite Eo; apply HI|]. split; [|exact HK].
    destruct HI as [HI1 HI2]. split; [exact HI1|].
    destruct Hs as [->|[v ->]]; [exact HI2|]. cbn [indir_store set_indir_store]. apply oget_oset_some. exact HI2.
  - intros f s c _ HI. unfold upd_indir. destruct (f _) as [v|]; [|exact I]. rewrite own_id_max. split.
    + split; [exists (N.max 1 c); split; [lia|reflexivity]|]. cbn [indir_store set_indir_store].
      rewrite oget_oset, beq_refl. discriminate.
    + apply keeps_put; lia.
  - intros f s d c Hf HI. unfold upd_indir. destruct (f _) as [v|] eqn:E; [|exact I]. split.
    + destruct HI as [HI1 HI2]. split; [exact HI1|]. cbn [indir_store set_indir_store]. apply oget_oset_some. exact HI2.
    + split; [apply later_same; reflexivity|]. split.
      * intros j Hj. unfold get_indir. cbn [indir_store set_indir_store]. rewrite oget_oset.
        destruct (beq_spec (block_id j) d) as [->|N]; [|apply same_local_refl].
        destruct HI as [_ HI]. destruct (oget d (indir_store s)) as [w|]; [|contradiction].
        destruct Hf; (eapply upd_same_local; [exact E|cbn; tauto]).
      * intros j Hj Hp. cbn [indir_store set_indir_store]. apply oget_oset_some. exact Hp.
  - intros s d c [(k & Hk & E) H]. split; [exists k; split; [lia|exact E]|exact H].
  - intros s d c s2 i2 HI HR HI2 E2. pose proof (keeps_drop c s2 i2 E2) as HD.
    pose proof (keeps_below_trans _ _ _ _ HR HD) as HK. split; [|exact HK].
    eapply at_level_keep; [exact HI|exact HK|lia].
  - intros s c s2 i2 HI HR HI2 E2.
    assert (keeps_below c s2 (update_indir s2 (indir i2) (own_id c))) as HU.
    { unfold update_indir. destruct (oget (indir i2) (indir_store s2)); [|apply keeps_same; [apply later_refl|reflexivity]].
      rewrite own_id_max. apply keeps_put; lia. }
    assert (at_level (update_indir s2 (indir i2) (own_id c)) (own_id c) c) as HA.
    { apply own_level. unfold update_indir. destruct HI2 as [_ HI2].
      destruct (oget (indir i2) (indir_store s2)); [|contradiction]. cbn [indir_store set_indir_store].
      rewrite oget_oset, beq_refl. discriminate. }
    pose proof (keeps_drop c (update_indir s2 (indir i2) (own_id c)) i2 E2) as HD. split.
    + eapply at_level_keep; [exact HA|exact HD|lia].
    + eapply keeps_below_trans; [apply keeps_below_level; exact HR|].
      eapply keeps_below_trans; [exact HU|apply keeps_below_level; exact HD].
Qed.

(** ** The fuel of the model does not matter once there is enough *)
Lemma run_blocks_fuel env m : forall f, m <= f -> forall s i source bl only, room m s ->
  run_blocks env m s i source bl only = run_blocks env f s i source bl only.
Proof.
  assert (frame env (fun _ _ _ => True) (fun _ => later) (fun _ => True)) as F.
  { apply simple_frame; intros; try exact I; try (split; [exact I|]).
    - apply later_refl.
    - eapply later_trans; eassumption.
    - match goal with H : later _ _ |- _ => destruct H as (? & ? & _) end. auto.
    - apply later_benign. assumption.
    - apply later_same; reflexivity.
    - apply later_count.
    - apply later_same; reflexivity.
    - apply later_same; reflexivity.
    - apply later_same; reflexivity. }
  induction m as [|m IH]; intros f L s i source bl only HR.
  - exfalso. unfold room in HR. lia.
  - destruct f as [|f]; [lia|]. cbn [run_blocks].
    apply (blocks_loop_agree env _ _ _ F m (run_blocks env m) (run_blocks env f) (run_blocks_ok env _ _ _ F m)); [exact I|exact HR|].
    intros s2 i2 src2 bl2 o2 _ HR2 _ _ _. apply IH; [lia|exact HR2].
Qed.
