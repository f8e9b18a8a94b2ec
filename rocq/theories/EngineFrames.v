(** * Instances of the preservation theorem *)

From Verif Require Import Bytes Json Utils ConstantsGen State Engine Template Spec SpecEngine BytesFacts
  EscapeProofs MergeProofs TextProofs TemplateProofs FrameProofs FrameRun.

(** ** From one block to a whole render *)
Section Lift.
  Variable env : Env.
  Variable Inv : Shared -> bytes -> N -> Prop.
  Variable R : N -> Shared -> Shared -> Prop.
  Variable PP : panic -> Prop.
  Hypothesis F : frame env Inv R PP.

  Lemma top_parse_ok s i source only : Inv s i.(indir) i.(block_count) ->
    match top_parse env s i source only with
    | BOk _ s' _ => Inv s' i.(indir) i.(block_count) /\ R (i.(block_count) + 1)%N s s'
    | BPanic p => PP p
    | BNoFuel => False
    end.
  Proof.
    intro HI. unfold top_parse. set (ci := iset_block_count (block_count i + 1) i).
    pose proof (parse_ok env Inv R PP F s ci source only) as H.
    assert (Inv s (indir ci) (block_count ci)) as HIc by (apply (f_H_enter _ _ _ _ F); exact HI).
    specialize (H HIc). destruct (parse env s ci source only) as [o s2 ci2|p|]; [|exact H|exact H].
    cbn in H. destruct H as (I2 & R2 & B2).
    apply (f_H_leave _ _ _ _ F s (indir i) (block_count i) s2 ci2 HI R2 I2 B2).
  Qed.

  Lemma cache_rounds_ok i fuel : forall s o, Inv s i.(indir) i.(block_count) ->
    match cache_rounds env fuel s i o with
    | ROk _ s' => Inv s' i.(indir) i.(block_count) /\ R (i.(block_count) + 1)%N s s'
    | RPanic p => PP p
    | RLoop => True
    end.
  Proof.
    induction fuel as [|n IH]; intros s o HI; cbn [cache_rounds];
      (destruct (contains CACHE_OPEN o); [|split; [exact HI|apply (f_R_refl _ _ _ _ F)]]); [exact I|].
    pose proof (top_parse_ok s i o (B "!cache") HI) as H.
    destruct (top_parse env s i o (B "!cache")) as [o' s' i'|p|]; [|exact H|exact I].
    destruct H as [I1 R1]. specialize (IH s' o' I1).
    destruct (cache_rounds env n s' i o') as [o2 s2|p|]; [|exact IH|exact I].
    destruct IH as [I2 R2]. split; [exact I2|]. eapply (f_R_trans _ _ _ _ F); eassumption.
  Qed.

  Lemma render_ok fuel t o t' : occurs (B "{:") t.(t_raw) -> render env fuel t = TOk o t' ->
    (forall raw s i, init_render env t = IOk raw s i -> Inv s i.(indir) i.(block_count)) ->
    exists raw s i, init_render env t = IOk raw s i /\
      Inv t'.(t_shared) (B "block_1") 0%N /\ R 1%N s t'.(t_shared).
  Proof.
    intros HO HR HI. apply render_inv in HR as (raw & s & i & o1 & s1 & i1 & o2 & s2 & E1 & E2 & E3 & _ & ->); [|exact HO].
    exists raw, s, i. split; [exact E1|]. specialize (HI _ _ _ E1). cbn [t_shared].
    pose proof (init_facts _ _ _ _ _ E1) as Fi. rewrite <- (in_indir _ _ _ _ _ Fi), <- (in_count _ _ _ _ _ Fi).
    change 1%N with (0 + 1)%N. rewrite <- (in_count _ _ _ _ _ Fi).
    pose proof (top_parse_ok s i raw [] HI) as H. rewrite E2 in H. destruct H as [I1 R1].
    pose proof (cache_rounds_ok i fuel s1 o1 I1) as H. rewrite E3 in H. destruct H as [I2 R2].
    split; [exact I2|]. eapply (f_R_trans _ _ _ _ F); eassumption.
  Qed.
End Lift.

(** ** Frames that do not look at the local schemas *)
Lemma upd_indir_store d f s s' : upd_indir d f s = Some s' -> exists x, s' = set_indir_store x s.
Proof.
  unfold upd_indir. destruct (f _) as [v|]; [|discriminate]. intro H. injection H as <-. eexists. reflexivity.
Qed.
Lemma store_same s : set_indir_store (indir_store s) s = s.
Proof. destruct s. reflexivity. Qed.
Lemma create_store s i : exists x, fst (create_block_schema s i) = set_indir_store x s.
Proof.
  unfold create_block_schema. cbn [fst]. destruct (beq (indir i) _); [exists (indir_store s); symmetry; apply store_same|].
  destruct (oget (indir i) (indir_store s)); [eexists; reflexivity|exists (indir_store s); symmetry; apply store_same].
Qed.
Lemma drop_store s i : exists x, drop_block s i = set_indir_store x s.
Proof.
  unfold drop_block. destruct (_ && _); [eexists; reflexivity|exists (indir_store s); symmetry; apply store_same].
Qed.
Lemma update_store s a b : exists x, update_indir s a b = set_indir_store x s.
Proof.
  unfold update_indir. destruct (oget a (indir_store s)); [eexists; reflexivity|exists (indir_store s); symmetry; apply store_same].
Qed.

Section Simple.
  Variable env : Env.
  Variable Inv : Shared -> Prop.
  Variable R : Shared -> Shared -> Prop.
  Hypothesis R_refl : forall s, R s s.
  Hypothesis R_trans : forall s1 s2 s3, R s1 s2 -> R s2 s3 -> R s1 s3.
  Hypothesis R_base : forall s s', R s s' -> s'.(cfg) = s.(cfg) /\ (s.(bisf_count) <= s'.(bisf_count))%N.
  Hypothesis H_benign : forall f s, benign f -> Inv s -> Inv (f s) /\ R s (f s).
  Hypothesis H_store : forall x s, Inv s -> Inv (set_indir_store x s) /\ R s (set_indir_store x s).
  Hypothesis H_count : forall s, (s.(bisf_count) + 1 <= s.(cfg).(bisf_max))%N -> Inv s ->
    Inv (set_bisf_count (s.(bisf_count) + 1) s) /\ R s (set_bisf_count (s.(bisf_count) + 1) s).
  Hypothesis H_error : forall l s, Inv s -> Inv (push_error (one_line l) s) /\ R s (push_error (one_line l) s).
  Hypothesis H_data : forall nm v s j, Inv s -> upd (B "data") (put nm v) s.(schema) = Some j ->
    Inv (set_schema j s) /\ R s (set_schema j s).
  Hypothesis H_moveto : forall h to v s j, Inv s ->
    upd (B "__moveto") (put h (JObj [(to, JStr v)])) s.(schema) = Some j ->
    Inv (set_schema j s) /\ R s (set_schema j s).

  Lemma simple_frame : frame env (fun s _ _ => Inv s) (fun _ => R) (fun _ => True).
  Proof.
    assert (HS : forall s s' x, Inv s -> s' = set_indir_store x s -> Inv s' /\ R s s').
    { intros s s' x HI ->. apply H_store. exact HI. }
    constructor; try (intros; exact I); eauto.
    - intros nm v s d c HI. destruct (upd _ _ _) eqn:E; [|exact I]. eapply H_data; eassumption.
    - intros h to v s d c HI. destruct (upd _ _ _) eqn:E; [|exact I]. eapply H_moveto; eassumption.
    - intros s i HI. destruct (create_store s i) as [x E]. destruct (HS _ _ _ HI E) as [A C]. auto.
    - intros f s c _ HI. destruct (upd_indir _ f s) eqn:E; [|exact I]. apply upd_indir_store in E as [x E]. eauto.
    - intros f s d c _ HI. destruct (upd_indir _ f s) eqn:E; [|exact I]. apply upd_indir_store in E as [x E]. eauto.
    - intros s d c s2 i2 HI HR HI2 _. destruct (drop_store s2 i2) as [x E].
      destruct (HS _ _ _ HI2 E) as [A C]. eauto.
    - intros s c s2 i2 HI HR HI2 _. destruct (update_store s2 (indir i2) (own_id c)) as [x E].
      destruct (HS _ _ _ HI2 E) as [A C]. destruct (drop_store (update_indir s2 (indir i2) (own_id c)) i2) as [y E2].
      destruct (HS _ _ _ A E2) as [A2 C2]. eauto.
  Qed.
End Simple.

(** ** The bif budget, the configuration and the log of interactions *)
Definition in_budget (s : Shared) : Prop := (s.(bisf_count) <= s.(cfg).(bisf_max))%N.
Lemma later_refl s : later s s.
Proof. split; [reflexivity|]. split; [lia|]. exists []. reflexivity. Qed.
Lemma later_trans a b c : later a b -> later b c -> later a c.
Proof.
  intros (E1 & L1 & l1 & T1) (E2 & L2 & l2 & T2). split; [congruence|]. split; [lia|].
  exists (l2 ++ l1). rewrite T2, T1, app_assoc. reflexivity.
Qed.
Lemma later_same s s' : s'.(cfg) = s.(cfg) -> s'.(bisf_count) = s.(bisf_count) -> s'.(strace) = s.(strace) -> later s s'.
Proof. intros E1 E2 E3. split; [exact E1|]. split; [lia|]. exists []. exact E3. Qed.
Lemma later_benign f s : benign f -> later s (f s) /\ bisf_count (f s) = bisf_count s.
Proof.
  destruct 1; (split; [|reflexivity]); try (apply later_same; reflexivity).
  split; [reflexivity|]. split; [cbn; lia|]. exists [e]. reflexivity.
Qed.
Lemma later_count s : later s (set_bisf_count (bisf_count s + 1) s).
Proof. split; [reflexivity|]. split; [cbn; lia|]. exists []. reflexivity. Qed.

Lemma budget_frame env : frame env (fun s _ _ => in_budget s) (fun _ => later) (fun _ => True).
Proof.
  apply simple_frame; unfold in_budget.
  - apply later_refl.
  - apply later_trans.
  - intros s s' (E & L & _). auto.
  - intros f s Hf HI. destruct (later_benign f s Hf) as [L E]. split; [|exact L]. rewrite E. destruct L as [-> _]. exact HI.
  - intros x s HI. split; [exact HI|apply later_same; reflexivity].
  - intros s H _. split; [exact H|apply later_count].
  - intros l s HI. split; [exact HI|apply later_same; reflexivity].
  - intros nm v s j HI _. split; [exact HI|apply later_same; reflexivity].
  - intros h to v s j HI _. split; [exact HI|apply later_same; reflexivity].
Qed.

(** ** The schema outside data, __moveto and __error *)
Definition same_rest (a b : json) : Prop := forall k, ~ In k template_keys -> vget k b = vget k a.
Definition objects (s : Shared) : Prop := is_obj s.(schema) /\ is_obj (idx s.(schema) (B "data")).

Lemma modify_at_other k f j k' : k' <> k -> vget k' (modify_at k f j) = vget k' j.
Proof.
  intro N. destruct j as [| | | | |m]; try reflexivity. destruct (modify_at_obj k f m) as (m' & -> & _ & H).
  cbn [vget]. rewrite H. rewrite (proj2 (beq_neq k' k) N). reflexivity.
Qed.
Lemma modify_at_is_obj k f j : is_obj j -> is_obj (modify_at k f j).
Proof. intros [m ->]. destruct (modify_at_obj k f m) as (m' & -> & _). exists m'. reflexivity. Qed.

Lemma upd_other k f j j' k' : upd k f j = Some j' -> k' <> k -> vget k' j' = vget k' j.
Proof. intros H N. apply upd_some in H as (m & -> & _ & _ & H & _). cbn [vget]. apply H. exact N. Qed.
Lemma upd_at k f j j' : upd k f j = Some j' -> is_obj j' /\ f (idx j k) = Some (idx j' k).
Proof. intros H. apply upd_some in H as (m & -> & H & _). split; [exists m; reflexivity|exact H]. Qed.
Lemma idx_other k f j j' k' : upd k f j = Some j' -> k' <> k -> idx j' k' = idx j k'.
Proof. intros H N. unfold idx. rewrite (upd_other _ _ _ _ _ H N). reflexivity. Qed.

Definition keeps_rest (s s' : Shared) : Prop := later s s' /\ same_rest s.(schema) s'.(schema).

Lemma keeps_refl s : keeps_rest s s.
Proof. split; [apply later_refl|]. intros k _. reflexivity. Qed.
Lemma keeps_trans a b c : keeps_rest a b -> keeps_rest b c -> keeps_rest a c.
Proof.
  intros [L1 S1] [L2 S2]. split; [eapply later_trans; eassumption|].
  intros k N. rewrite S2, S1 by exact N. reflexivity.
Qed.
Lemma benign_schema f s : benign f -> schema (f s) = schema s.
Proof. destruct 1; reflexivity. Qed.
Lemma benign_store f s : benign f -> indir_store (f s) = indir_store s.
Proof. destruct 1; reflexivity. Qed.
Lemma benign_has_error f s : benign f -> has_error (f s) = has_error s.
Proof. destruct 1; reflexivity. Qed.

Lemma schema_frame env : frame env (fun s _ _ => objects s) (fun _ => keeps_rest) (fun _ => True).
Proof.
  apply simple_frame; unfold objects.
  - apply keeps_refl.
  - apply keeps_trans.
  - intros s s' [(E & L & _) _]. auto.
  - intros f s Hf HI. destruct (later_benign f s Hf) as [L _]. unfold keeps_rest, same_rest. rewrite (benign_schema f s Hf).
    auto.
  - intros x s HI. split; [exact HI|]. split; [apply later_same; reflexivity|intros k _; reflexivity].
  - intros s H HI. split; [exact HI|]. split; [apply later_count|intros k _; reflexivity].
  - intros l s [HO HD]. cbn [push_error schema set_has_error set_schema]. split.
    + split; [apply modify_at_is_obj; exact HO|]. unfold idx. rewrite modify_at_other by discriminate. exact HD.
    + split; [apply later_same; reflexivity|]. intros k N. apply modify_at_other.
      intros ->. apply N. unfold template_keys. cbn [In]. tauto.
  - intros nm v s j [HO HD] E. cbn [schema set_schema]. destruct (upd_at _ _ _ _ E) as [O D].
    apply upd_at in D as [D _]. split; [auto|]. split; [apply later_same; reflexivity|].
    intros k N. apply (upd_other _ _ _ _ _ E). intros ->. apply N. unfold template_keys. cbn [In]. tauto.
  - intros h to v s j [HO HD] E. cbn [schema set_schema]. destruct (upd_at _ _ _ _ E) as [O _].
    split; [split; [exact O|rewrite (idx_other _ _ _ _ _ E) by discriminate; exact HD]|].
    split; [apply later_same; reflexivity|].
    intros k N. apply (upd_other _ _ _ _ _ E). intros ->. apply N. unfold template_keys. cbn [In]. tauto.
Qed.

(** ** The error list *)
Definition errors_ok (s : Shared) : Prop :=
  exists l, errors_are s.(schema) l /\ Forall one_line_text l /\ (s.(has_error) = true <-> l <> []).
Definition errors_grow (s s' : Shared) : Prop :=
  later s s' /\ forall l, errors_are s.(schema) l -> exists l', errors_are s'.(schema) (l ++ l').

Lemma one_line_is x : one_line_text (one_line x).
Proof.
  unfold one_line_text, one_line. split; intro H; apply in_map_iff in H as (c & H & _);
    destruct (_ || _) eqn:E in H; try discriminate; subst c; vm_compute in E; discriminate.
Qed.

Lemma errors_keep s s' : later s s' -> vget (B "__error") s'.(schema) = vget (B "__error") s.(schema) -> errors_grow s s'.
Proof. intros L E. split; [exact L|]. intros l H. exists []. rewrite app_nil_r. unfold errors_are in *. congruence. Qed.
Lemma errors_ok_keep s s' : vget (B "__error") s'.(schema) = vget (B "__error") s.(schema) ->
  has_error s' = has_error s -> errors_ok s -> errors_ok s'.
Proof.
  intros E1 E2 (l & H1 & H2 & H3). exists l. unfold errors_are in *. rewrite E1, E2. auto.
Qed.

Lemma push_error_list x s l : errors_are s.(schema) l -> errors_are (schema (push_error x s)) (l ++ [x]).
Proof.
  intro H. unfold errors_are, push_error in *. cbn [schema set_has_error set_schema].
  rewrite (modify_at_get _ _ _ _ H). rewrite map_app. reflexivity.
Qed.

Lemma error_frame env : frame env (fun s _ _ => errors_ok s) (fun _ => errors_grow) (fun _ => True).
Proof.
  apply simple_frame.
  - intro s. apply errors_keep; [apply later_refl|reflexivity].
  - intros a b c [L1 G1] [L2 G2]. split; [eapply later_trans; eassumption|]. intros l H.
    destruct (G1 l H) as [l1 H1]. destruct (G2 _ H1) as [l2 H2]. exists (l1 ++ l2). rewrite app_assoc. exact H2.
  - intros s s' [(E & L & _) _]. auto.
  - intros f s Hf HI. destruct (later_benign f s Hf) as [L _]. split.
    + apply (errors_ok_keep s); [rewrite benign_schema by exact Hf; reflexivity|apply benign_has_error; exact Hf|exact HI].
    + apply errors_keep; [exact L|rewrite benign_schema by exact Hf; reflexivity].
  - intros x s HI. split; [exact HI|apply errors_keep; [apply later_same|]; reflexivity].
  - intros s _ HI. split; [exact HI|apply errors_keep; [apply later_count|reflexivity]].
  - intros x s (l & H1 & H2 & H3). split.
    + exists (l ++ [one_line x]). split; [apply push_error_list; exact H1|]. split.
      * apply Forall_app. split; [exact H2|]. constructor; [apply one_line_is|constructor].
      * cbn [push_error has_error set_has_error]. split; [intros _; destruct l; discriminate|reflexivity].
    + split; [apply later_same; reflexivity|]. intros l0 H0. exists [one_line x]. apply push_error_list. exact H0.
  - intros nm v s j HI E.
    assert (vget (B "__error") j = vget (B "__error") (schema s)) as E' by (apply (upd_other _ _ _ _ _ E); discriminate).
    split; [apply (errors_ok_keep s); auto|apply errors_keep; [apply later_same; reflexivity|exact E']].
  - intros h to v s j HI E.
    assert (vget (B "__error") j = vget (B "__error") (schema s)) as E' by (apply (upd_other _ _ _ _ _ E); discriminate).
    split; [apply (errors_ok_keep s); auto|apply errors_keep; [apply later_same; reflexivity|exact E']].
Qed.

(** ** Shapes that exclude the panics caused by the schema *)
Definition local_shape (v : json) : Prop :=
  is_obj v /\ forall k, In k def_sections -> null_or_obj (idx v k).
Definition moveto_entry (kv : bytes * json) : Prop := exists to c, snd kv = JObj [(to, JStr c)].
Definition moveto_shape (j : json) : Prop := exists m, j = JObj m /\ Forall moveto_entry m.
Definition shaped (s : Shared) : Prop :=
  objects s /\ show_error s <> None /\ moveto_shape (idx s.(schema) (B "__moveto")) /\
  forall k v, oget k s.(indir_store) = Some v -> local_shape v.

Lemma oget_oremove k k' m : oget k (oremove k' m) = if beq k k' then None else oget k m.
Proof.
  unfold oremove. induction m as [|[a v] r IH]; cbn [filter fst oget]; [destruct (beq k k'); reflexivity|].
  destruct (beq_spec k' a) as [->|N]; cbn [negb].
  - rewrite IH. destruct (beq k a); reflexivity.
  - cbn [oget]. rewrite IH. destruct (beq_spec k a) as [->|N2]; [|reflexivity].
    rewrite (proj2 (beq_neq a k')) by congruence. reflexivity.
Qed.

Lemma drop_get s i k v : oget k (indir_store (drop_block s i)) = Some v -> oget k (indir_store s) = Some v.
Proof.
  unfold drop_block. destruct (_ && _); [|auto]. cbn [indir_store set_indir_store]. rewrite oget_oremove.
  destruct (beq k _); [discriminate|auto].
Qed.
Lemma create_get s i k v : oget k (indir_store (fst (create_block_schema s i))) = Some v ->
  exists k', oget k' (indir_store s) = Some v.
Proof.
  unfold create_block_schema. cbn [fst]. destruct (beq (indir i) _); [eauto|].
  destruct (oget (indir i) (indir_store s)) as [w|] eqn:E; [|eauto]. cbn [indir_store set_indir_store].
  rewrite oget_oset. destruct (beq k _); [|eauto]. intro H. injection H as <-. eauto.
Qed.
Lemma update_get s a b k v : oget k (indir_store (update_indir s a b)) = Some v ->
  exists k', oget k' (indir_store s) = Some v.
Proof.
  unfold update_indir. destruct (oget a (indir_store s)) as [w|] eqn:E; [|eauto]. cbn [indir_store set_indir_store].
  rewrite oget_oset. destruct (beq k b); [|eauto]. intro H. injection H as <-. eauto.
Qed.

Lemma is_obj_put k v j : null_or_obj j -> exists j', put k v j = Some j' /\ is_obj j'.
Proof.
  intros [->|[m ->]]; eexists; (split; [reflexivity|]); eexists; reflexivity.
Qed.
Lemma upd_obj k f m v : f (idx (JObj m) k) = Some v -> upd k f (JObj m) = Some (JObj (oset k v m)).
Proof.
  intro H. unfold upd. change (match oget k m with Some v => v | None => JNull end) with (idx (JObj m) k).
  rewrite H. reflexivity.
Qed.

Lemma local_upd sec f v x : local_shape v -> f (idx v sec) = Some x -> (In sec def_sections -> is_obj x) ->
  exists v', upd sec f v = Some v' /\ local_shape v'.
Proof.
  intros [[m ->] HS] Hf Hx. exists (JObj (oset sec x m)). split; [apply upd_obj; exact Hf|].
  split; [eexists; reflexivity|]. intros k Hk. rewrite idx_oset. destruct (beq_spec k sec) as [->|N].
  - right. apply Hx. exact Hk.
  - apply HS. exact Hk.
Qed.

Lemma local_shape_empty : local_shape (JObj []).
Proof. split; [eexists; reflexivity|]. intros k _. left. reflexivity. Qed.

Lemma shaped_upd d sec f s : shaped s ->
  (forall j, (In sec def_sections -> null_or_obj j) -> exists x, f j = Some x /\ (In sec def_sections -> is_obj x)) ->
  exists s', upd_indir d (upd sec f) s = Some s' /\ shaped s' /\ later s s'.
Proof.
  intros (HO & HE & HM & HS) Hf. unfold upd_indir.
  set (v := match oget d (indir_store s) with Some v => v | None => JObj [] end).
  assert (local_shape v) as Hv.
  { unfold v. destruct (oget d (indir_store s)) as [w|] eqn:E; [apply (HS _ _ E)|apply local_shape_empty]. }
  destruct (Hf (idx v sec)) as (x & Ex & Hx); [apply Hv|].
  destruct (local_upd sec f v x Hv Ex Hx) as (v' & E' & Hv'). rewrite E'.
  eexists. split; [reflexivity|]. split; [|apply later_same; reflexivity].
  split; [exact HO|]. split; [exact HE|]. split; [exact HM|]. cbn [indir_store set_indir_store].
  intros k w. rewrite oget_oset. destruct (beq k d); [|apply HS]. intro H. injection H as <-. exact Hv'.
Qed.

Lemma moveto_entry_oset h to c m : Forall moveto_entry m -> Forall moveto_entry (oset h (JObj [(to, JStr c)]) m).
Proof.
  induction 1 as [|[k v] r H Hr IH]; cbn [oset].
  - constructor; [exists to, c; reflexivity|constructor].
  - destruct (beq h k); (constructor; [|assumption]); [exists to, c; reflexivity|exact H].
Qed.

Lemma show_top s s' : vget (B "config") s'.(schema) = vget (B "config") s.(schema) -> show_error s' = show_error s.
Proof. intro E. unfold show_error, idx at 3 6. rewrite E. reflexivity. Qed.

Lemma shape_frame env : frame env (fun s _ _ => shaped s) (fun _ => later) (allowed_panic env).
Proof.
  constructor; try exact I; try (intros; exact I).
  - intros _. apply later_refl.
  - intros _. apply later_trans.
  - intros _ s s'. auto.
  - intros _ s s' (E & L & _). auto.
  - intros f s d c Hf HI. destruct (later_benign f s Hf) as [L _]. split; [|exact L].
    unfold shaped, objects, show_error in *. rewrite (benign_schema f s Hf), (benign_store f s Hf). exact HI.
  - intros s d c _ _ HI. split; [exact HI|apply later_count].
  - intros l s d c (HO & HE & HM & HS). split; [|apply later_same; reflexivity].
    pose proof (schema_frame env) as F. destruct (f_H_error _ _ _ _ F l s d c HO) as [HO' _].
    split; [exact HO'|]. cbn [push_error schema set_has_error set_schema indir_store].
    split; [|split; [|exact HS]].
    + rewrite (show_top s); [exact HE|]. apply modify_at_other. discriminate.
    + unfold idx. rewrite modify_at_other by discriminate. exact HM.
  - intros nm v s d c (HO & HE & HM & HS). destruct HO as [[m Em] [dm Ed]].
    assert (exists j, upd (B "data") (put nm v) (schema s) = Some j) as [j E].
    { rewrite Em in *. destruct (is_obj_put nm v (idx (JObj m) (B "data"))) as (x & Ex & _); [right; exists dm; exact Ed|].
      eexists. apply upd_obj. exact Ex. }
    rewrite E. split; [|apply later_same; reflexivity]. cbn [schema set_schema].
    pose proof (upd_at _ _ _ _ E) as [O D]. apply upd_at in D as [D _].
    split; [split; [exact O|exact D]|]. split; [|split; [|exact HS]].
    + rewrite (show_top s); [exact HE|]. apply (upd_other _ _ _ _ _ E). discriminate.
    + cbn [schema set_schema]. rewrite (idx_other _ _ _ _ _ E) by discriminate. exact HM.
  - intros h to v s d c (HO & HE & (mm & Emm & HM) & HS). destruct HO as [[m Em] [dm Ed]].
    assert (exists j, upd (B "__moveto") (put h (JObj [(to, JStr v)])) (schema s) = Some j) as [j E].
    { rewrite Em in *. eexists. apply upd_obj. rewrite Emm. reflexivity. }
    rewrite E. split; [|apply later_same; reflexivity].
    pose proof (upd_at _ _ _ _ E) as [O D]. rewrite Emm in D.
    split; [split; [exact O|]|]; [|split; [|split; [|exact HS]]].
    + cbn [schema set_schema]. rewrite (idx_other _ _ _ _ _ E) by discriminate. exists dm. exact Ed.
    + rewrite (show_top s); [exact HE|]. apply (upd_other _ _ _ _ _ E). discriminate.
    + cbn [schema set_schema]. exists (oset h (JObj [(to, JStr v)]) mm).
      split; [|apply moveto_entry_oset; exact HM]. rewrite put_obj in D. congruence.
  - intros s i (HO & HE & HM & HS). destruct (create_store s i) as [x E].
    assert (shaped (fst (create_block_schema s i))) as H.
    { assert (forall k v, oget k (indir_store (fst (create_block_schema s i))) = Some v -> local_shape v) as HS'.
      { intros k v H. apply create_get in H as [k' H]. apply (HS _ _ H). }
      rewrite E in *. split; [exact HO|]. split; [exact HE|]. split; [exact HM|exact HS']. }
    split; [exact H|]. split; [exact H|]. rewrite E. apply later_same; reflexivity.
  - intros f s c Hf HI.
    assert (exists s', upd_indir (own_id c) f s = Some s' /\ shaped s' /\ later s s') as (s' & -> & H); [|exact H].
    destruct Hf; apply shaped_upd; try exact HI; intros j Hj.
    + destruct (is_obj_put k (JStr v) j) as (x & Ex & Ox); [apply Hj; cbn; tauto|]. eauto.
    + destruct (is_obj_put k (JStr v) j) as (x & Ex & Ox); [apply Hj; cbn; tauto|]. eauto.
    + eexists. split; [reflexivity|]. intros [E|[E|[E|[E|[]]]]]; discriminate.
    + eexists. split; [reflexivity|]. intros [E|[E|[E|[E|[]]]]]; discriminate.
  - intros f s d c Hf HI.
    assert (exists s', upd_indir d f s = Some s' /\ shaped s' /\ later s s') as (s' & -> & H); [|exact H].
    destruct Hf; apply shaped_upd; try exact HI; intros j Hj.
    + destruct (is_obj_put k (JStr v) j) as (x & Ex & Ox); [apply Hj; cbn; tauto|]. eauto.
    + destruct (is_obj_put k (JStr v) j) as (x & Ex & Ox); [apply Hj; cbn; tauto|]. eauto.
  - auto.
  - intros s d c s2 i2 _ HR (HO & HE & HM & HS) _. destruct (drop_store s2 i2) as [x E].
    assert (forall k v, oget k (indir_store (drop_block s2 i2)) = Some v -> local_shape v) as HS'.
    { intros k v H. apply drop_get in H. apply (HS _ _ H). }
    rewrite E in *. split; [split; [exact HO|split; [exact HE|split; [exact HM|exact HS']]]|].
    eapply later_trans; [exact HR|]. apply later_same; reflexivity.
  - intros s c s2 i2 _ HR (HO & HE & HM & HS) _.
    destruct (update_store s2 (indir i2) (own_id c)) as [x E].
    destruct (drop_store (update_indir s2 (indir i2) (own_id c)) i2) as [y E2].
    assert (forall k v, oget k (indir_store (drop_block (update_indir s2 (indir i2) (own_id c)) i2)) = Some v -> local_shape v) as HS'.
    { intros k v H. apply drop_get in H. apply update_get in H as [k' H]. apply (HS _ _ H). }
    rewrite E2, E in *. split; [split; [exact HO|split; [exact HE|split; [exact HM|exact HS']]]|].
    eapply later_trans; [exact HR|]. apply later_same; reflexivity.
  - intros s d c (_ & HE & _) N. contradiction.
  - auto.
Qed.

Lemma moveto_shape_registered j : moveto_shape j -> exists l, registered j l.
Proof.
  intros (m & -> & H).
  assert (exists l, Forall2 (fun (kv : bytes * json) (e : bytes * bytes) => snd kv = JObj [(fst e, JStr (snd e))]) m l) as [l Hl].
  { induction H as [|kv r (to & c & E) _ [l IH]]; [exists []; constructor|]. exists ((to, c) :: l). constructor; assumption. }
  exists l. constructor. exact Hl.
Qed.
