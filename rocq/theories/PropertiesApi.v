(** * Property theorems: the settings of a render (C101), histories of API calls (C102) *)

From Verif Require Import Bytes Json Utils ConstantsGen State Engine Template Spec SpecEngine SpecApi BytesFacts
  BlockProofs NumberProofs WordProofs TextProofs MergeProofs TemplateProofs FrameProofs FrameRun EngineFrames HandlerProofs
  EvalProofs Samples PropertiesText PropertiesTemplate PropertiesEngine PropertiesMore PropertiesArgs.

(** ** C101 *)

Lemma setting_idx sc nm v : v <> JNull -> idx (idx sc (B "config")) (B nm) = v <-> setting sc nm = Some v.
Proof.
  intro N. unfold setting. cbn [at_path]. unfold idx, vget. destruct sc as [| | | | |m]; try (split; congruence).
  destruct (oget (B "config") m) as [c|]; [|split; congruence].
  destruct c as [| | | | |mc]; try (split; congruence). destruct (oget (B nm) mc); split; congruence.
Qed.

Lemma limit_some sc nm : (exists n, as_u64 (idx (idx sc (B "config")) (B nm)) = Some n) <-> exists n, number_is sc nm n.
Proof.
  unfold number_is. split; intros [n H]; exists n.
  - apply setting_idx; [discriminate|]. destruct (idx (idx sc (B "config")) (B nm)) as [| |[]| | |]; try discriminate. cbn in H. congruence.
  - apply setting_idx in H; [|discriminate]. rewrite H. reflexivity.
Qed.

Lemma new_some env w sc : limits_set sc <-> exists s, shared_new env w sc = Some s.
Proof.
  unfold limits_set. rewrite <- !limit_some. unfold shared_new.
  split.
  - intros [[n ->] [k ->]]. eexists. reflexivity.
  - intros [s H]. destruct (as_u64 _) as [n|]; [|discriminate]. destruct (as_u64 _) as [k|]; [|discriminate].
    split; eexists; reflexivity.
Qed.

(** Without the two limits a render of a template with a bif aborts, whatever the template, and
    the missing limits are the only reason for this abort. *)
Theorem C101_limits : forall env fuel t, occurs (B "{:") t.(t_raw) ->
  (~ limits_set t.(t_schema) -> render env fuel t = TPanic PConfig /\ render_once env fuel t = TPanic PConfig) /\
  (init_render env t = IPanic PConfig -> ~ limits_set t.(t_schema)).
Proof.
  intros env fuel t HO.
  assert (~ limits_set (t_schema t) -> init_render env t = IPanic PConfig) as HI.
  { intro H. rewrite (new_some env (strace (t_shared t))) in H. unfold init_render.
    destruct (shared_new _ _ _) as [s|]; [exfalso; apply H; eauto|reflexivity]. }
  split.
  - intro H. assert (render env fuel t = TPanic PConfig) as HR.
    { unfold render. apply contains_iff in HO. change (B "{:") with BIF_OPEN in HO. rewrite HO. cbn [negb]. now rewrite (HI H). }
    split; [exact HR|]. rewrite render_once_render by exact HO. now rewrite HR.
  - intros H L. apply (proj1 (new_some env (strace (t_shared t)) _)) in L as [s L]. unfold init_render in H. rewrite L in H.
    destruct (if contains _ _ then _ else _); [|congruence]. destruct (create_block_schema _ _).
    destruct (put _ _ _); [|congruence]. destruct (put _ _ _); [|congruence]. destruct (filter_context _); [|congruence].
    destruct (is_empty _); [congruence|]. destruct (e_parent _ _); congruence.
Qed.
Print Assumptions C101_limits.

Lemma plain_setting nm : B nm <> [] -> contains (B "->") (B nm) = false -> contains (B "/") (B nm) = false -> name_path (B nm) [B nm].
Proof.
  intros H1 H2 H3. apply np_plain; [exact H1|intro H; apply contains_iff in H; congruence|intro H; apply contains_iff in H; congruence].
Qed.

Lemma reaches_one k m v : reaches [k] (JObj m) v <-> oget k m = Some v.
Proof.
  split.
  - intro H. inversion H as [|? ? ? ? ? HS HR]; subst. inversion HR; subst. inversion HS; subst. assumption.
  - intro H. econstructor; [apply steps_key; exact H|constructor].
Qed.

Lemma text_setting m nm : name_path (B nm) [B nm] -> B nm <> [] ->
  text_is (oget (B nm) m) (get_from_key (JObj m) (B nm)).
Proof.
  intros HP HN. unfold get_from_key, text_is.
  destruct (oget (B nm) m) as [v|] eqn:E.
  - assert (resolve_pointer (JObj m) (B nm) = Some v) as -> by (apply (resolve_name m _ _ v HN HP), reaches_one; exact E).
    destruct v as [|b|n|s|l|o]; try reflexivity. destruct n; [apply dec_N_plain|apply dec_Z_plain|reflexivity].
  - destruct (resolve_pointer (JObj m) (B nm)) as [v|] eqn:E2; [|reflexivity].
    apply (resolve_name m _ _ v HN HP) in E2. apply (proj1 (reaches_one _ _ _)) in E2. congruence.
Qed.

Lemma switch_setting m nm sc : name_path (B nm) [B nm] -> B nm <> [] -> vget (B "config") sc = Some (JObj m) ->
  switch_is sc nm (is_bool_key (JObj m) (B nm)).
Proof.
  intros HP HN HC. unfold switch_is, switched_on, setting. rewrite (bool_spec m _ _ HN HP).
  split; intros (v & H & T); exists v; (split; [|exact T]).
  - apply (proj1 (reaches_one _ _ _)) in H. rewrite at_path_cons, HC. cbn [at_path]. now rewrite H.
  - apply reaches_one. rewrite at_path_cons, HC in H. cbn [at_path] in H. destruct (oget (B nm) m); congruence.
Qed.

Lemma setting_in m nm sc : vget (B "config") sc = Some (JObj m) -> setting sc nm = oget (B nm) m.
Proof. intro H. unfold setting. rewrite at_path_cons, H. cbn [at_path]. destruct (oget (B nm) m); reflexivity. Qed.

(** Everything a render works with is what the schema says, from its start to its end. *)
Theorem C101_settings : forall env fuel t o t', occurs (B "{:") t.(t_raw) -> render env fuel t = TOk o t' ->
  configured env t.(t_schema) t'.(t_shared).(cfg).
Proof.
  intros env fuel t o t' HO HR.
  apply render_inv in HR as (raw & s & i & o1 & s1 & i1 & o2 & s2 & HI & HP & HC & _ & ->); [|exact HO]. cbn [t_shared].
  assert (cfg s2 = cfg s) as ->.
  { pose proof (top_parse_ok env _ _ _ (trivial_frame env) s i raw [] I) as G. rewrite HP in G. destruct G as [_ G1].
    pose proof (cache_rounds_ok env _ _ _ (trivial_frame env) i fuel s1 o1 I) as G2. rewrite HC in G2. destruct G2 as [_ G2].
    transitivity (cfg s1); [apply G2|apply G1]. }
  apply init_facts in HI. destruct (in_new _ _ _ _ _ HI) as (s0 & E0 & ->). clear HI HP HC.
  cbn [cfg set_schema set_indir_store]. set (sc := t_schema t) in *. unfold shared_new in E0.
  destruct (as_u64 (idx (idx sc (B "config")) (B "infinite_loop_max_bifs"))) as [mx|] eqn:E1; [|discriminate].
  destruct (as_u64 (idx (idx sc (B "config")) (B "debug_expire"))) as [dx|] eqn:E2; [|discriminate].
  assert (forall x y : Shared, Some x = Some y -> x = y) as INJ by congruence. apply INJ in E0. clear INJ.
  assert (exists m, vget (B "config") sc = Some (JObj m)) as [m HM].
  { unfold idx at 2 in E1. destruct (vget (B "config") sc) as [[| | | | |m]|]; try discriminate. exists m. reflexivity. }
  assert (idx sc (B "config") = JObj m) as EI by (unfold idx; now rewrite HM).
  rewrite EI in *. rewrite <- E0. cbn [cfg]. clear E0 s0.
  assert (forall nm n, as_u64 (idx (JObj m) (B nm)) = Some n -> number_is sc nm n) as HN.
  { intros nm n H. unfold number_is. apply setting_idx; [discriminate|]. rewrite EI.
    destruct (idx (JObj m) (B nm)) as [| |[]| | |]; try discriminate. cbn in H. congruence. }
  assert (text_is (at_path [B "inherit"; B "locale"; B "current"] sc) (get_from_key (idx (idx sc (B "inherit")) (B "locale")) (B "current"))) as HL.
  { rewrite !at_path_cons. unfold idx. destruct (vget (B "inherit") sc) as [v|]; [|reflexivity].
    rewrite at_path_cons. destruct (vget (B "locale") v) as [w|]; [|reflexivity]. rewrite at_path_cons.
    destruct w as [| | | | |mw]; try reflexivity.
    pose proof (text_setting mw "current" (plain_setting "current" ltac:(discriminate) eq_refl eq_refl) ltac:(discriminate)) as H.
    cbn [vget]. destruct (oget (B "current") mw) as [x|]; exact H. }
  assert (forall nm, B nm <> [] -> contains (B "->") (B nm) = false -> contains (B "/") (B nm) = false ->
    text_is (setting sc nm) (get_from_key (JObj m) (B nm))) as HT.
  { intros nm H1 H2 H3. rewrite (setting_in m nm sc HM). apply text_setting; [apply plain_setting; assumption|exact H1]. }
  assert (forall nm, B nm <> [] -> contains (B "->") (B nm) = false -> contains (B "/") (B nm) = false ->
    switch_is sc nm (is_bool_key (JObj m) (B nm))) as HB.
  { intros nm H1 H2 H3. apply switch_setting; [apply plain_setting; assumption|exact H1|exact HM]. }
  constructor; cbn [lang comments bisf_max filter_all filter_bifs cache_prefix cache_dir cache_on_post cache_on_get
    cache_on_cookies cache_disable disable_js debug_expire debug_file working_dir].
  - exact HL.
  - exact (HT "comments"%string ltac:(discriminate) eq_refl eq_refl).
  - apply HN. exact E1.
  - exact (HB "filter_all"%string ltac:(discriminate) eq_refl eq_refl).
  - exact (HT "cache_prefix"%string ltac:(discriminate) eq_refl eq_refl).
  - exists (get_from_key (JObj m) (B "cache_dir")). split; [exact (HT "cache_dir"%string ltac:(discriminate) eq_refl eq_refl)|].
    destruct (get_from_key (JObj m) (B "cache_dir")); cbn [is_empty]; split; congruence.
  - exact (HB "cache_on_post"%string ltac:(discriminate) eq_refl eq_refl).
  - exact (HB "cache_on_get"%string ltac:(discriminate) eq_refl eq_refl).
  - exact (HB "cache_on_cookies"%string ltac:(discriminate) eq_refl eq_refl).
  - exact (HB "cache_disable"%string ltac:(discriminate) eq_refl eq_refl).
  - pose proof (HB "cache_disable"%string ltac:(discriminate) eq_refl eq_refl) as H. unfold switch_is in H. rewrite <- H.
    destruct (is_bool_key (JObj m) (B "cache_disable")); cbn [negb]; split; congruence.
  - exact (HB "disable_js"%string ltac:(discriminate) eq_refl eq_refl).
  - apply HN. exact E2.
  - exact (HT "debug_file"%string ltac:(discriminate) eq_refl eq_refl).
  - reflexivity.
Qed.
Print Assumptions C101_settings.

(** config.error.show has to be true or false: otherwise the first bif that fails aborts the
    rendering instead of being reported; here, a bif that does not exist and one without ";". *)
Theorem C101_show : forall env s i mods nm body, ~ can_report s -> may_start s ->
  (~ In nm (map fst refused) -> Forall modifier mods -> plain_name nm -> forall only, selected only i mods nm ->
     eval_bif env s i (bif_text mods nm body) only = BPanic PShow) /\
  (~ occurs (B ";") body -> eval_bif env s i (B "{:" ++ body ++ B ":}") [] = BPanic PShow).
Proof.
  intros env s i mods nm body HC HS.
  assert (forall x : Shared, schema x = schema s -> show_error x = None) as HN.
  { intros x E. unfold show_error. rewrite E. destruct (idx _ (B "show")) eqn:E1; try reflexivity. exfalso. apply HC. eexists. exact E1. }
  split.
  - intros HI HM HP only HO. rewrite eval_bif_text by assumption.
    rewrite C54_table_is_complete by exact HI. unfold bif_unknown, entry. rewrite bind_modB. unfold bif_result, err. cbn [sh].
    rewrite HN by reflexivity. reflexivity.
  - intro HD. unfold eval_bif, bif_run. unfold may_start in HS.
    assert ((bisf_max (cfg s) <? bisf_count s + 1)%N = false) as -> by (apply N.ltb_ge; exact HS).
    unfold bif_parse, strip_prefix_suffix.
    assert (strip_prefix BIF_OPEN (B "{:" ++ body ++ B ":}") = Some (body ++ B ":}")) as -> by (apply strip_prefix_some; reflexivity).
    assert (strip_suffix BIF_CLOSE (body ++ B ":}") = Some body) as -> by (apply strip_suffix_some; reflexivity).
    unfold split_once. destruct (find (B ";") body) as [n|] eqn:E.
    { exfalso. apply HD. apply find_some in E as [E _]. eapply occurs_at_occurs. exact E. }
    cbn [is_empty negb]. rewrite HN by reflexivity. reflexivity.
Qed.
Print Assumptions C101_show.

Definition with_config (l : obj) (src : string) : Template :=
  set_src_str (B src) (tset_schema (match update_schema DEFAULT_SCHEMA (JObj [(B "config", JObj l)]) with Some j => j | None => JNull end) t0).
Example C101_example :
  limits_set DEFAULT_SCHEMA /\
  ~ limits_set (t_schema (with_config [(B "debug_expire", JStr (B "60"))] "")) /\
  ~ limits_set (t_schema (with_config [(B "infinite_loop_max_bifs", JNum (NNeg 1))] "")) /\
  (exists o t, render env0 1 (with_config [(B "cache_on_get", JStr (B "yes")); (B "cache_dir", JNum (NPos 7))] "{:code; a :}") = TOk o t /\
     o = B "a" /\ cache_on_get (cfg (t_shared t)) = true /\ cache_dir (cfg (t_shared t)) = B "7") /\
  render env0 1 (with_config [(B "error", JObj [(B "show", JStr (B "yes"))])] "{:nosuch; a :}") = TPanic PShow.
Proof.
  split; [split; eexists; vm_compute; reflexivity|].
  split; [intros [_ [n H]]; vm_compute in H; discriminate|].
  split; [intros [[n H] _]; vm_compute in H; discriminate|].
  split; [do 2 eexists; split; [vm_compute; reflexivity|vm_compute; auto]|vm_compute; reflexivity].
Qed.

(** ** C102 *)

(** what the caller gets back: nothing, an error, or a text *)
Inductive returned := Unit | Error (e : bytes) | Text (o : bytes).
Definition as_returned (r : TRes (option bytes)) : TRes returned :=
  match r with
  | TOk None t => TOk Unit t
  | TOk (Some e) t => TOk (Error e) t
  | TPanic p => TPanic p
  | TLoop => TLoop
  end.
Definition as_text (r : TRes bytes) : TRes returned :=
  match r with TOk o t => TOk (Text o) t | TPanic p => TPanic p | TLoop => TLoop end.
(** the calls of the API *)
Definition perform (env : Env) (dec : bytes -> json + bytes) (c : call) (t : Template) : TRes returned :=
  match c with
  | SetSource x => TOk Unit (set_src_str x t)
  | SetPath p => as_returned (set_src_path env p t)
  | MergeValue j => match merge_schema_value j t with TOk _ t => TOk Unit t | TPanic p => TPanic p | TLoop => TLoop end
  | MergeText x => as_returned (merge_schema_str env x t)
  | MergeFile p => as_returned (merge_schema_path env p t)
  | MergePack x => as_returned (merge_schema_msgpack dec x t)
  | MergePackFile p => as_returned (merge_schema_msgpack_path env dec p t)
  | Render false n => as_text (render env n t)
  | Render true n => as_text (render_once env n t)
  end.
Definition result_of (o : outcome) : returned :=
  match o with
  | Rendered _ o => Text o
  | _ => match error_of o with Some e => Error e | None => Unit end
  end.

Lemma merge_value j t : merge_schema_value j t =
  match update_schema t.(t_schema) j with Some sc => TOk tt (tset_schema sc t) | None => TPanic PVersion end.
Proof. unfold merge_schema_value. rewrite C13_update_functions_agree. reflexivity. Qed.

Lemma merge_new j t t' u : merge_schema_value j t = TOk u t' -> exists sc, update_schema t.(t_schema) j = Some sc /\ t' = tset_schema sc t.
Proof. rewrite merge_value. destruct (update_schema _ _) as [sc|]; [|discriminate]. intro H. exists sc. split; congruence. Qed.

(** Every call that returns comes to one of the listed outcomes, returns what it says and leaves
    the template in the state it says. *)
Theorem C102_call : forall env dec c t r t', perform env dec c t = TOk r t' ->
  exists o, comes_to env dec t.(t_shared).(strace) c o /\ r = result_of o /\
    forall l, state_after l t.(t_raw) t.(t_path) t.(t_schema) -> state_after (o :: l) t'.(t_raw) t'.(t_path) t'.(t_schema).
Proof.
  intros env dec c t r t'. destruct c as [x|p|j|x|p|x|p|once n]; cbn [perform].
  - intro H. assert (r = Unit /\ t' = set_src_str x t) as [-> ->] by (split; congruence). exists (NewSource x).
    split; [constructor|]. split; [reflexivity|]. intros l HL. cbn. econstructor. exact HL.
  - unfold set_src_path, read_file. cbn [t_shared tset_path]. destruct (e_read env (strace (t_shared t)) p) as [x|] eqn:E; cbn [as_returned].
    + intro H. injection H as <- <-. exists (NewFile p x). split; [constructor; exact E|]. split; [reflexivity|].
      intros l HL. cbn. econstructor. exact HL.
    + intro H. injection H as <- <-. eexists (NoFile p _). split; [constructor; exact E|]. split; [reflexivity|].
      intros l HL. cbn. econstructor. exact HL.
  - destruct (merge_schema_value j t) as [u t1|q|] eqn:E; try discriminate. intro H. injection H as <- <-.
    apply merge_new in E as (sc & E & ->). exists (Merge j). split; [constructor|]. split; [reflexivity|].
    intros l HL. cbn. econstructor; [exact HL|exact E].
  - unfold merge_schema_str. destruct (e_from_str env x) as [j|e] eqn:E; cbn [as_returned].
    + destruct (merge_schema_value j t) as [u t1|q|] eqn:E1; try discriminate. intro H. injection H as <- <-.
      apply merge_new in E1 as (sc & E1 & ->). exists (Merge j). split; [constructor; exact E|]. split; [reflexivity|].
      intros l HL. cbn. econstructor; [exact HL|exact E1].
    + intro H. injection H as <- <-. exists (Nothing (B "Is not a valid JSON string")). split; [econstructor; exact E|]. split; [reflexivity|].
      intros l HL. econstructor. exact HL.
  - unfold merge_schema_path, read_file. destruct (e_read env (strace (t_shared t)) p) as [x|] eqn:E0; cbn [as_returned].
    + destruct (e_from_str env x) as [j|e] eqn:E; cbn [as_returned].
      * destruct (merge_schema_value j _) as [u t1|q|] eqn:E1; try discriminate. intro H. injection H as <- <-.
        apply merge_new in E1 as (sc & E1 & ->). exists (Merge j). split; [econstructor; [exact E0|exact E]|]. split; [reflexivity|].
        intros l HL. cbn. econstructor; [exact HL|exact E1].
      * intro H. injection H as <- <-. exists (Nothing (B "Is not a valid JSON file")). split; [econstructor; [exact E0|exact E]|]. split; [reflexivity|].
        intros l HL. econstructor. exact HL.
    + intro H. injection H as <- <-. eexists (Nothing _). split; [apply ct_no_file; exact E0|]. split; [reflexivity|].
      intros l HL. econstructor. exact HL.
  - unfold merge_schema_msgpack. destruct (dec x) as [j|e] eqn:E; cbn [as_returned].
    + destruct (merge_schema_value j t) as [u t1|q|] eqn:E1; try discriminate. intro H. injection H as <- <-.
      apply merge_new in E1 as (sc & E1 & ->). exists (Merge j). split; [constructor; exact E|]. split; [reflexivity|].
      intros l HL. cbn. econstructor; [exact HL|exact E1].
    + intro H. apply (f_equal (fun x => match x with TOk a b => Some (a, b) | _ => None end)) in H.
      assert (r = Error (B "Is not a valid MessagePack data: " ++ e) /\ t' = t) as [-> ->] by (split; congruence).
      exists (Nothing (B "Is not a valid MessagePack data: " ++ e)). split; [econstructor; exact E|]. split; [reflexivity|].
      intros l HL. econstructor. exact HL.
  - unfold merge_schema_msgpack_path, read_file. destruct (e_read env (strace (t_shared t)) p) as [x|] eqn:E0.
    + unfold merge_schema_msgpack. destruct (dec x) as [j|e] eqn:E; cbn [as_returned].
      * destruct (merge_schema_value j _) as [u t1|q|] eqn:E1; try discriminate. intro H. injection H as <- <-.
        apply merge_new in E1 as (sc & E1 & ->). exists (Merge j). split; [econstructor; [exact E0|exact E]|]. split; [reflexivity|].
        intros l HL. cbn. econstructor; [exact HL|exact E1].
      * intro H. apply (f_equal (fun x => match x with TOk a b => Some (a, b) | _ => None end)) in H.
        match type of H with Some (_, ?x) = _ =>
          assert (r = Error (B "Is not a valid MessagePack data: " ++ e) /\ t' = x) as [-> ->] by (split; congruence) end.
        exists (Nothing (B "Is not a valid MessagePack data: " ++ e)). split; [econstructor; [exact E0|exact E]|]. split; [reflexivity|].
        intros l HL. econstructor. exact HL.
    + cbn [as_returned]. intro H. injection H as <- <-. eexists (Nothing _). split; [apply ct_no_packs; exact E0|]. split; [reflexivity|].
      intros l HL. econstructor. exact HL.
  - intro H.
    assert (exists o, r = Text o /\ (if once then render_once env n t else render env n t) = TOk o t') as (o & -> & H1).
    { destruct once; [destruct (render_once env n t) as [o t1|q|]|destruct (render env n t) as [o t1|q|]]; cbn [as_text] in H;
        try discriminate; exists o; split; congruence. }
    clear H. exists (Rendered once o). split; [constructor|]. split; [reflexivity|]. intros l HL.
    destruct (contains BIF_OPEN (t_raw t)) eqn:C.
    + assert (occurs (B "{:") (t_raw t)) as HO by (apply contains_iff; exact C).
      assert (exists t1, render env n t = TOk o t1 /\ t' = if once then tset_schema JNull t1 else t1) as (t1 & HR & ->).
      { destruct once; [rewrite render_once_render in H1 by exact HO; destruct (render env n t) as [o1 t1|q|]; try discriminate; exists t1; split; congruence|].
        exists t'. split; [exact H1|reflexivity]. }
      apply render_inv in HR as (raw & s & i & o1 & s1 & i1 & o2 & s2 & HI & _ & _ & _ & ->); [|exact HO].
      apply init_facts in HI. pose proof (in_raw _ _ _ _ _ HI) as HW. clear HI H1.
      pose proof (sa_rendered l _ _ _ raw once o HL HO HW) as G. destruct once; exact G.
    + assert (t' = tset_out o t) as ->.
      { destruct once; [unfold render_once in H1|unfold render in H1]; rewrite C in H1; cbn [negb] in H1; congruence. }
      cbn. apply sa_plain; [exact HL|]. intro HO. apply contains_iff in HO. change (B "{:") with BIF_OPEN in HO. congruence.
Qed.
Print Assumptions C102_call.

(** a history of calls on a new template, the last call first *)
Inductive history (env : Env) (dec : bytes -> json + bytes) : list (call * outcome) -> Template -> Prop :=
| hi_new t : template_new env = TOk tt t -> history env dec [] t
| hi_call l t c o t' : history env dec l t -> comes_to env dec t.(t_shared).(strace) c o ->
    perform env dec c t = TOk (result_of o) t' -> history env dec ((c, o) :: l) t'.

Lemma comes_to_det env dec w c o1 o2 : comes_to env dec w c o1 -> comes_to env dec w c o2 -> result_of o1 = result_of o2 -> o1 = o2.
Proof.
  intros H1 H2. inversion H1; subst; inversion H2; subst; cbn; intro E; try congruence.
Qed.

(** Whatever the calls, the template is in the state their outcomes say. *)
Theorem C102_history : forall env dec l t, history env dec l t ->
  state_after (map snd l) t.(t_raw) t.(t_path) t.(t_schema).
Proof.
  intros env dec l t H. induction H as [t E|l t c o t' H IH HC HP].
  - unfold template_new in E. destruct (shared_new _ _ _); [|discriminate]. injection E as <-. constructor.
  - apply C102_call in HP as (o' & HC' & HR & HS). rewrite (comes_to_det _ _ _ _ _ _ HC HC' HR). cbn [map snd]. apply HS. exact IH.
Qed.
Print Assumptions C102_history.

(** The file system is touched only by the calls that name a file, by one read. *)
Theorem C102_reads : forall env dec c t r t', perform env dec c t = TOk r t' ->
  match c with
  | SetPath p | MergeFile p | MergePackFile p =>
      t'.(t_shared).(strace) = EvRead p (env.(e_read) t.(t_shared).(strace) p) :: t.(t_shared).(strace)
  | SetSource _ | MergeValue _ | MergeText _ | MergePack _ => t'.(t_shared) = t.(t_shared)
  | Render _ _ => True
  end.
Proof.
  intros env dec c t r t'. destruct c as [x|p|j|x|p|x|p|once n]; cbn [perform]; try exact (fun _ => I).
  - intro H. assert (t' = set_src_str x t) as -> by congruence. reflexivity.
  - unfold set_src_path, read_file. cbn [t_shared tset_path]. destruct (e_read env _ p) eqn:E; cbn [as_returned]; intro H; injection H as <- <-; reflexivity.
  - destruct (merge_schema_value j t) as [u t1|q|] eqn:E; try discriminate. intro H. injection H as <- <-.
    apply merge_new in E as (sc & _ & ->). reflexivity.
  - unfold merge_schema_str. destruct (e_from_str env x) as [j|e].
    + destruct (merge_schema_value j t) as [u t1|q|] eqn:E; try discriminate. intro H. injection H as <- <-.
      apply merge_new in E as (sc & _ & ->). reflexivity.
    + intro H. injection H as <- <-. reflexivity.
  - unfold merge_schema_path, read_file. destruct (e_read env _ p) as [x|] eqn:E0.
    + destruct (e_from_str env x) as [j|e].
      * destruct (merge_schema_value j _) as [u t1|q|] eqn:E; try discriminate. intro H. injection H as <- <-.
        apply merge_new in E as (sc & _ & ->). reflexivity.
      * intro H. injection H as <- <-. reflexivity.
    + intro H. injection H as <- <-. reflexivity.
  - unfold merge_schema_msgpack. destruct (dec x) as [j|e].
    + destruct (merge_schema_value j t) as [u t1|q|] eqn:E; try discriminate. intro H. injection H as <- <-.
      apply merge_new in E as (sc & _ & ->). reflexivity.
    + intro H. cbn [as_returned] in H. assert (t' = t) as -> by congruence. reflexivity.
  - unfold merge_schema_msgpack_path, read_file. destruct (e_read env _ p) as [x|] eqn:E0.
    + unfold merge_schema_msgpack. destruct (dec x) as [j|e].
      * destruct (merge_schema_value j _) as [u t1|q|] eqn:E; try discriminate. intro H. injection H as <- <-.
        apply merge_new in E as (sc & _ & ->). reflexivity.
      * cbn [as_returned]. intro H. match type of H with TOk _ ?x = _ => assert (t' = x) as -> by congruence end. reflexivity.
    + intro H. injection H as <- <-. reflexivity.
Qed.
Print Assumptions C102_reads.

(** Apart from the renderings, a call aborts only when it merges a value that is neither an
    object nor null, and then always. *)
Theorem C102_abort : forall env dec c t p, (forall once n, c <> Render once n) ->
  perform env dec c t = TPanic p <->
  p = PVersion /\ exists j, comes_to env dec t.(t_shared).(strace) c (Merge j) /\ ~ is_obj j /\ j <> JNull.
Proof.
  assert (forall t j, (exists p, merge_schema_value j t = TPanic p) <-> ~ is_obj j /\ j <> JNull) as HM.
  { intros t j. rewrite merge_value. pose proof (C14_update_fails_only_on_non_objects (t_schema t) j) as H.
    assert (is_obj (merge_schema (t_schema t) j) \/ merge_schema (t_schema t) j = JNull <-> is_obj j \/ j = JNull) as E.
    { destruct j as [| | | | |m]; try (cbn; tauto). assert (is_obj (merge_schema (t_schema t) (JObj m))) as X
        by (destruct (t_schema t); eexists; reflexivity). split; intros _; left; [eexists; reflexivity|exact X]. }
    rewrite E in H. destruct (update_schema (t_schema t) j).
    - split; [intros [p X]; discriminate|]. intros [H1 H2]. exfalso.
      assert (@Some json j0 = None) as X by (apply H; tauto). discriminate.
    - split; [|eauto]. intros _. tauto. }
  assert (forall t j p, merge_schema_value j t = TPanic p -> p = PVersion) as HV.
  { intros t j p. rewrite merge_value. destruct (update_schema _ _); congruence. }
  assert (forall t j p, (match merge_schema_value j t with TOk _ t => TOk Unit t | TPanic p => TPanic p | TLoop => TLoop end = TPanic p)
     <-> merge_schema_value j t = TPanic p) as HW.
  { intros t j p. destruct (merge_schema_value j t); split; congruence. }
  assert (forall t j p, as_returned (match merge_schema_value j t with TOk _ t => TOk None t | TPanic p => TPanic p | TLoop => TLoop end) = TPanic p
     <-> merge_schema_value j t = TPanic p) as HX.
  { intros t j p. destruct (merge_schema_value j t); cbn [as_returned]; split; congruence. }
  assert (forall env dec w c t1 j0 p, comes_to env dec w c (Merge j0) -> (forall j, comes_to env dec w c (Merge j) -> j = j0) ->
    (merge_schema_value j0 t1 = TPanic p <-> p = PVersion /\ exists j, comes_to env dec w c (Merge j) /\ ~ is_obj j /\ j <> JNull)) as HY.
  { intros env dec w c t1 j0 p HC HU. split.
    - intro H. split; [exact (HV _ _ _ H)|]. exists j0. split; [exact HC|]. apply (HM t1). eauto.
    - intros [-> (j & HC1 & HN)]. rewrite (HU _ HC1) in HN. apply (HM t1) in HN as [q HN]. rewrite HN. rewrite (HV _ _ _ HN). reflexivity. }
  assert (forall env dec w c p (X : Prop), ~ X -> (forall j, ~ comes_to env dec w c (Merge j)) ->
    (X <-> p = PVersion /\ exists j, comes_to env dec w c (Merge j) /\ ~ is_obj j /\ j <> JNull)) as HZ.
  { intros env dec w c p X HN HC. split; [tauto|]. intros [_ (j & H & _)]. destruct (HC _ H). }
  intros env dec c t p HR. destruct c as [x|q|j|x|q|x|q|once n]; cbn [perform].
  - apply HZ; [discriminate|]. intros j H. inversion H.
  - apply HZ; [|intros j H; inversion H]. unfold set_src_path, read_file. destruct (e_read _ _ _); cbn; discriminate.
  - rewrite HW. apply HY; [constructor|]. intros k H. inversion H. reflexivity.
  - unfold merge_schema_str. destruct (e_from_str env x) as [j|e] eqn:E.
    + rewrite HX. apply HY; [constructor; exact E|]. intros k H. inversion H. congruence.
    + apply HZ; [discriminate|]. intros k H. inversion H. congruence.
  - unfold merge_schema_path, read_file. destruct (e_read env (strace (t_shared t)) q) as [x|] eqn:E0.
    + destruct (e_from_str env x) as [j|e] eqn:E.
      * rewrite HX. apply HY; [econstructor; eassumption|]. intros k H. inversion H. congruence.
      * apply HZ; [discriminate|]. intros k H. inversion H. congruence.
    + apply HZ; [discriminate|]. intros k H. inversion H. congruence.
  - unfold merge_schema_msgpack. destruct (dec x) as [j|e] eqn:E.
    + rewrite HX. apply HY; [constructor; exact E|]. intros k H. inversion H. congruence.
    + apply HZ; [discriminate|]. intros k H. inversion H. congruence.
  - unfold merge_schema_msgpack_path, read_file. destruct (e_read env (strace (t_shared t)) q) as [x|] eqn:E0.
    + unfold merge_schema_msgpack. destruct (dec x) as [j|e] eqn:E.
      * rewrite HX. apply HY; [econstructor; eassumption|]. intros k H. inversion H. congruence.
      * apply HZ; [discriminate|]. intros k H. inversion H. congruence.
    + apply HZ; [discriminate|]. intros k H. inversion H. congruence.
  - exfalso. exact (HR once n eq_refl).
Qed.
Print Assumptions C102_abort.

(** a call always returns or aborts; only a rendering can go on for longer than the given rounds *)
Theorem C102_returns : forall env dec c t, perform env dec c t = TLoop -> exists once n, c = Render once n.
Proof.
  intros env dec c t.
  assert (forall t j, merge_schema_value j t <> TLoop) as HM by (intros t1 j; rewrite merge_value; destruct (update_schema _ _); discriminate).
  destruct c as [x|q|j|x|q|x|q|once n]; cbn [perform]; [| | | | | | |eauto].
  - discriminate.
  - unfold set_src_path, read_file. destruct (e_read _ _ _); discriminate.
  - specialize (HM t j). destruct (merge_schema_value j t); congruence.
  - unfold merge_schema_str. destruct (e_from_str env x) as [j|]; [|discriminate]. specialize (HM t j). destruct (merge_schema_value j t); cbn; congruence.
  - unfold merge_schema_path, read_file. destruct (e_read _ _ _); [|discriminate]. destruct (e_from_str _ _) as [j|]; [|discriminate].
    match goal with |- context [merge_schema_value j ?x] => specialize (HM x j); destruct (merge_schema_value j x); cbn; congruence end.
  - unfold merge_schema_msgpack. destruct (dec x) as [j|]; [|discriminate]. specialize (HM t j). destruct (merge_schema_value j t); cbn; congruence.
  - unfold merge_schema_msgpack_path, read_file. destruct (e_read _ _ _); [|discriminate]. unfold merge_schema_msgpack. destruct (dec _) as [j|]; [|discriminate].
    match goal with |- context [merge_schema_value j ?x] => specialize (HM x j); destruct (merge_schema_value j x); cbn; congruence end.
Qed.
Print Assumptions C102_returns.

(** *** Merging harmless values *)

Lemma merge_at m mb k : wf_json (JObj mb) -> idx (merge_schema (JObj m) (JObj mb)) k =
  match at_path [k] (JObj mb) with Some v => merge_schema (idx (JObj m) k) v | None => idx (JObj m) k end.
Proof.
  intro W. inversion W as [| | | | |? D F]; subst. rewrite merge_obj. unfold idx. cbn [vget at_path].
  rewrite merge_get by exact D. destruct (oget k mb) as [vb|]; [|reflexivity]. destruct (oget k m) as [va|]; [reflexivity|].
  destruct vb; reflexivity.
Qed.
Lemma wf_at k m v : wf_json (JObj m) -> at_path [k] (JObj m) = Some v -> wf_json v.
Proof.
  intros W H. inversion W as [| | | | |? D F]; subst. cbn [at_path] in H. destruct (oget k m) as [x|] eqn:E; [|discriminate].
  injection H as <-. apply oget_in in E. rewrite Forall_forall in F. apply (F _ E).
Qed.
Lemma merge_is_obj a b : is_obj b -> is_obj (merge_schema a b).
Proof. intros [m ->]. destruct a; eexists; reflexivity. Qed.
Lemma at_two k k' m v : at_path [k] (JObj m) = Some v -> forall w, at_path [k'] v = Some w -> at_path [k; k'] (JObj m) = Some w.
Proof. intros H w HW. rewrite at_path_cons. rewrite at_path_cons in H. destruct (vget k (JObj m)) as [x|]; [|discriminate]. cbn in H. injection H as <-. exact HW. Qed.
Lemma at_three k k' k'' m v : at_path [k; k'] (JObj m) = Some v -> forall w, at_path [k''] v = Some w -> at_path [k; k'; k''] (JObj m) = Some w.
Proof.
  intros H w HW. rewrite at_path_cons. rewrite at_path_cons in H. destruct (vget k (JObj m)) as [x|]; [|discriminate].
  rewrite at_path_cons. rewrite at_path_cons in H. destruct (vget k' x) as [y|]; [|discriminate]. cbn in H. injection H as <-. exact HW.
Qed.

Lemma null_or_merge a b : null_or_obj a -> b = JNull \/ is_obj b -> null_or_obj (merge_schema a b).
Proof. intros _ [->|H]; [left; destruct a; reflexivity|right; apply merge_is_obj; exact H]. Qed.

Lemma harmless_keeps a b r : default_shape a -> harmless b -> update_schema a b = Some r -> default_shape r.
Proof.
  intros D H U. destruct (ds_obj _ D) as [m Ea]. destruct (hl_obj _ H) as [mb Eb]. subst a b.
  pose proof (hl_wf _ H) as W.
  pose proof (C14_version_is_stamped _ _ _ U) as (HO & _ & HK).
  assert (forall k, k <> B "version" -> k <> B "data" -> idx r k = idx (merge_schema (JObj m) (JObj mb)) k) as HI
    by (intros k N1 N2; unfold idx; rewrite HK by assumption; reflexivity).
  assert (idx r (B "config") = match at_path [B "config"] (JObj mb) with Some v => merge_schema (idx (JObj m) (B "config")) v | None => idx (JObj m) (B "config") end) as EC
    by (rewrite HI by discriminate; apply merge_at; exact W).
  assert (idx r (B "inherit") = match at_path [B "inherit"] (JObj mb) with Some v => merge_schema (idx (JObj m) (B "inherit")) v | None => idx (JObj m) (B "inherit") end) as EI
    by (rewrite HI by discriminate; apply merge_at; exact W).
  assert (exists mc, idx (JObj m) (B "config") = JObj mc) as [mc Ec].
  { destruct (ds_max _ D) as [n E]. destruct (idx (JObj m) (B "config")); try discriminate. eexists. reflexivity. }
  pose proof (ds_inherit _ D) as [mi Ei].
  assert (forall k w, (exists n, idx (JObj mc) k = JNum (NPos n)) ->
     at_path [B "config"] (JObj mb) = Some (JObj w) -> (forall v, at_path [B "config"; k] (JObj mb) = Some v -> exists n, v = JNum (NPos n)) ->
     exists n, idx (merge_schema (JObj mc) (JObj w)) k = JNum (NPos n)) as HN.
  { intros k w [n En] HW HV. rewrite merge_at by (exact (wf_at _ _ _ W HW)).
    destruct (at_path [k] (JObj w)) as [v|] eqn:Ev; [|eauto]. destruct (HV v (at_two _ _ _ _ HW _ Ev)) as [n' ->].
    exists n'. destruct (idx (JObj mc) k); reflexivity. }
  constructor.
  - exact HO.
  - rewrite EC, Ec. pose proof (ds_max _ D) as DM. rewrite Ec in DM. destruct (at_path [B "config"] (JObj mb)) as [v|] eqn:Ev; [|exact DM].
    destruct (hl_config _ H _ Ev) as [w ->]. apply HN; [exact DM|reflexivity|exact (hl_max _ H)].
  - rewrite EC, Ec. pose proof (ds_debug _ D) as DM. rewrite Ec in DM. destruct (at_path [B "config"] (JObj mb)) as [v|] eqn:Ev; [|exact DM].
    destruct (hl_config _ H _ Ev) as [w ->]. apply HN; [exact DM|reflexivity|exact (hl_expire _ H)].
  - rewrite EC, Ec. pose proof (ds_show _ D) as DM. rewrite Ec in DM. destruct (at_path [B "config"] (JObj mb)) as [v|] eqn:Ev; [|exact DM].
    destruct (hl_config _ H _ Ev) as [w ->]. rewrite merge_at by (exact (wf_at _ _ _ W Ev)).
    destruct (at_path [B "error"] (JObj w)) as [e|] eqn:Ee; [|exact DM].
    pose proof (at_two _ _ _ _ Ev _ Ee) as Ee2. destruct (hl_error _ H _ Ee2) as [we ->].
    assert (exists me, idx (JObj mc) (B "error") = JObj me) as [me Eme].
    { destruct DM as [x E]. destruct (idx (JObj mc) (B "error")); try discriminate. eexists. reflexivity. }
    rewrite Eme in *. rewrite merge_at by (exact (wf_at _ _ _ (wf_at _ _ _ W Ev) Ee)).
    destruct (at_path [B "show"] (JObj we)) as [x|] eqn:Ex; [|exact DM].
    destruct (hl_show _ H _ (at_three _ _ _ _ _ Ee2 _ Ex)) as [y ->]. exists y. destruct (idx (JObj me) (B "show")); reflexivity.
  - assert (null_or_obj (idx (merge_schema (JObj m) (JObj mb)) (B "data"))) as HD.
    { rewrite merge_at by exact W. destruct (at_path [B "data"] (JObj mb)) as [v|] eqn:Ev; [|exact (ds_data _ D)].
      apply null_or_merge; [exact (ds_data _ D)|exact (hl_data _ H _ Ev)]. }
    unfold update_schema in U. destruct (merge_is_obj (JObj m) (JObj mb) (ex_intro _ mb eq_refl)) as [mm Em]. rewrite Em in U, HD.
    destruct (update_tail_obj mm) as (m' & EU & HG). rewrite EU in U. injection U as <-.
    unfold idx in *. cbn [vget] in *. rewrite HG. cbn [beq]. change (beq (B "data") (B "version")) with false. rewrite beq_refl. cbv iota.
    destruct (oget (B "data") mm) as [d|]; cbn [option_map]; [|left; reflexivity]. destruct HD as [->|[md ->]].
    + left. reflexivity.
    + right. destruct (modify_at_obj (B "CONTEXT") (modify_at (B "HEADERS") header_variants) md) as (md' & -> & _). eexists. reflexivity.
  - rewrite EI, Ei. destruct (at_path [B "inherit"] (JObj mb)) as [v|] eqn:Ev; [|eexists; reflexivity].
    apply merge_is_obj. exact (hl_inherit _ H _ Ev).
  - intros k Hk. rewrite EI, Ei. pose proof (ds_sections _ D k Hk) as DM. rewrite Ei in DM.
    destruct (at_path [B "inherit"] (JObj mb)) as [v|] eqn:Ev; [|exact DM].
    destruct (hl_inherit _ H _ Ev) as [w ->]. rewrite merge_at by (exact (wf_at _ _ _ W Ev)).
    destruct (at_path [k] (JObj w)) as [x|] eqn:Ex; [|exact DM].
    apply null_or_merge; [exact DM|]. exact (hl_sections _ H k _ Hk (at_two _ _ _ _ Ev _ Ex)).
Qed.

(** As long as only harmless values have been merged, and render_once has not been called, a
    rendering can abort only for one of the reasons in [allowed_panic] (C57). *)
Theorem C102_harmless : forall env dec l t, history env dec l t ->
  (forall c j, In (c, Merge j) l -> harmless j) -> (forall c o, ~ In (c, Rendered true o) l) ->
  default_shape t.(t_schema) /\
  forall fuel p, render env fuel t = TPanic p \/ render_once env fuel t = TPanic p -> allowed_panic env p.
Proof.
  intros env dec l t H HH HR.
  assert (default_shape t.(t_schema)) as D.
  { apply C102_history in H.
    assert (forall j, In (Merge j) (map snd l) -> harmless j) as H1.
    { intros j HI. apply in_map_iff in HI as ([c o] & E & HI). cbn in E. subst o. exact (HH _ _ HI). }
    assert (forall o, ~ In (Rendered true o) (map snd l)) as H2.
    { intros x HI. apply in_map_iff in HI as ([c o] & E & HI). cbn in E. subst o. exact (HR _ _ HI). }
    clear HH HR. induction H; try (apply IHstate_after; [intros; apply H1; right; assumption|intros x HI; apply (H2 x); right; exact HI]).
    - exact (proj1 C57_example).
    - assert (default_shape sc) as D by (apply IHstate_after; [intros; apply H1; right; assumption|intros x HI; apply (H2 x); right; exact HI]).
      eapply harmless_keeps; [exact D|apply H1; left; reflexivity|eassumption].
    - destruct once; [exfalso; apply (H2 o); left; reflexivity|].
      apply IHstate_after; [intros; apply H1; right; assumption|intros x HI; apply (H2 x); right; exact HI]. }
  split; [exact D|]. intros fuel p [HP|HP]; [exact (C57_panics env fuel t p D HP)|].
  pose proof (C44_render_once_agrees env fuel t) as A. rewrite HP in A. destruct (render env fuel t) as [o t1|q|] eqn:E; try contradiction.
  subst q. exact (C57_panics env fuel t p D E).
Qed.
Print Assumptions C102_harmless.

(** *** The constructors *)

Lemma default_new env w : exists s, shared_new env w DEFAULT_SCHEMA = Some s /\ s.(strace) = w.
Proof. eexists. split; [unfold shared_new; vm_compute; reflexivity|reflexivity]. Qed.

(** A template made from a file and a value is a new one whose source is set from the file and
    whose schema is merged with the value; empty MessagePack data stands for {}. *)
Theorem C102_constructors : forall env dec p,
  (forall sc t, from_file_value env p sc = TOk None t <->
     exists t1 t2, template_new env = TOk tt t1 /\ perform env dec (SetPath p) t1 = TOk Unit t2 /\
       perform env dec (MergeValue sc) t2 = TOk Unit t) /\
  (forall sc e, (exists t, from_file_value env p sc = TOk (Some e) t) <-> env.(e_read) [] p = None /\ e = env.(e_read_err) [] p) /\
  from_file_msgpack env dec p [] = from_file_value env p (JObj []) /\
  (forall c j, c <> [] -> dec c = inl j -> from_file_msgpack env dec p c = from_file_value env p j) /\
  (forall c e, c <> [] -> dec c = inr e -> exists t, from_file_msgpack env dec p c = TOk (Some (B "Invalid MessagePack data: " ++ e)) t).
Proof.
  intros env dec p. destruct (default_new env []) as (s & EN & EW). split; [|split; [|split; [|split]]].
  - intros sc t. unfold from_file_value, template_new. rewrite EN. unfold read_file at 1. rewrite EW. split.
    + destruct (e_read env [] p) as [c|] eqn:ER; [|discriminate]. rewrite C13_update_functions_agree.
      destruct (update_schema DEFAULT_SCHEMA sc) as [sc'|] eqn:EU; [|discriminate]. intro H. injection H as <-.
      eexists. eexists. split; [reflexivity|]. cbn [perform]. unfold set_src_path, read_file. cbn [t_shared tset_path]. rewrite EW, ER.
      split; [reflexivity|]. rewrite merge_value. cbn [t_schema tset_raw tset_shared tset_path]. rewrite EU. reflexivity.
    + intros (t1 & t2 & H1 & H2 & H3). injection H1 as <-. cbn [perform] in H2, H3. unfold set_src_path, read_file in H2.
      cbn [t_shared tset_path] in H2. rewrite EW in H2. destruct (e_read env [] p) as [c|] eqn:ER; [|discriminate].
      injection H2 as <-. rewrite merge_value in H3. cbn [t_schema tset_raw tset_shared tset_path] in H3.
      rewrite C13_update_functions_agree. destruct (update_schema DEFAULT_SCHEMA sc) as [sc'|]; [|discriminate]. injection H3 as <-. reflexivity.
  - intros sc e. unfold from_file_value. rewrite EN. unfold read_file. rewrite EW. destruct (e_read env [] p) as [c|] eqn:ER.
    + split; [|intros [H _]; discriminate]. intros [t H]. destruct (update_schema_owned _ _); discriminate.
    + split; [intros [t H]; split; [reflexivity|congruence]|]. intros [_ ->]. eexists. reflexivity.
  - reflexivity.
  - intros [|x c] j HN HD; [congruence|]. unfold from_file_msgpack. cbn [is_empty]. rewrite HD. reflexivity.
  - intros [|x c] e HN HD; [congruence|]. unfold from_file_msgpack. cbn [is_empty]. rewrite HD, EN. eexists. reflexivity.
Qed.
Print Assumptions C102_constructors.

(** Two histories that end with the same source and path and merge the same values in the same
    order render alike, whatever else was called and whenever, if the file system has seen the same. *)
Definition merged (l : list (call * outcome)) : list json :=
  flat_map (fun x => match snd x with Merge j => [j] | _ => [] end) l.
Lemma same_schema l1 : forall l2 s1 p1 c1 s2 p2 c2, state_after l1 s1 p1 c1 -> state_after l2 s2 p2 c2 ->
  (forall o, ~ In (Rendered true o) l1) -> (forall o, ~ In (Rendered true o) l2) ->
  flat_map (fun x => match x with Merge j => [j] | _ => [] end) l1 = flat_map (fun x => match x with Merge j => [j] | _ => [] end) l2 ->
  c1 = c2.
Proof.
  assert (forall l s p c, state_after l s p c -> (forall o, ~ In (Rendered true o) l) ->
    fold_right (fun j a => match a with Some a => update_schema a j | None => None end) (Some DEFAULT_SCHEMA)
      (flat_map (fun x => match x with Merge j => [j] | _ => [] end) l) = Some c) as HF.
  { intros l s p c H. induction H; intro HN; cbn [flat_map app fold_right]; try (apply IHstate_after; intros x HI; apply (HN x); right; exact HI).
    - reflexivity.
    - rewrite IHstate_after by (intros x HI; apply (HN x); right; exact HI). assumption.
    - destruct once; [exfalso; apply (HN o); left; reflexivity|]. apply IHstate_after. intros x HI. apply (HN x). right. exact HI. }
  intros l2 s1 p1 c1 s2 p2 c2 H1 H2 N1 N2 E. pose proof (HF _ _ _ _ H1 N1) as F1. pose proof (HF _ _ _ _ H2 N2) as F2. congruence.
Qed.
Theorem C102_same_render : forall env dec l1 t1 l2 t2 fuel, history env dec l1 t1 -> history env dec l2 t2 ->
  (forall c o, ~ In (c, Rendered true o) l1) -> (forall c o, ~ In (c, Rendered true o) l2) ->
  merged l1 = merged l2 -> t1.(t_raw) = t2.(t_raw) -> t1.(t_path) = t2.(t_path) ->
  t1.(t_shared).(strace) = t2.(t_shared).(strace) -> occurs (B "{:") t1.(t_raw) ->
  render env fuel t1 = render env fuel t2.
Proof.
  intros env dec l1 t1 l2 t2 fuel H1 H2 N1 N2 EM ER EP EW HO.
  apply C44_render_is_fresh; try assumption.
  assert (forall l : list (call * outcome), merged l = flat_map (fun x => match x with Merge j => [j] | _ => [] end) (map snd l)) as HF.
  { intro l. unfold merged. induction l as [|[c o] l IH]; [reflexivity|]. cbn [flat_map map snd]. now rewrite IH. }
  assert (forall l : list (call * outcome), (forall c o, ~ In (c, Rendered true o) l) -> forall o, ~ In (Rendered true o) (map snd l)) as HN.
  { intros l N o HI. apply in_map_iff in HI as ([c x] & E & HI). cbn in E. subst x. exact (N _ _ HI). }
  rewrite !HF in EM. exact (same_schema _ _ _ _ _ _ _ _ (C102_history _ _ _ _ H1) (C102_history _ _ _ _ H2) (HN _ N1) (HN _ N2) EM).
Qed.
Print Assumptions C102_same_render.

(** a template is set from a missing file, then from a text, merged with a file, a bad text and a
    value, and rendered *)
Definition no_pack : bytes -> json + bytes := fun _ => inr (B "no pack").
Definition greeting_value : json := JObj [(B "data", JObj [(B "name", JStr (B "Ann"))]); (B "config", JObj [(B "comments", JStr (B "remove"))])].
Definition story : list (call * outcome) :=
  [(Render false 1, Rendered false (B "local Ann"));
   (MergeValue greeting_value, Merge greeting_value);
   (MergeText (B "{"), Nothing (B "Is not a valid JSON string"));
   (MergeFile (B "/j.json"), Merge (JObj [(B "data", JObj [(B "x", JStr (B "local"))]);
                                          (B "trans", JObj [(B "en", JObj [(B "Hello", JStr (B "Hi"))])])]));
   (SetSource (B "{:;x:} {:* gone *:}{:;name:}"), NewSource (B "{:;x:} {:* gone *:}{:;name:}"));
   (SetPath (B "/missing"), NoFile (B "/missing") (B "no file"))].
Lemma greeting_harmless : harmless greeting_value.
Proof.
  constructor.
  - unfold greeting_value. repeat (constructor; [repeat (constructor; [cbn; intuition discriminate|]); constructor|]); repeat constructor; cbn; intuition discriminate.
  - eexists. reflexivity.
  - intros v H. injection H as <-. eexists. reflexivity.
  - intros v H. vm_compute in H. discriminate.
  - intros v H. vm_compute in H. discriminate.
  - intros v H. vm_compute in H. discriminate.
  - intros v H. vm_compute in H. discriminate.
  - intros v H. injection H as <-. right. eexists. reflexivity.
  - intros v H. vm_compute in H. discriminate.
  - intros k v _ H. cbn in H. discriminate.
Qed.
Example C102_example :
  (exists t, history env1 no_pack story t /\ t.(t_raw) = B "{:;x:} {:;name:}" /\ t.(t_path) = B "/missing" /\
     length (merged story) = 2) /\
  harmless greeting_value /\
  (forall t, perform env1 no_pack (MergeValue (JStr (B "x"))) t = TPanic PVersion) /\
  (forall t, exists t', perform env1 no_pack (MergeValue JNull) t = TOk Unit t' /\ t'.(t_schema) = JObj [(B "version", JStr VERSION)]).
Proof.
  split.
  - eexists. split; [|split; [|split]].
    + unfold story. eapply hi_call; [eapply hi_call; [eapply hi_call; [eapply hi_call; [eapply hi_call; [eapply hi_call; [apply hi_new; reflexivity| |]| |]| |]| |]| |]| |].
      all: try (vm_compute; reflexivity).
      * apply (ct_no_path env1). reflexivity.
      * constructor.
      * apply (ct_file env1 no_pack _ (B "/j.json") (B "{...}")); reflexivity.
      * apply (ct_no_text env1 no_pack _ (B "{") (B "no json")). reflexivity.
      * constructor.
      * constructor.
    + vm_compute. reflexivity.
    + vm_compute. reflexivity.
    + vm_compute. reflexivity.
  - split; [exact greeting_harmless|]. split; [intro t; cbn [perform]; rewrite merge_value; reflexivity|].
    intro t. cbn [perform]. rewrite merge_value. eexists. split; reflexivity.
Qed.
