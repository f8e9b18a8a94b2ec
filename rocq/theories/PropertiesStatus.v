(** * Property theorems: what the host reads after a rendering (C110) *)

From Verif Require Import Bytes Json Utils ConstantsGen State Engine Template Spec SpecEngine SpecStatus SpecApi SpecHost BytesFacts
  TextProofs TemplateProofs FrameProofs FrameRun EngineFrames HandlerProofs EvalProofs Samples PropertiesText PropertiesTemplate
  PropertiesEngine PropertiesMore PropertiesApi.

Lemma leading_leads v : leading v -> leads v.
Proof.
  destruct 1 as [| |u|u].
  - apply le_top.
  - apply le_self.
  - replace (replace (B "{}") u REDIR_JS_REDIRECT_TOP) with (B "<!DOCTYPE html><script>top.location.href='" ++ u ++ B "';</script>")
      by (vm_compute; reflexivity). apply le_go_top.
  - replace (replace (B "{}") u REDIR_JS_REDIRECT_SELF) with (B "<!DOCTYPE html><script>self.location.href='" ++ u ++ B "';</script>")
      by (vm_compute; reflexivity). apply le_go_self.
Qed.

Definition reported (s : Shared) : Prop :=
  phrase s.(status_code) s.(status_text) /\ (s.(redirect_js) = [] \/ leads s.(redirect_js)).

Lemma reported_frame env : frame env (fun s _ _ => reported s) (fun _ => later) (fun _ => True).
Proof.
  apply simple_frame; unfold reported.
  - apply later_refl.
  - apply later_trans.
  - intros s s' (E & L & _). auto.
  - intros f s Hf HI. split; [|apply (later_benign f s Hf)].
    destruct Hf as [e|v|v|c p|v HL|]; try exact HI.
    + split; [apply phrase_text|apply HI].
    + split; [apply HI|]. right. apply leading_leads. exact HL.
  - intros x s HI. split; [exact HI|apply later_same; reflexivity].
  - intros s H HI. split; [exact HI|apply later_count].
  - intros l s HI. split; [exact HI|apply later_same; reflexivity].
  - intros nm v s j HI _. split; [exact HI|apply later_same; reflexivity].
  - intros h to v s j HI _. split; [exact HI|apply later_same; reflexivity].
Qed.

Lemma new_reported env w sc s : shared_new env w sc = Some s ->
  s.(status_code) = B "200" /\ s.(status_text) = B "OK" /\ s.(status_param) = [] /\ s.(redirect_js) = [].
Proof.
  unfold shared_new. destruct (as_u64 _) as [mx|]; [|discriminate]. destruct (as_u64 _) as [dx|]; [|discriminate].
  intro H. assert (forall x y : Shared, Some x = Some y -> x = y) as INJ by congruence. apply INJ in H. rewrite <- H.
  cbn [status_code status_text status_param redirect_js]. auto.
Qed.

Lemma init_reported env t raw s i : init_render env t = IOk raw s i -> reported s.
Proof.
  intro H. apply init_facts in H. destruct (in_new _ _ _ _ _ H) as (s0 & E & ->). apply new_reported in E as (E1 & E2 & _ & E3).
  unfold reported. cbn [status_code status_text redirect_js set_schema set_indir_store]. rewrite E1, E2, E3.
  split; [apply (ph_known (B "200")); vm_compute; tauto|left; reflexivity].
Qed.

Lemma render_reported env fuel t o t' : occurs (B "{:") t.(t_raw) -> render env fuel t = TOk o t' -> reported t'.(t_shared).
Proof.
  intros HO HR. destruct (render_ok env _ _ _ (reported_frame env) fuel t o t' HO HR) as (raw & s & i & _ & H & _); [|exact H].
  intros raw s i H. eapply init_reported. exact H.
Qed.

(** A template that has not been rendered reports success. *)
Theorem C110_new : forall env t, template_new env = TOk tt t ->
  get_status_code t = B "200" /\ get_status_text t = B "OK" /\ get_status_param t = [].
Proof.
  intros env t H. unfold template_new in H. destruct (shared_new _ _ _) as [s|] eqn:E; [|discriminate]. injection H as <-.
  unfold get_status_code, get_status_text, get_status_param. cbn [t_shared]. apply new_reported in E. tauto.
Qed.
Print Assumptions C110_new.

(** Whatever calls were made, in whatever order, and however they came out, the status text that
    the host reads is the reason phrase of the status code that it reads. *)
Theorem C110_status : forall env dec l t, history env dec l t -> phrase (get_status_code t) (get_status_text t).
Proof.
  intros env dec l t H. unfold get_status_code, get_status_text. cut (reported t.(t_shared)); [intros [X _]; exact X|].
  induction H as [t E|l t c o t' H IH HC HP].
  - pose proof (C110_new env t E) as (E1 & E2 & _). unfold get_status_code, get_status_text in *.
    unfold template_new in E. destruct (shared_new _ _ _) as [s|] eqn:E0; [|discriminate]. injection E as <-. cbn [t_shared] in *.
    apply new_reported in E0 as (_ & _ & _ & E3). unfold reported. rewrite E1, E2, E3.
    split; [apply (ph_known (B "200")); vm_compute; tauto|left; reflexivity].
  - clear H HC. destruct c as [x|p|j|x|p|x|p|once n]; cbn [perform] in HP.
    + assert (t' = set_src_str x t) as -> by congruence. exact IH.
    + unfold set_src_path, read_file in HP. cbn [t_shared tset_path] in HP.
      destruct (e_read env _ p) eqn:E; cbn [as_returned] in HP; injection HP as _ <-; exact IH.
    + destruct (merge_schema_value j t) as [u t1|q|] eqn:E; try discriminate. injection HP as _ <-.
      apply merge_new in E as (sc & _ & ->). exact IH.
    + unfold merge_schema_str in HP. destruct (e_from_str env x) as [j|e].
      * destruct (merge_schema_value j t) as [u t1|q|] eqn:E; try discriminate. injection HP as _ <-.
        apply merge_new in E as (sc & _ & ->). exact IH.
      * injection HP as _ <-. exact IH.
    + unfold merge_schema_path, read_file in HP. destruct (e_read env _ p) as [x|] eqn:E0.
      * destruct (e_from_str env x) as [j|e].
        -- destruct (merge_schema_value j _) as [u t1|q|] eqn:E; try discriminate. injection HP as _ <-.
           apply merge_new in E as (sc & _ & ->). exact IH.
        -- injection HP as _ <-. exact IH.
      * injection HP as _ <-. exact IH.
    + unfold merge_schema_msgpack in HP. destruct (dec x) as [j|e].
      * destruct (merge_schema_value j t) as [u t1|q|] eqn:E; try discriminate. injection HP as _ <-.
        apply merge_new in E as (sc & _ & ->). exact IH.
      * cbn [as_returned] in HP. assert (t' = t) as -> by congruence. exact IH.
    + unfold merge_schema_msgpack_path, read_file in HP. destruct (e_read env _ p) as [x|] eqn:E0.
      * unfold merge_schema_msgpack in HP. destruct (dec x) as [j|e].
        -- destruct (merge_schema_value j _) as [u t1|q|] eqn:E; try discriminate. injection HP as _ <-.
           apply merge_new in E as (sc & _ & ->). exact IH.
        -- cbn [as_returned] in HP. match type of HP with TOk _ ?x = _ => assert (t' = x) as -> by congruence end. exact IH.
      * injection HP as _ <-. exact IH.
    + destruct (contains BIF_OPEN (t_raw t)) eqn:C.
      * assert (occurs (B "{:") (t_raw t)) as HO by (apply contains_iff; exact C).
        destruct once.
        -- rewrite render_once_render in HP by exact HO. destruct (render env n t) as [o1 t1|q|] eqn:R; try discriminate.
           cbn [as_text] in HP. match type of HP with TOk _ ?x = _ => assert (t' = x) as -> by congruence end.
           exact (render_reported env n t o1 t1 HO R).
        -- destruct (render env n t) as [o1 t1|q|] eqn:R; try discriminate.
           cbn [as_text] in HP. assert (t' = t1) as -> by congruence. exact (render_reported env n t o1 t1 HO R).
      * assert (exists o1, t' = tset_out o1 t) as [o1 ->].
        { destruct once; [unfold render_once in HP|unfold render in HP]; rewrite C in HP; cbn [negb as_text] in HP;
            eexists; match type of HP with TOk _ ?x = _ => instantiate (1 := t_out x); cbn; congruence end. }
        exact IH.
Qed.
Print Assumptions C110_status.

(** The text without bifs is a page of its own: rendering it reports what was reported before. *)
Theorem C110_plain : forall env fuel t o t', ~ occurs (B "{:") t.(t_raw) ->
  render env fuel t = TOk o t' \/ render_once env fuel t = TOk o t' ->
  get_status_code t' = get_status_code t /\ get_status_text t' = get_status_text t /\ get_status_param t' = get_status_param t.
Proof.
  intros env fuel t o t' HO HR. assert (contains BIF_OPEN (t_raw t) = false) as C.
  { destruct (contains _ _) eqn:C; [|reflexivity]. exfalso. apply HO. apply contains_iff. exact C. }
  unfold render, render_once in HR. rewrite C in HR. cbn [negb] in HR.
  assert (t' = tset_out o t) as -> by (destruct HR as [HR|HR]; congruence). auto.
Qed.
Print Assumptions C110_plain.

(** A rendering that ends with a status that is neither an error nor a redirection gives the page,
    or one of the four scripts that lead elsewhere and nothing else. *)
Theorem C110_page : forall env fuel t o t', occurs (B "{:") t.(t_raw) -> render env fuel t = TOk o t' ->
  other_code (get_status_code t') -> ~ In (get_status_code t') redirect_codes ->
  leads o \/
  exists raw s i o1 s1 i1 content s2 moved_content,
    init_render env t = IOk raw s i /\ top_parse env s i raw [] = BOk o1 s1 i1 /\
    cache_rounds env fuel s1 i o1 = ROk content s2 /\
    set_moveto s2 content = Some moved_content /\ o = replacements moved_content.
Proof.
  intros env fuel t o t' HO HR H1 H2. pose proof (render_reported env fuel t o t' HO HR) as [_ HL].
  destruct (C40_other_status env fuel t o t' HO HR H1 H2) as (raw & s & i & o1 & s1 & i1 & c & s2 & mc & A1 & A2 & A3 & A4 & A5 & A6).
  destruct HL as [HL|HL].
  - right. exists raw, s, i, o1, s1, i1, c, s2, mc. repeat (split; [assumption|]). exact (A6 HL).
  - left. destruct (redirect_js (t_shared t')) as [|b r] eqn:E; [exfalso; inversion HL|]. rewrite A5 by discriminate. exact HL.
Qed.
Print Assumptions C110_page.

Example C110_example :
  (exists t', render env0 1 (sample "{:exit; 404 :}") = TOk (B "404 Not Found") t' /\
     get_status_code t' = B "404" /\ get_status_text t' = B "Not Found") /\
  (exists t', render env0 1 (sample "{:!exit; 299 :}") = TOk [] t' /\ get_status_code t' = B "299" /\ get_status_text t' = [] /\
     phrase (get_status_code t') (get_status_text t')) /\
  leads (output_of "a {:redirect; js:redirect:top >> /x :} b").
Proof.
  split; [eexists; split; [vm_compute; reflexivity|split; vm_compute; reflexivity]|].
  split.
  - eexists. split; [vm_compute; reflexivity|]. split; [vm_compute; reflexivity|]. split; [vm_compute; reflexivity|].
    apply ph_other. intros x H. vm_compute in H. repeat (destruct H as [H|H]; [discriminate|]). exact H.
  - change (leads (output_of "a {:redirect; js:redirect:top >> /x :} b")).
    replace (output_of "a {:redirect; js:redirect:top >> /x :} b") with (B "<!DOCTYPE html><script>top.location.href='" ++ B "/x" ++ B "';</script>")
      by (vm_compute; reflexivity). apply le_go_top.
Qed.
