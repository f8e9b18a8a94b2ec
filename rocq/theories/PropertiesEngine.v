(** * Property theorems: evaluation of templates *)

From Verif Require Import Bytes Json Utils ConstantsGen State Engine Template Spec SpecEngine BytesFacts
  BlockProofs TemplateProofs FrameProofs FrameRun SimProofs EngineFrames MoreFrames EvalProofs Samples.

(** the state in which a render starts *)
Lemma init_new env t raw s i : init_render env t = IOk raw s i ->
  s.(bisf_count) = 0%N /\ s.(exit) = false /\ s.(has_error) = false /\ s.(slog) = [].
Proof.
  intro H. apply init_facts in H. destruct (in_new _ _ _ _ _ H) as (s0 & E0 & ->).
  unfold shared_new in E0. destruct (as_u64 _); [|discriminate]. destruct (as_u64 _); [|discriminate].
  injection E0 as <-. repeat split.
Qed.

(** ** C26 *)

(** the evaluation never needs more nesting than the bif limit allows: the recursion bound built
    into [parse] is never reached, and any larger one gives the same result *)
Theorem C26_parse_ends : forall env s i source only,
  (exists o s' i', parse env s i source only = BOk o s' i') \/
  (exists p, parse env s i source only = BPanic p).
Proof.
  intros env s i source only.
  pose proof (parse_ok env _ _ _ (trivial_frame env) s i source only I) as H.
  destruct (parse env s i source only) as [o s' i'|p|]; [left; eauto|right; eauto|contradiction].
Qed.
Print Assumptions C26_parse_ends.

Theorem C26_bound_is_irrelevant : forall env f s i source only, enough_fuel s <= f ->
  parse_fuel env f s i source only = parse env s i source only.
Proof.
  intros env f s i source only H. apply block_parse_any. unfold room, enough_fuel in *. lia.
Qed.
Print Assumptions C26_bound_is_irrelevant.

(** no more bifs are started than the limit allows *)
Theorem C26_within_budget : forall env s i source only o s' i',
  (s.(bisf_count) <= s.(cfg).(bisf_max))%N -> parse env s i source only = BOk o s' i' ->
  (s.(bisf_count) <= s'.(bisf_count) <= s.(cfg).(bisf_max))%N.
Proof.
  intros env s i source only o s' i' HB H.
  pose proof (parse_ok env _ _ _ (budget_frame env) s i source only HB) as G. rewrite H in G.
  destruct G as (G & (E & L & _) & _). unfold in_budget in G. rewrite E in G. auto.
Qed.
Print Assumptions C26_within_budget.

(** counted independently of the engine's own counter: in the log of a render *)
Theorem C26_render_within_budget : forall env fuel t o t', occurs (B "{:") t.(t_raw) ->
  render env fuel t = TOk o t' ->
  (bifs_started t'.(t_shared).(slog) <= t'.(t_shared).(cfg).(bisf_max))%N /\
  bifs_started t'.(t_shared).(slog) = t'.(t_shared).(bisf_count).
Proof.
  intros env fuel t o t' HO HR.
  destruct (render_ok env _ _ _ (log_frame env) fuel t o t' HO HR) as (_ & _ & _ & _ & [_ L] & _).
  { intros raw s i HI. apply init_new in HI as (E1 & E2 & _ & E3). unfold logged. rewrite E1, E2, E3. split; [constructor|reflexivity]. }
  destruct (render_ok env _ _ _ (budget_frame env) fuel t o t' HO HR) as (_ & _ & _ & _ & HB & _).
  { intros raw s i HI. apply init_new in HI as (E1 & _). unfold in_budget. rewrite E1. apply N.le_0_l. }
  split; [rewrite L; exact HB|exact L].
Qed.
Print Assumptions C26_render_within_budget.

(** a bif that would exceed the limit is not started: the evaluation aborts *)
Theorem C26_limit_aborts : forall env s i text only, (s.(cfg).(bisf_max) < s.(bisf_count) + 1)%N ->
  eval_bif env s i text only = BPanic PBifLimit.
Proof. intros env s i text only H. unfold eval_bif, bif_run. apply N.ltb_lt in H. rewrite H. reflexivity. Qed.
Print Assumptions C26_limit_aborts.

(** a snippet that calls itself *)
Example C26_example :
  match parse env0 (set_schema JNull (fst (start_of "x"))) (snd (start_of "x")) (B "{:;a:}{:code; {:;b:} :}") [] with
  | BOk _ s _ => bifs_started s.(slog) = 3%N
  | _ => False
  end.
Proof. vm_compute. reflexivity. Qed.

(** ** C28: local definitions *)

Lemma closed_text mods nm body : Forall modifier mods -> plain_name nm -> ~ In "+"%char mods -> ~ In nm definers ->
  closed_bif (bif_text mods nm body).
Proof.
  intros HM HN HP HD nm0 rest nm' f g u p E1 E2.
  rewrite (text_parts mods nm body HM HN) in E1. assert (nm0 = mods ++ nm) as -> by congruence.
  rewrite (scan_mods mods nm HM HN) in E2. cbn [orb] in E2.
  assert (nm' = nm /\ p = has_mod "+" mods) as [-> ->] by (split; congruence). split; [|exact HD].
  unfold has_mod. destruct (existsb (aeqb "+"%char) mods) eqn:E; [|reflexivity].
  apply existsb_exists in E as (x & Hx & Ex). apply aeqb_eq in Ex. subst x. contradiction.
Qed.

Lemma visible_below s s' i : level_ok s i -> keeps_below (block_count i + 1) s s' ->
  same_local (get_indir s i.(indir)) (get_indir s' i.(indir)).
Proof.
  intros (H1 & (k & Hk & ->) & _) (_ & K & _). apply K. lia.
Qed.

(** A bif that is not itself a definition and has no '+' leaves what is defined for the bifs
    after it as it was: parameters, declarations, translations and local data, whatever its
    content, its parameters and the files it includes define. *)
Theorem C28_no_leak : forall env s i mods nm body only o s' i',
  Forall modifier mods -> plain_name nm -> ~ In "+"%char mods -> ~ In nm definers ->
  level_ok s i -> s.(exit) = false ->
  eval_bif env s i (bif_text mods nm body) only = BOk o s' i' ->
  i'.(indir) = i.(indir) /\ same_local (visible s i) (visible s' i') /\ level_ok s' i'.
Proof.
  intros env s i mods nm body only o s' i' HM HN HP HD [H1 HL] HE H. unfold eval_bif in H.
  pose proof (okb_bif env _ _ _ (local_frame env) (enough_fuel s) _ (run_blocks_ok env _ _ _ (local_frame env) (enough_fuel s)) mStrict s i
                (bif_text mods nm body) only (or_intror (conj eq_refl (closed_text mods nm body HM HN HP HD))) HE HL) as G.
  rewrite H in G. unfold okb_at in G. cbn [lvl] in G.
  destruct G as (G1 & G2 & G3 & G4); [unfold room, enough_fuel; lia|]. specialize (G4 eq_refl).
  split; [exact G4|]. split.
  - unfold visible. rewrite G4. apply visible_below; [split; assumption|exact G2].
  - split; rewrite G3; assumption.
Qed.
Print Assumptions C28_no_leak.

(** The hypothesis [level_ok] holds in every block of every render: it holds for the outermost
    block, for the block inside any bif, and after any bif at all. *)
Theorem C28_levels : forall env,
  (forall t raw s i, init_render env t = IOk raw s i -> level_ok s (iset_block_count (i.(block_count) + 1) i)) /\
  (forall s i al, level_ok s i -> level_ok s (inside al i)) /\
  (forall s i al, level_ok s i -> level_ok (fst (create_block_schema s i)) (inside al (snd (create_block_schema s i)))) /\
  (forall s i text only o s' i', level_ok s i -> s.(exit) = false ->
     eval_bif env s i text only = BOk o s' i' -> level_ok s' i').
Proof.
  intro env. split; [|split; [|split]].
  - intros t raw s i HI. apply init_facts in HI. split.
    + cbn [block_count iset_block_count]. lia.
    + cbn [indir iset_block_count block_count]. rewrite (in_indir _ _ _ _ _ HI), (in_count _ _ _ _ _ HI). split.
      * exists 1%N. split; [lia|reflexivity].
      * rewrite (in_store _ _ _ _ _ HI). cbn. discriminate.
  - intros s i al (H1 & (k & Hk & E) & H2). split; cbn [inside iset_block_count iset_alias block_count indir]; [lia|].
    split; [|exact H2]. exists k. split; [lia|exact E].
  - intros s i al (H1 & H2).
    destruct (f_H_create _ _ _ _ (local_frame env) s i H2) as (H3 & _ & _).
    rewrite FrameProofs.create_own.
    split; cbn [inside iset_block_count iset_alias iset_indir block_count indir]; [lia|].
    apply (f_H_enter _ _ _ _ (local_frame env)). exact H3.
  - intros s i text only o s' i' (H1 & HL) HE H. unfold eval_bif in H.
    pose proof (okb_bif env _ _ _ (local_frame env) (enough_fuel s) _ (run_blocks_ok env _ _ _ (local_frame env) (enough_fuel s)) mFree s i
                  text only (or_introl eq_refl) HE HL) as G.
    rewrite H in G. unfold okb_at in G. destruct G as (G1 & G2 & G3 & G4); [unfold room, enough_fuel; lia|].
    split; rewrite G3; assumption.
Qed.
Print Assumptions C28_levels.

(** ** C29: nested content sees what the enclosing block has defined *)
Theorem C29_inherited : forall env s i mods nm body only,
  Forall modifier mods -> plain_name nm -> ~ In "+"%char mods -> ~ In nm definers ->
  level_ok s i -> s.(exit) = false ->
  nested_start_in (fun s' i' => same_local (visible s i) (visible s' i') /\ later s s') env s i
    (bif_text mods nm body) only.
Proof.
  intros env s i mods nm body only HM HN HP HD HL HE other HA. symmetry. unfold eval_bif.
  apply (bif_run_agree env _ _ _ (local_frame env) (enough_fuel s) _ other
           (run_blocks_ok env _ _ _ (local_frame env) (enough_fuel s)) mStrict).
  - right. split; [reflexivity|apply closed_text; assumption].
  - exact HE.
  - apply HL.
  - unfold room, enough_fuel. lia.
  - intros s' i' src bl o _ _ _ HR HI. specialize (HI eq_refl). apply HA. split; [|apply HR].
    unfold visible. rewrite HI. apply visible_below; [exact HL|exact HR].
Qed.
Print Assumptions C29_inherited.

(** The blocks that get a schema of their own (with '+', and in an included file) start from a
    copy of the enclosing one. *)
Theorem C29_copied : forall s i, level_ok s i ->
  visible (fst (create_block_schema s i)) (snd (create_block_schema s i)) = visible s i.
Proof.
  intros s i [_ HL]. destruct (create_own s i HL) as [E _]. unfold visible, get_indir.
  rewrite FrameProofs.create_own. cbn [iset_indir indir]. rewrite E. reflexivity.
Qed.
Print Assumptions C29_copied.

(** ** C31 *)
Theorem C31_schema_is_protected : forall env fuel t o t', occurs (B "{:") t.(t_raw) ->
  render env fuel t = TOk o t' ->
  (forall k, ~ In k template_keys -> vget k t'.(t_shared).(schema) = vget k t.(t_schema)) /\
  is_obj (idx t'.(t_shared).(schema) (B "data")) /\ t'.(t_schema) = t.(t_schema).
Proof.
  intros env fuel t o t' HO HR.
  assert (t'.(t_schema) = t.(t_schema)) as ET.
  { apply render_inv in HR as (raw & s & i & o1 & s1 & i1 & o2 & s2 & _ & _ & _ & _ & ->); [reflexivity|exact HO]. }
  destruct (render_ok env _ _ _ (schema_frame env) fuel t o t' HO HR) as (raw & s & i & HI & [_ HD] & [_ HK]).
  { intros raw s i HI. apply init_facts in HI. split; [apply (in_obj _ _ _ _ _ HI)|apply (in_data_obj _ _ _ _ _ HI)]. }
  split; [|split; [exact HD|exact ET]]. intros k Hk. rewrite (HK k Hk). apply init_facts in HI.
  unfold template_keys in Hk. cbn [In] in Hk. apply (in_top _ _ _ _ _ HI); intros ->; tauto.
Qed.
Print Assumptions C31_schema_is_protected.

(** during the evaluation of any block *)
Theorem C31_block : forall env s i source only o s' i',
  is_obj s.(schema) -> is_obj (idx s.(schema) (B "data")) -> parse env s i source only = BOk o s' i' ->
  (forall k, ~ In k template_keys -> vget k s'.(schema) = vget k s.(schema)) /\
  is_obj (idx s'.(schema) (B "data")) /\ s'.(cfg) = s.(cfg).
Proof.
  intros env s i source only o s' i' H1 H2 H.
  pose proof (parse_ok env _ _ _ (schema_frame env) s i source only (conj H1 H2)) as G. rewrite H in G.
  destruct G as ([_ G1] & [(G2 & _) G3] & _). auto.
Qed.
Print Assumptions C31_block.

(** ** C32 *)
Theorem C32_errors : forall env fuel t o t', occurs (B "{:") t.(t_raw) -> render env fuel t = TOk o t' ->
  exists l, get_error t' = JArr (map JStr l) /\ Forall one_line_text l /\
    (get_has_error t' = true <-> l <> []).
Proof.
  intros env fuel t o t' HO HR.
  destruct (render_ok env _ _ _ (error_frame env) fuel t o t' HO HR) as (raw & s & i & HI & (l & HE & H1 & H2) & _).
  { intros raw s i HI. pose proof (init_new _ _ _ _ _ HI) as (_ & _ & E & _). apply init_facts in HI.
    exists []. split; [exact (in_error _ _ _ _ _ HI)|]. split; [constructor|]. rewrite E.
    split; [discriminate|congruence]. }
  exists l. split; [|split; assumption]. unfold get_error, idx. rewrite HE. reflexivity.
Qed.
Print Assumptions C32_errors.

Theorem C32_append_only : forall env s i source only o s' i' l,
  errors_are s.(schema) l -> Forall one_line_text l -> (s.(has_error) = true <-> l <> []) ->
  parse env s i source only = BOk o s' i' ->
  exists l', errors_are s'.(schema) (l ++ l') /\ Forall one_line_text (l ++ l') /\
    (s'.(has_error) = true <-> l ++ l' <> []).
Proof.
  intros env s i source only o s' i' l H1 H2 H3 H.
  pose proof (parse_ok env _ _ _ (error_frame env) s i source only) as G. rewrite H in G.
  destruct G as ((l2 & G1 & G2 & G3) & (_ & G) & _); [exists l; auto|].
  destruct (G l H1) as [l' HL]. exists l'.
  assert (l2 = l ++ l') as ->; [|auto].
  unfold errors_are in *. rewrite G1 in HL. assert (map JStr l2 = map JStr (l ++ l')) as E by congruence.
  clear - E. revert E. generalize (l ++ l'). induction l2 as [|x r IH]; intros [|y r'] E; cbn in E; try discriminate; [reflexivity|].
  assert (x = y) by congruence. assert (map JStr r = map JStr r') as E2 by congruence. subst. f_equal. auto.
Qed.
Print Assumptions C32_append_only.

Example C32_example : exists o t', render env0 5 (sample "{:nosuch; x :}{:;name:}{:&lang; y :}") = TOk o t' /\
  o = B "World" /\ get_has_error t' = true /\
  exists a b, get_error t' = JArr [JStr a; JStr b].
Proof. eexists. eexists. split; [vm_compute; reflexivity|]. split; [reflexivity|]. split; [reflexivity|]. vm_compute. eauto. Qed.

(** ** C42 *)
Theorem C42_no_bif_after_exit : forall env fuel t o t', occurs (B "{:") t.(t_raw) ->
  render env fuel t = TOk o t' -> exit_log t'.(t_shared).(slog) t'.(t_shared).(exit).
Proof.
  intros env fuel t o t' HO HR.
  destruct (render_ok env _ _ _ (log_frame env) fuel t o t' HO HR) as (_ & _ & _ & _ & [L _] & _); [|exact L].
  intros raw s i HI. apply init_new in HI as (E1 & E2 & _ & E3). unfold logged. rewrite E1, E2, E3. split; [constructor|reflexivity].
Qed.
Print Assumptions C42_no_bif_after_exit.

(** a block entered after exit evaluates nothing and changes nothing *)
Theorem C42_block_after_exit : forall env s i source only bl, s.(exit) = true ->
  extract_blocks source = Blocks bl -> exists o, parse env s i source only = BOk o s i.
Proof.
  intros env s i source only bl HE HB. unfold parse, parse_fuel, block_parse. rewrite HB.
  unfold enough_fuel. cbn [run_blocks]. destruct bl as [|[a b] r]; cbn [blocks_loop]; [eauto|]. rewrite HE. eauto.
Qed.
Print Assumptions C42_block_after_exit.

(** and the part of a block before the exit is all that is kept of it *)
Theorem C42_block_stops : forall env s i source only bl o s' i', extract_blocks source = Blocks bl ->
  parse env s i source only = BOk o s' i' -> s'.(exit) = true ->
  exists o' fin, evaluates (fun s i t => eval_bif env s i t only) (segments source 0 bl) s i o' s' i' fin /\
    o = if fin then trim o' else o'.
Proof. intros env s i source only bl o s' i' HB H _. apply (parse_evaluates env s i source only bl o s' i' HB). exact H. Qed.
Print Assumptions C42_block_stops.

Example C42_example : output_of "a {:exit; 302 >> /x :} b {:;name:} c" = B "302 Found" ++ [ascii_of_N 10] ++ B "/x" /\
  output_of "a {:exit; 200 :} b {:;name:} c" = B "a ".
Proof. vm_compute. auto. Qed.

(** The full claim without "raised and still raised" is false of the code: the handler of
    "{:!exit;" lowers the flag again when an exit inside it had raised it, so that later bifs
    are evaluated. *)
Theorem C42_exit_is_final_refuted :
  output_of "{:!exit; {:exit; 200 :} :} {:;name:}" = B "World".
Proof. vm_compute. reflexivity. Qed.

(** ** C46 *)
Theorem C46_text_and_blocks : forall env s i source only bl o s' i', extract_blocks source = Blocks bl ->
  (parse env s i source only = BOk o s' i' <->
   exists o' fin, evaluates (fun s i t => eval_bif env s i t only) (segments source 0 bl) s i o' s' i' fin /\
     o = if fin then trim o' else o').
Proof. exact parse_evaluates. Qed.
Print Assumptions C46_text_and_blocks.

(** the segments are the source, cut at the blocks; each block is the text of a bif or comment *)
Lemma segments_gaps source bl : forall p, flat_map (fun g => match g with SText t => [t] | SBlock _ => [] end) (segments source p bl) = gaps source p bl.
Proof. induction bl as [|[a b] r IH]; intro p; cbn [segments flat_map gaps app]; [reflexivity|]. f_equal. apply IH. Qed.

Theorem C46_segments : forall source bl, extract_blocks source = Blocks bl ->
  concat (map segment_text (segments source 0 bl)) = source /\
  (forall t, In (SText t) (segments source 0 bl) -> ~ occurs (B ":}") t) /\
  (forall b, In (SBlock b) (segments source 0 bl) -> exists u, b = B "{:" ++ u ++ B ":}").
Proof.
  intros source bl H. destruct (extract_ordered _ _ H) as [HS HG]. split; [|split].
  - rewrite segments_text; [reflexivity|exact HS].
  - intros t Ht. rewrite Forall_forall in HG. apply HG. rewrite <- segments_gaps.
    apply in_flat_map. exists (SText t). split; [exact Ht|left; reflexivity].
  - clear HG H. revert HS. generalize 0. induction bl as [|[a b] r IH]; intros p HS b0 Hb; cbn [segments In] in Hb.
    + destruct Hb as [Hb|[]]; discriminate.
    + inversion HS as [|p' a' b' l u]; subst. destruct Hb as [Hb|[Hb|Hb]]; [discriminate| |eapply IH; eassumption].
      assert (b0 = slice a b source) as -> by congruence. exists u. assumption.
Qed.
Print Assumptions C46_segments.

Lemma evaluates_stopped run l s i o s' i' : evaluates run l s i o s' i' false -> s'.(exit) = true.
Proof. intro H. remember false as f eqn:E. induction H; try discriminate; auto. Qed.

(** Unless an exit cuts the block short, all the text between the blocks is in the output, in
    order; comments contribute nothing (constructor ev_comment). *)
Theorem C46_literal_text : forall env s i source only bl o s' i', extract_blocks source = Blocks bl ->
  parse env s i source only = BOk o s' i' -> s'.(exit) = false ->
  exists o', o = trim o' /\ in_order (gaps source 0 bl) o'.
Proof.
  intros env s i source only bl o s' i' HB H HE.
  apply (parse_evaluates env s i source only bl o s' i' HB) in H as (o' & fin & HV & ->).
  destruct fin; [|apply evaluates_stopped in HV; congruence].
  exists o'. split; [reflexivity|]. rewrite <- segments_gaps. eapply evaluates_in_order. exact HV.
Qed.
Print Assumptions C46_literal_text.

(** a template whose only blocks are comments is returned without them, for every such template *)
Theorem C46_comments_only : forall env s i source only bl, extract_blocks source = Blocks bl -> s.(exit) = false ->
  (forall b, In (SBlock b) (segments source 0 bl) -> is_comment b) ->
  parse env s i source only = BOk (trim (concat (gaps source 0 bl))) s i.
Proof.
  intros env s i source only bl HB HE HC.
  apply (parse_evaluates env s i source only bl _ s i HB). exists (concat (gaps source 0 bl)), true. split; [|reflexivity].
  clear HB. revert HC. generalize 0. induction bl as [|[a b] r IH]; intros p HC; cbn [segments gaps concat].
  - rewrite app_nil_r. constructor.
  - apply ev_comment; [exact HE| |].
    + apply HC. cbn [segments In]. auto.
    + apply IH. intros x Hx. apply HC. cbn [segments In]. auto.
Qed.
Print Assumptions C46_comments_only.
Example C46_example : output_of "  one {:;name:} two {:* no {:;name:} *:} three " = B "one World two  three".
Proof. vm_compute. reflexivity. Qed.

(** ** C33 *)

(** After any bif (failed or not) the evaluation goes on with the text and the bifs behind it: a
    block ends early only because of exit or a panic. *)
Theorem C33_rest_is_processed : forall env s i source only bl, extract_blocks source = Blocks bl ->
  (exists o s' i', parse env s i source only = BOk o s' i' /\ s'.(exit) = false /\
     exists o', o = trim o' /\ evaluates (fun s i t => eval_bif env s i t only) (segments source 0 bl) s i o' s' i' true) \/
  (exists o s' i', parse env s i source only = BOk o s' i' /\ s'.(exit) = true) \/
  (exists p, parse env s i source only = BPanic p).
Proof.
  intros env s i source only bl HB. destruct (C26_parse_ends env s i source only) as [(o & s' & i' & H)|H]; [|auto].
  destruct (exit s') eqn:HE; [right; left; eauto|]. left. exists o, s', i'. split; [exact H|]. split; [exact HE|].
  apply (parse_evaluates env s i source only bl o s' i' HB) in H as (o' & fin & HV & ->).
  destruct fin; [|apply evaluates_stopped in HV; congruence]. eauto.
Qed.
Print Assumptions C33_rest_is_processed.
Example C33_example : output_of "a {:nosuch; x :} b {:!lang; :} c {:;name:}" = B "a  b  c World".
Proof. vm_compute. reflexivity. Qed.

(** ** C57 *)
Lemma idx_of_vget k j j' : vget k j = vget k j' -> idx j k = idx j' k.
Proof. unfold idx. intros ->. reflexivity. Qed.

Lemma init_shaped env t raw s i : default_shape t.(t_schema) -> init_render env t = IOk raw s i -> shaped s.
Proof.
  intros D HI. apply init_facts in HI. split; [|split; [|split]].
  - split; [apply (in_obj _ _ _ _ _ HI)|apply (in_data_obj _ _ _ _ _ HI)].
  - unfold show_error. rewrite (idx_of_vget (B "config") (schema s) (t_schema t)).
    + destruct (ds_show _ D) as [b ->]. discriminate.
    + apply (in_top _ _ _ _ _ HI); discriminate.
  - rewrite (in_moveto _ _ _ _ _ HI). exists []. split; [reflexivity|constructor].
  - intros k v. rewrite (in_store _ _ _ _ _ HI). cbn [oget]. destruct (beq k (B "block_1")); [|discriminate].
    intro E. assert (v = idx (t_schema t) (B "inherit")) as -> by congruence.
    split; [apply (ds_inherit _ D)|apply (ds_sections _ D)].
Qed.

Lemma init_panics env t p : default_shape t.(t_schema) -> init_render env t = IPanic p -> p = PRemoveComments.
Proof.
  intros D. unfold init_render, shared_new.
  destruct (ds_max _ D) as [n1 E1]. destruct (ds_debug _ D) as [n2 E2].
  destruct (ds_obj _ D) as [m Em].
  rewrite E1, E2. cbn [as_u64].
  match goal with |- context [comments (cfg ?x)] => set (s0 := x) end.
  destruct (if contains (B "remove") (comments (cfg s0)) then remove_comments (t_raw t) else Some (t_raw t)) as [raw|];
    [|intro H; congruence].
  destruct (create_block_schema s0 inherit_new) as [s1 i1] eqn:EC.
  assert (schema s1 = t_schema t) as ES.
  { destruct (create_store s0 inherit_new) as [x Ex]. rewrite EC in Ex. cbn [fst] in Ex. rewrite Ex. reflexivity. }
  rewrite ES, Em, put_obj, put_obj. unfold filter_context.
  pose proof (ds_data _ D) as HD. rewrite Em in HD.
  set (m2 := oset (B "__error") (JArr []) (oset (B "__moveto") (JObj []) m)).
  assert (idx (JObj m2) (B "data") = idx (JObj m) (B "data")) as EI.
  { unfold m2. rewrite idx_oset. cbn [beq]. change (beq (B "data") (B "__error")) with false. cbv iota.
    rewrite idx_oset. reflexivity. }
  rewrite <- EI in HD. clear EI.
  assert (forall f mm, null_or_obj (idx (JObj mm) (B "data")) ->
    exists mm' d, upd (B "data") (upd (B "CONTEXT") (fun v => Some (f v))) (JObj mm) = Some (JObj mm') /\ idx (JObj mm') (B "data") = JObj d) as HU.
  { intros f mm H. destruct H as [H|[d H]].
    - assert (upd (B "CONTEXT") (fun v => Some (f v)) (idx (JObj mm) (B "data")) = Some (JObj [(B "CONTEXT", f JNull)])) as EU
        by (rewrite H; reflexivity).
      eexists. eexists. split; [apply upd_obj; exact EU|]. rewrite idx_oset. reflexivity.
    - assert (exists d', upd (B "CONTEXT") (fun v => Some (f v)) (idx (JObj mm) (B "data")) = Some (JObj d')) as [d' EU].
      { rewrite H. eexists. apply upd_obj. reflexivity. }
      eexists. eexists. split; [apply upd_obj; exact EU|]. rewrite idx_oset. reflexivity. }
  destruct (HU filter_value m2 HD) as (m3 & d3 & -> & HD3).
  destruct (HU filter_value_keys m3) as (m4 & d4 & -> & _); [right; exists d3; exact HD3|].
  discriminate.
Qed.

(** For a schema of the default shape, whatever the template, the data, the file system, the
    clock and the external programs do, a render can abort only for one of the reasons listed in
    [allowed_panic]. *)
Theorem C57_panics : forall env fuel t p, default_shape t.(t_schema) ->
  render env fuel t = TPanic p -> allowed_panic env p.
Proof.
  intros env fuel t p D. unfold render. destruct (negb (contains BIF_OPEN (t_raw t))); [discriminate|].
  destruct (init_render env t) as [raw s i|q] eqn:EI.
  2:{ intro H. assert (q = p) as -> by congruence. rewrite (init_panics env t p D EI). exact I. }
  pose proof (init_shaped env t raw s i D EI) as HS.
  pose proof (top_parse_ok env _ _ _ (shape_frame env) s i raw [] HS) as G.
  destruct (top_parse env s i raw []) as [o1 s1 i1|q|]; [|intro H; assert (q = p) as -> by congruence; exact G|contradiction].
  destruct G as [G _].
  pose proof (cache_rounds_ok env _ _ _ (shape_frame env) i fuel s1 o1 G) as G2.
  destruct (cache_rounds env fuel s1 i o1) as [o2 s2|q|]; [|intro H; assert (q = p) as -> by congruence; exact G2|discriminate].
  destruct G2 as [(_ & _ & G2 & _) _]. destruct (moveto_shape_registered _ G2) as [l Hl].
  unfold ends_render. destruct (set_moveto_moved s2 l o2 Hl) as (o3 & -> & _). discriminate.
Qed.
Print Assumptions C57_panics.

(** the default schema, with the sample data, has that shape *)
Example C57_example : default_shape DEFAULT_SCHEMA /\ default_shape t0.(t_schema).
Proof.
  assert (forall j, (match j with JObj _ => true | _ => false end) = true -> is_obj j) as HO
    by (intros [] E; try discriminate; eexists; reflexivity).
  split; constructor.
  all: try (apply HO; vm_compute; reflexivity).
  all: try (eexists; vm_compute; reflexivity).
  all: try (right; apply HO; vm_compute; reflexivity).
  all: intros k [<-|[<-|[<-|[<-|[]]]]]; first [left; vm_compute; reflexivity | right; apply HO; vm_compute; reflexivity].
Qed.
