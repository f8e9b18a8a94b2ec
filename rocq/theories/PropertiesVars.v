(** * Property theorems: variables, code, names that must be allowed *)

From Verif Require Import Bytes Json Utils ConstantsGen State Engine Template Spec SpecEngine BytesFacts EscapeProofs TextProofs
  BlockProofs TemplateProofs InertProofs FrameProofs FrameRun EngineFrames MoreFrames EvalProofs KeepProofs HandlerProofs Samples.

(** ** The variable bif *)

Lemma contains_no p t : ~ occurs p t -> contains p t = false.
Proof. intro H. destruct (contains p t) eqn:E; [apply contains_iff in E; contradiction|reflexivity]. Qed.
Lemma contains_yes p t : occurs p t -> contains p t = true.
Proof. apply contains_iff. Qed.

(** what the variable [nm] shows *)
Definition shown (mods nm : bytes) (s : Shared) (i : Inherit) : bytes :=
  let v := var_text s i nm in
  let ctx := starts_with (B "CONTEXT->") nm in
  let o := if (has_mod "&" mods || s.(cfg).(filter_all)) && negb (has_mod "!" mods) then
             if negb ctx then escape_chars (unescape_chars v true) true else v
           else if s.(cfg).(filter_bifs) then encode_bifs v else v in
  if has_mod "!" mods && negb s.(cfg).(filter_bifs) && ctx then unescape_chars o true else o.

Lemma var_plus env s i mods body only : Forall modifier mods -> In "+"%char mods -> may_start s -> selected only i mods [] ->
  can_report (started s) ->
  eval_bif env s i (bif_text mods [] body) only =
  failed env (B "modifier not allowed") [] mods (bif_text mods [] body) [] (started s) (started_in s i).
Proof.
  intros HM HP HS HO HC. rewrite eval_bif_text by (assumption || plain).
  change (dispatch env ?r []) with (bif_var r). unfold bif_var, entry.
  rewrite bind_rejected by (proj; apply has_mod_true; exact HP).
  apply result_fail; [exact HC|reflexivity|reflexivity].
Qed.

Lemma var_blank env s i mods body only : Forall modifier mods -> ~ In "+"%char mods -> may_start s -> selected only i mods [] ->
  trim body = [] ->
  eval_bif env s i (bif_text mods [] body) only = finished mods UNPRINTABLE (started s) (started_in s i).
Proof.
  intros HM HP HS HO HE. rewrite eval_bif_text by (assumption || plain).
  change (dispatch env ?r []) with (bif_var r). unfold bif_var, entry.
  rewrite bind_reject by (proj; allowed). rewrite bind_getB. proj. rewrite HE. cbn [is_empty].
  rewrite bind_modB. apply result_done; reflexivity.
Qed.

Lemma var_run env s i mods body only nm s1 : Forall modifier mods -> ~ In "+"%char mods -> may_start s -> selected only i mods [] ->
  trim body <> [] -> contains_allow (trim body) = Some true \/ ~ occurs (B "{:") (trim body) ->
  variable_name env (started s) (started_in s i) only body nm s1 ->
  eval_bif env s i (bif_text mods [] body) only = finished mods (shown mods nm s1 (started_in s i)) s1 (started_in s i).
Proof.
  intros HM HP HS HO HE HA HV. rewrite eval_bif_text by (assumption || plain).
  change (dispatch env ?r []) with (bif_var r). unfold bif_var, entry.
  rewrite bind_reject by (proj; allowed). rewrite bind_getB. proj.
  assert (is_empty (trim body) = false) as EE by (destruct (trim body); [congruence|reflexivity]).
  rewrite EE, bind_modB, bind_if. change BIF_OPEN with (B "{:").
  rewrite (has_mod_false _ _ HP).
  assert (forall k : bytes -> M unit,
    (if contains (B "{:") (trim body)
     then bind (ok <- lift_option PRemoveComments (contains_allow (trim body)) ;;
                if negb ok then set_out [] ;;; err E_INSECURE_VAR
                else child (run_blocks env (enough_fuel s)) (trim body) false) k
            (mkSt (started s) (started_in s i) (bset_alias (B "var") (bif_of mods [] body only)))
     else bind (ret (trim body)) k (mkSt (started s) (started_in s i) (bset_alias (B "var") (bif_of mods [] body only))))
    = k nm (mkSt s1 (started_in s i) (bset_alias (B "var") (bif_of mods [] body only)))) as E.
  { intro k. destruct HV as [HN|nm s1 i1 HN HV].
    - rewrite (contains_no _ _ HN). reflexivity.
    - rewrite (contains_yes _ _ HN). destruct HA as [HA|HA]; [|contradiction]. rewrite HA. cbn [lift_option].
      rewrite bind_bind, bind_ret. cbn [negb].
      erewrite bind_done; [reflexivity|]. rewrite child_nested by (apply room_started || reflexivity).
      proj. rewrite HV. apply nested_later in HV as [_ ->]. reflexivity. }
  proj. unfold bif_of, bif_init in E |- *. cbn [bset_alias bset_mods bset_name bset_src] in E |- *. rewrite E. clear E.
  unfold get_data. rewrite bind_bind, bind_getS, bind_bind, bind_getI, bind_ret, bind_getS.
  unfold set_out. rewrite get_data_text. apply result_done; reflexivity.
Qed.

Lemma var_insecure env s i mods body only : Forall modifier mods -> ~ In "+"%char mods -> may_start s -> selected only i mods [] ->
  can_report (started s) -> occurs (B "{:") (trim body) -> contains_allow (trim body) = Some false ->
  eval_bif env s i (bif_text mods [] body) only =
  failed env (B "insecure varname") (B "var") mods (bif_text mods [] body) [] (started s) (started_in s i).
Proof.
  intros HM HP HS HO HC HN HA. rewrite eval_bif_text by (assumption || plain).
  change (dispatch env ?r []) with (bif_var r). unfold bif_var, entry.
  rewrite bind_reject by (proj; allowed). rewrite bind_getB. proj.
  assert (is_empty (trim body) = false) as EE.
  { destruct (trim body); [|reflexivity]. destruct HN as (u & v & E). destruct u; discriminate. }
  rewrite EE, bind_modB, bind_if. change BIF_OPEN with (B "{:"). rewrite (contains_yes _ _ HN), HA.
  cbn [lift_option]. rewrite bind_bind, bind_ret. cbn [negb]. unfold set_out. rewrite bind_bind, bind_modB, bind_err.
  apply result_fail; [exact HC|reflexivity|reflexivity].
Qed.

Lemma fail_text env e s i b mods o s' i' : bif_result env (Fail e (mkSt s i b)) = BOk o s' i' ->
  mod_upline b = has_mod "^" mods -> o = trim ((if has_mod "^" mods then BACKSPACE else []) ++ out b).
Proof.
  unfold bif_result. cbn [sh]. destruct (show_error s); [|discriminate]. unfold bif_finish. cbn [bf].
  intros E <-. destruct (mod_upline b); cbn [app]; congruence.
Qed.

(** every way in which the variable bif can end *)
Lemma var_cases env s i mods body only o s' i' : Forall modifier mods -> may_start s -> selected only i mods [] ->
  eval_bif env s i (bif_text mods [] body) only = BOk o s' i' ->
  let written w := o = trim ((if has_mod "^" mods then BACKSPACE else []) ++ w) in
  written [] \/ written UNPRINTABLE \/
  exists nm s1, variable_name env (started s) (started_in s i) only body nm s1 /\
    cfg s1 = cfg s /\ written (shown mods nm s1 (started_in s i)).
Proof.
  intros HM HS HO H. cbv beta zeta.
  destruct (has_mod "+" mods) eqn:EP.
  { left. revert H. rewrite eval_bif_text by (assumption || plain).
    change (dispatch env ?r []) with (bif_var r). unfold bif_var, entry. rewrite bind_rejected by exact EP.
    intro H. apply fail_text with (mods := mods) in H; [exact H|reflexivity]. }
  assert (~ In "+"%char mods) as HP by (intro E; apply has_mod_true in E; congruence).
  destruct (list_eq_dec ascii_dec (trim body) []) as [HE|HE].
  { right. left. rewrite var_blank in H by assumption. unfold finished in H. congruence. }
  destruct (contains (B "{:") (trim body)) eqn:EC.
  - apply contains_iff in EC. destruct (contains_allow (trim body)) as [[|]|] eqn:EA.
    + right. right.
      destruct (eval_nested env (B "var") (started s) (started_in s i) (trim body) only) as [nm s1 i1|q|] eqn:EV.
      * assert (variable_name env (started s) (started_in s i) only body nm s1) as HV by (eapply vn_eval; eassumption).
        exists nm, s1. split; [exact HV|]. split.
        { apply nested_later in EV as [[-> _] _]. reflexivity. }
        rewrite (var_run env s i mods body only nm s1) in H by (assumption || (left; assumption)).
        unfold finished in H. congruence.
      * exfalso. revert H. rewrite eval_bif_text by (assumption || plain).
        change (dispatch env ?r []) with (bif_var r). unfold bif_var, entry.
        rewrite bind_reject by (proj; allowed). rewrite bind_getB. proj.
        assert (is_empty (trim body) = false) as EE by (destruct (trim body); [congruence|reflexivity]).
        rewrite EE, bind_modB, bind_if. change BIF_OPEN with (B "{:"). rewrite (contains_yes _ _ EC), EA, EP.
        cbn [lift_option]. rewrite bind_bind, bind_ret. cbn [negb]. unfold bind at 1.
        rewrite child_nested by (apply room_started || reflexivity). proj. rewrite EV. discriminate.
      * exfalso. revert H. rewrite eval_bif_text by (assumption || plain).
        change (dispatch env ?r []) with (bif_var r). unfold bif_var, entry.
        rewrite bind_reject by (proj; allowed). rewrite bind_getB. proj.
        assert (is_empty (trim body) = false) as EE by (destruct (trim body); [congruence|reflexivity]).
        rewrite EE, bind_modB, bind_if. change BIF_OPEN with (B "{:"). rewrite (contains_yes _ _ EC), EA, EP.
        cbn [lift_option]. rewrite bind_bind, bind_ret. cbn [negb]. unfold bind at 1.
        rewrite child_nested by (apply room_started || reflexivity). proj. rewrite EV. discriminate.
    + left. revert H. rewrite eval_bif_text by (assumption || plain).
      change (dispatch env ?r []) with (bif_var r). unfold bif_var, entry.
      rewrite bind_reject by (proj; allowed). rewrite bind_getB. proj.
      assert (is_empty (trim body) = false) as EE by (destruct (trim body); [congruence|reflexivity]).
      rewrite EE, bind_modB, bind_if. change BIF_OPEN with (B "{:"). rewrite (contains_yes _ _ EC), EA.
      cbn [lift_option]. rewrite bind_bind, bind_ret. cbn [negb]. unfold set_out. rewrite bind_bind, bind_modB, bind_err.
      intro H. apply fail_text with (mods := mods) in H; [exact H|reflexivity].
    + exfalso. revert H. rewrite eval_bif_text by (assumption || plain).
      change (dispatch env ?r []) with (bif_var r). unfold bif_var, entry.
      rewrite bind_reject by (proj; allowed). rewrite bind_getB. proj.
      assert (is_empty (trim body) = false) as EE by (destruct (trim body); [congruence|reflexivity]).
      rewrite EE, bind_modB, bind_if. change BIF_OPEN with (B "{:"). rewrite (contains_yes _ _ EC), EA.
      cbn [lift_option]. rewrite bind_bind, bind_panic. discriminate.
  - assert (~ occurs (B "{:") (trim body)) as HN by (intro E; apply contains_iff in E; congruence).
    right. right. exists (trim body), (started s). split; [apply vn_literal; exact HN|]. split; [reflexivity|].
    rewrite (var_run env s i mods body only (trim body) (started s)) in H
      by (assumption || (right; assumption) || (apply vn_literal; assumption)).
    unfold finished in H. congruence.
Qed.

(** ** C10: the text of a variable contains no bif *)

(** With the cache enabled (so that output may be evaluated again: [filter_bifs]), whatever the
    variable is and whatever the modifiers are.  The exception: with '&' (or filter_all) the
    variables CONTEXT->... are output as they are, because init_render has already filtered
    them (C08): they have to be inert. *)
Theorem C10_no_bif : forall env s i mods body only o s' i', Forall modifier mods -> may_start s -> selected only i mods [] ->
  s.(cfg).(filter_bifs) = true ->
  (In "&"%char mods \/ s.(cfg).(filter_all) = true -> ~ In "!"%char mods ->
   forall nm s1, variable_name env (started s) (started_in s i) only body nm s1 ->
   (exists r, nm = B "CONTEXT->" ++ r) -> no_bif (var_text s1 (started_in s i) nm)) ->
  eval_bif env s i (bif_text mods [] body) only = BOk o s' i' -> no_bif o.
Proof.
  intros env s i mods body only o s' i' HM HS HO HF HC H.
  destruct (var_cases env s i mods body only o s' i' HM HS HO H) as [-> |[-> |(nm & s1 & HV & EC & -> )]].
  - apply mark_clean. split; intros (u & v & E); destruct u; discriminate.
  - apply mark_clean. split; intro E; apply contains_iff in E; vm_compute in E; discriminate.
  - apply mark_clean. unfold shown. rewrite EC, HF. rewrite andb_false_r. cbn [andb].
    destruct ((has_mod "&" mods || filter_all (cfg s)) && negb (has_mod "!" mods)) eqn:EM; [|apply encode_bifs_clean].
    destruct (starts_with (B "CONTEXT->") nm) eqn:EX; cbn [negb].
    + apply (HC); [..|exact HV|].
      * apply andb_prop in EM as [EM _]. apply orb_prop in EM as [EM|EM]; [left|right; exact EM].
        unfold has_mod in EM. apply existsb_exists in EM as (x & Hx & Ex). apply aeqb_eq in Ex. subst x. exact Hx.
      * apply andb_prop in EM as [_ EM]. intro E. apply has_mod_true in E. rewrite E in EM. discriminate.
      * apply starts_with_iff in EX. exact EX.
    + apply inert_clean. apply refilter_inert.
Qed.
Print Assumptions C10_no_bif.

(** without '&' (and filter_all), or with '!': no condition at all *)
Theorem C10_no_bif_plain : forall env s i mods body only o s' i', Forall modifier mods -> may_start s -> selected only i mods [] ->
  s.(cfg).(filter_bifs) = true -> In "!"%char mods \/ (~ In "&"%char mods /\ s.(cfg).(filter_all) = false) ->
  eval_bif env s i (bif_text mods [] body) only = BOk o s' i' -> no_bif o.
Proof.
  intros env s i mods body only o s' i' HM HS HO HF HC H. eapply C10_no_bif; try eassumption.
  intros H1 H2. exfalso. destruct HC as [HC|[HC1 HC2]]; [contradiction|]. destruct H1 as [H1|H1]; [contradiction|congruence].
Qed.
Print Assumptions C10_no_bif_plain.

(** [filter_bifs] is on when config.cache_disable is not true *)
Theorem C10_default : forall env t raw s i, init_render env t = IOk raw s i ->
  is_obj (idx t.(t_schema) (B "config")) ->
  (forall v, reaches [B "cache_disable"] (idx t.(t_schema) (B "config")) v -> ~ truthy v) -> s.(cfg).(filter_bifs) = true.
Proof.
  intros env t raw s i H [m Em] HC. apply init_facts in H. destruct (in_new _ _ _ _ _ H) as (s0 & E0 & ->).
  cbn [cfg set_schema set_indir_store]. unfold shared_new in E0.
  destruct (as_u64 _); [|discriminate]. destruct (as_u64 _); [|discriminate].
  assert (forall a b : Shared, Some a = Some b -> filter_bifs (cfg a) = filter_bifs (cfg b)) as HI by (intros a b E; congruence).
  apply HI in E0. rewrite <- E0. cbn [cfg filter_bifs]. apply negb_true_iff.
  destruct (is_bool_key (idx (t_schema t) (B "config")) (B "cache_disable")) eqn:EB; [|reflexivity].
  exfalso. rewrite Em in EB, HC. apply (bool_spec m (B "cache_disable") [B "cache_disable"]) in EB.
  - destruct EB as (v & H1 & H2). exact (HC v H1 H2).
  - discriminate.
  - apply np_plain; [discriminate|intro E; apply contains_iff in E; vm_compute in E; discriminate..].
Qed.
Print Assumptions C10_default.

(** and the variables CONTEXT->... are inert as long as the strings of CONTEXT are (at the start
    they are: C08) *)
Theorem C10_context : forall s i r, is_obj (idx s.(schema) (B "data")) ->
  (forall x, string_in x (idx (idx s.(schema) (B "data")) (B "CONTEXT")) -> inert true x) ->
  (forall l n, reaches l (idx (idx s.(schema) (B "data")) (B "CONTEXT")) (JNum n) -> no_bif (num_to_string n)) ->
  no_bif (var_text s i (B "CONTEXT->" ++ r)).
Proof.
  intros s i r [m Em] HI HN. unfold var_text, scope_of.
  change (strip_prefix (B "local::") (B "CONTEXT->" ++ r)) with (@None bytes). rewrite Em in *.
  destruct (name_path_exists r) as [l Hl].
  assert (name_path (B "CONTEXT->" ++ r) (B "CONTEXT" :: l)) as HP.
  { change (B "CONTEXT->" ++ r) with (B "CONTEXT" ++ B "->" ++ r). change (B "CONTEXT" :: l) with ([B "CONTEXT"] ++ l).
    apply np_arrow; [|exact Hl]. apply np_plain; [discriminate|intro E; apply contains_iff in E; vm_compute in E; discriminate..]. }
  assert (forall a, no_bif a <-> ~ occurs (B "{:") a /\ ~ occurs (B ":}") a) as HB by (intro a; reflexivity).
  unfold get_from_key. destruct (resolve_pointer (JObj m) (B "CONTEXT->" ++ r)) as [v|] eqn:ER.
  - apply (resolve_name m (B "CONTEXT->" ++ r) (B "CONTEXT" :: l) v) in ER; [|discriminate|exact HP].
    inversion ER as [|k r' j j' v' HS HR]; subst. inversion HS as [k m' v'' HG|]; subst.
    assert (idx (JObj m) (B "CONTEXT") = j') as EC by (unfold idx; change (vget (B "CONTEXT") (JObj m)) with (oget (B "CONTEXT") m); change (oget (B "CONTEXT") m = Some j') in HG; destruct (oget (B "CONTEXT") m); congruence). rewrite EC in HI, HN.
    assert (forall l j x, reaches l j (JStr x) -> string_in x j) as HSI.
    { clear. induction l as [|k l IH]; intros j x H; inversion H as [|k' r' j0 j1 v0 HS HR]; subst; [constructor|].
      apply IH in HR. inversion HS; subst.
      - eapply si_obj; [apply MergeProofs.oget_in; eassumption|exact HR].
      - eapply si_arr; [eapply nth_error_In; eassumption|exact HR]. }
    destruct v as [| [|] |n|x|x|x].
    + apply HB. split; intros (u & w & E); destruct u; discriminate.
    + split; intro E; apply contains_iff in E; vm_compute in E; discriminate.
    + split; intro E; apply contains_iff in E; vm_compute in E; discriminate.
    + eapply HN. exact HR.
    + apply inert_clean. apply HI. eapply HSI. exact HR.
    + split; intros (u & w & E); destruct u; discriminate.
    + split; intros (u & w & E); destruct u; discriminate.
  - split; intros (u & w & E); destruct u; discriminate.
Qed.
Print Assumptions C10_context.

(** The unconditional claim is false: a loop can bind CONTEXT itself, and then '&' outputs the
    value as it is; in the cache pass it would be evaluated. *)
Theorem C10_context_rebound_refuted :
  output_of "{:each; rows k CONTEXT >> {:&;CONTEXT->x:} :}" = B "{:;name:}" /\
  output_of "{:each; rows k v >> {:&;v->x:} :}" = B "&#123;:;name:&#125;".
Proof. split; vm_compute; reflexivity. Qed.
Print Assumptions C10_context_rebound_refuted.

Example C10_example : output_of "{:;evil:}{:&;evil:}{:!;evil:}" =
    B "&#123;:exit; 500 :&#125;&#123;:exit; 500 :&#125;&#123;:exit; 500 :&#125;" /\
  filter_bifs (cfg (fst (start_of ""))) = true /\ may_start (fst (start_of "")).
Proof. split; [vm_compute; reflexivity|]. split; [vm_compute; reflexivity|vm_compute; discriminate]. Qed.

(** ** code *)

(** a piece between two delimiters is one of the pieces *)
Lemma split_go_app (d : ascii) u v : split_go [d] 0 (u ++ d :: v) = split_go [d] 0 u ++ split_go [d] 0 v.
Proof.
  induction u as [|c u IH]; cbn [app].
  - cbn [split_go starts_with]. rewrite aeqb_refl. cbn [andb length Nat.sub]. destruct v; reflexivity.
  - cbn [split_go]. cbn [starts_with]. rewrite !andb_true_r. cbn [length Nat.sub].
    destruct (aeqb d c); cbn [app]; [f_equal; exact IH|]. rewrite IH.
    destruct (split_go [d] 0 u) eqn:E; [|reflexivity]. exfalso. revert E. clear. destruct u as [|a u]; [discriminate|].
    cbn [split_go]. destruct (starts_with [d] (a :: u)); [discriminate|]. destruct (split_go [d] 0 u); discriminate.
Qed.
Lemma split_go_plain (d : ascii) g : ~ In d g -> split_go [d] 0 g = [g].
Proof.
  induction g as [|c g IH]; intro H; [reflexivity|]. cbn [split_go starts_with]. rewrite andb_true_r.
  assert (aeqb d c = false) as -> by (destruct (aeqb d c) eqn:E; [apply aeqb_eq in E; subst; exfalso; apply H; left; reflexivity|reflexivity]).
  rewrite IH; [reflexivity|]. intro E. apply H. right. exact E.
Qed.
Lemma split_piece g fl : ~ In "|"%char g -> occurs (B "|" ++ g ++ B "|") fl -> In g (split (B "|") fl).
Proof.
  intros H (u & v & ->). unfold split. change (B "|") with ["|"%char]. cbn [app].
  rewrite split_go_app. apply in_or_app. right. rewrite <- app_assoc. cbn [app]. rewrite split_go_app.
  rewrite (split_go_plain _ _ H). left. reflexivity.
Qed.

Lemma flags_ok l fl : flags_in l fl -> bad_flag l fl = None.
Proof.
  intro H. unfold bad_flag. destruct (List.find _ _) as [f|] eqn:E; [|reflexivity]. exfalso.
  apply List.find_some in E as [HI E]. apply andb_prop in E as [E1 E2].
  destruct (H f HI) as [-> | HJ]; [discriminate|].
  apply negb_true_iff in E2. assert (existsb (beq f) l = true) as E3; [|congruence].
  apply existsb_exists. exists f. split; [exact HJ|apply beq_refl].
Qed.
Lemma bind_check_flags {C} l (k : unit -> M C) s i b : flags_in l (bflags b) ->
  bind (check_flags l) k (mkSt s i b) = k tt (mkSt s i b).
Proof. intro H. unfold check_flags, bind, getB. cbn [bf]. rewrite (flags_ok _ _ H). reflexivity. Qed.

Definition code_flags : list bytes := [B "safe"; B "encode_tags"; B "encode_bifs"; B "noparse"; B "encode_tags_after"].

Lemma code_run env s i mods body only p fl s1 : Forall modifier mods -> ~ In "&"%char mods -> ~ In "!"%char mods ->
  may_start s -> selected only i mods (B "code") ->
  prepared env (B "code") (started s) (started_in s i) only body p fl s1 -> flags_in code_flags fl ->
  let last c := if flagged (B "encode_tags_after") fl then encode_tags c else c in
  let c1 := if flagged (B "encode_tags") fl then encode_tags (code_of body) else code_of body in
  let c2 := if flagged (B "encode_bifs") fl then encode_bifs c1 else c1 in
  eval_bif env s i (bif_text mods (B "code") body) only =
  if flagged (B "safe") fl then finished mods (last (encode_bifs (encode_tags (code_of body)))) s1 (started_in s i)
  else if flagged (B "noparse") fl then finished mods (last c2) s1 (started_in s i)
  else and_then (eval_code env (B "code") (has_mod "+" mods) s1 (started_in s i) c2 only)
         (fun o s2 i2 => finished mods (last o) s2 i2).
Proof.
  intros HM HA HG HS HO HP HF. cbv beta zeta. rewrite eval_bif_text by (assumption || plain).
  change (dispatch env ?r (B "code")) with (bif_code r). unfold bif_code, entry.
  rewrite bind_reject by (proj; allowed). pose proof (room_started s) as HR.
  erewrite bind_done by (eapply run_extract; [exact HR|reflexivity..|exact HP]).
  rewrite bind_check_flags by exact HF. rewrite bind_getB. unfold has_flag, flagged. proj.
  change (B "|" ++ B "safe" ++ B "|") with (B "|safe|"). change (B "|" ++ B "encode_tags" ++ B "|") with (B "|encode_tags|").
  change (B "|" ++ B "encode_bifs" ++ B "|") with (B "|encode_bifs|"). change (B "|" ++ B "noparse" ++ B "|") with (B "|noparse|").
  change (B "|" ++ B "encode_tags_after" ++ B "|") with (B "|encode_tags_after|").
  assert (room (enough_fuel s) s1) as HR1 by (eapply room_later; [eapply prepared_later; exact HP|exact HR]).
  destruct (contains (B "|safe|") fl).
  - rewrite bind_modB. destruct (contains (B "|encode_tags_after|") fl).
    + rewrite bind_modB, bind_getB. unfold set_out. apply result_done; reflexivity.
    + rewrite bind_ret, bind_getB. unfold set_out. apply result_done; reflexivity.
  - rewrite !bind_bind, bind_if.
    assert (forall k : unit -> M unit, 
      (if contains (B "|encode_tags|") fl
       then bind (modB (fun b => bset_code (encode_tags b.(code)) b)) k
              (mkSt s1 (started_in s i) (bset_flags fl (bset_params p (bset_code (code_of body) (bif_of mods (B "code") body only)))))
       else bind (ret tt) k
              (mkSt s1 (started_in s i) (bset_flags fl (bset_params p (bset_code (code_of body) (bif_of mods (B "code") body only))))))
      = k tt (mkSt s1 (started_in s i) (bset_flags fl (bset_params p (bset_code
          (if contains (B "|encode_tags|") fl then encode_tags (code_of body) else code_of body) (bif_of mods (B "code") body only)))))) as E1.
    { intro k. destruct (contains (B "|encode_tags|") fl); reflexivity. }
    rewrite E1. clear E1. set (c1 := if contains (B "|encode_tags|") fl then encode_tags (code_of body) else code_of body).
    rewrite bind_bind, bind_if.
    assert (forall k : unit -> M unit, 
      (if contains (B "|encode_bifs|") fl
       then bind (modB (fun b => bset_code (encode_bifs b.(code)) b)) k
              (mkSt s1 (started_in s i) (bset_flags fl (bset_params p (bset_code c1 (bif_of mods (B "code") body only)))))
       else bind (ret tt) k
              (mkSt s1 (started_in s i) (bset_flags fl (bset_params p (bset_code c1 (bif_of mods (B "code") body only))))))
      = k tt (mkSt s1 (started_in s i) (bset_flags fl (bset_params p (bset_code
          (if contains (B "|encode_bifs|") fl then encode_bifs c1 else c1) (bif_of mods (B "code") body only)))))) as E1.
    { intro k. destruct (contains (B "|encode_bifs|") fl); reflexivity. }
    rewrite E1. clear E1. set (c2 := if contains (B "|encode_bifs|") fl then encode_bifs c1 else c1).
    destruct (contains (B "|noparse|") fl); cbn [negb].
    + rewrite bind_ret. destruct (contains (B "|encode_tags_after|") fl).
      * rewrite bind_modB, bind_getB. unfold set_out. apply result_done; reflexivity.
      * rewrite bind_ret, bind_getB. unfold set_out. apply result_done; reflexivity.
    + unfold bind at 1. rewrite run_code by (exact HR1 || reflexivity). proj.
      destruct (eval_code env (B "code") (has_mod "+" mods) s1 (started_in s i) c2 only) as [o s2 i2|q|] eqn:E;
        [|reflexivity|reflexivity].
      cbn [onto and_then]. destruct (contains (B "|encode_tags_after|") fl).
      * rewrite bind_modB, bind_getB. unfold set_out. apply result_done; reflexivity.
      * rewrite bind_ret, bind_getB. unfold set_out. apply result_done; reflexivity.
Qed.

(** ** C11: code with the flag safe *)

(** The content is not evaluated (the state is the one after the parameters) and the output
    contains no bif and no character that is active in HTML. *)
Theorem C11_safe_is_inert : forall env s i mods body only p fl s1, Forall modifier mods ->
  ~ In "&"%char mods -> ~ In "!"%char mods -> may_start s -> selected only i mods (B "code") ->
  prepared env (B "code") (started s) (started_in s i) only body p fl s1 -> flags_in code_flags fl ->
  occurs (B "|safe|") fl ->
  exists w, eval_bif env s i (bif_text mods (B "code") body) only = finished mods w s1 (started_in s i) /\
    no_bif (trim ((if has_mod "^" mods then BACKSPACE else []) ++ w)) /\
    forall c, In c (B "<>/'" ++ [c_quot]) -> ~ In c (trim ((if has_mod "^" mods then BACKSPACE else []) ++ w)).
Proof.
  intros env s i mods body only p fl s1 HM HA HG HS HO HP HF HX.
  pose proof (code_run env s i mods body only p fl s1 HM HA HG HS HO HP HF) as E. cbv beta zeta in E.
  assert (flagged (B "safe") fl = true) as EX by (apply contains_yes; exact HX). rewrite EX in E.
  eexists. split; [exact E|]. clear E.
  assert (forall t, no_bif t -> (forall c, In c (active false) -> ~ In c t) ->
    no_bif (trim ((if has_mod "^" mods then BACKSPACE else []) ++ t)) /\
    forall c, In c (B "<>/'" ++ [c_quot]) -> ~ In c (trim ((if has_mod "^" mods then BACKSPACE else []) ++ t))) as HW.
  { intros t H1 H2. split; [apply mark_clean; exact H1|]. intros c HC HI.
    assert (forall w x, In x (trim w) -> In x w) as HT by (intros w x Hx; destruct (trim_infix w) as (a & b & ->); apply in_or_app; right; apply in_or_app; left; exact Hx).
    apply HT in HI. apply in_app_or in HI as [HI|HI].
    - destruct (has_mod "^" mods); [|contradiction]. cbn in HC, HI. intuition (subst; discriminate).
    - revert HI. apply H2. cbn in HC |- *. tauto. }
  set (t := encode_bifs (encode_tags (code_of body))).
  assert (no_bif t /\ forall c, In c (active false) -> ~ In c t) as [H1 H2].
  { split; [apply encode_bifs_clean|]. intros c HC. apply encode_bifs_active; [exact HC|]. apply encode_tags_active. exact HC. }
  destruct (flagged (B "encode_tags_after") fl); [|apply HW; assumption].
  apply HW; [apply encode_tags_clean; exact H1|]. intros c HC. apply encode_tags_active. exact HC.
Qed.
Print Assumptions C11_safe_is_inert.

Example C11_example : output_of "{:code; {:flg; safe :} >> <b>{:;name:}</b> :}" = B "&lt;b&gt;&#123;:;name:&#125;&lt;&#x2F;b&gt;" /\
  (let s := fst (start_of "") in let i := snd (start_of "") in
   match eval_nested env0 (B "code") (set_sflags [] (started s)) (started_in s i) (B "{:flg; safe :}") [] with
   | BOk p s1 _ => flags_in code_flags (sflags s1) /\ occurs (B "|safe|") (sflags s1)
   | _ => False
   end).
Proof.
  split; [vm_compute; reflexivity|]. cbv zeta.
  assert (match eval_nested env0 (B "code") (set_sflags [] (started (fst (start_of ""))))
                  (started_in (fst (start_of "")) (snd (start_of ""))) (B "{:flg; safe :}") [] with
          | BOk _ s1 _ => sflags s1 = B "|safe|" | _ => False end) as H by (vm_compute; reflexivity).
  destruct (eval_nested _ _ _ _ _ _) as [o s1 i1|q|]; [|contradiction|contradiction]. rewrite H. split.
  - intros f HI. vm_compute in HI. destruct HI as [<-|[<-|[<-|[]]]]; [left; reflexivity| |left; reflexivity].
    right. left. reflexivity.
  - apply contains_iff. reflexivity.
Qed.

(** ** C64: neutral and noparse *)

(** neutral is its own source: nothing of it is evaluated *)
Theorem C64_neutral : forall env s i mods body only, Forall modifier mods ->
  ~ In "&"%char mods -> ~ In "!"%char mods -> ~ In "+"%char mods -> may_start s -> selected only i mods (B "neutral") ->
  eval_bif env s i (bif_text mods (B "neutral") body) only =
  finished mods (bif_text mods (B "neutral") body) (started s) (started_in s i).
Proof.
  intros env s i mods body only HM HA HG HU HS HO. rewrite eval_bif_text by (assumption || plain).
  change (dispatch env ?r (B "neutral")) with bif_neutral. unfold bif_neutral, entry.
  rewrite bind_reject by (proj; allowed). rewrite bind_getB. unfold set_out. apply result_done; reflexivity.
Qed.
Print Assumptions C64_neutral.

(** code with noparse (and none of the encoding flags) is its own code *)
Theorem C64_noparse : forall env s i mods body only p fl s1, Forall modifier mods ->
  ~ In "&"%char mods -> ~ In "!"%char mods -> may_start s -> selected only i mods (B "code") ->
  prepared env (B "code") (started s) (started_in s i) only body p fl s1 -> flags_in [B "noparse"] fl ->
  occurs (B "|noparse|") fl ->
  eval_bif env s i (bif_text mods (B "code") body) only = finished mods (code_of body) s1 (started_in s i).
Proof.
  intros env s i mods body only p fl s1 HM HA HG HS HO HP HF HX.
  assert (flags_in code_flags fl) as HF2.
  { intros f HI. destruct (HF f HI) as [E|[<-|[]]]; [left; exact E|right; cbn; tauto]. }
  assert (forall g, ~ In "|"%char g -> g <> [] -> g <> B "noparse" -> flagged g fl = false) as HN.
  { intros g H1 H2 H3. destruct (flagged g fl) eqn:E; [|reflexivity]. exfalso. unfold flagged in E. apply contains_iff in E.
    assert (In g (split (B "|") fl)) as HI by (apply split_piece; [exact H1|exact E]).
    destruct (HF g HI) as [EE|[EE|[]]]; congruence. }
  pose proof (code_run env s i mods body only p fl s1 HM HA HG HS HO HP HF2) as E. cbv beta zeta in E.
  rewrite (HN (B "safe")) in E by (discriminate || (cbn; intuition discriminate)).
  rewrite (HN (B "encode_tags")) in E by (discriminate || (cbn; intuition discriminate)).
  rewrite (HN (B "encode_bifs")) in E by (discriminate || (cbn; intuition discriminate)).
  rewrite (HN (B "encode_tags_after")) in E by (discriminate || (cbn; intuition discriminate)).
  assert (flagged (B "noparse") fl = true) as EX by (apply contains_yes; exact HX). rewrite EX in E. exact E.
Qed.
Print Assumptions C64_noparse.

Example C64_example : output_of "{:neutral; {:;name:} :}" = B "{:neutral; {:;name:} :}" /\
  output_of "{:code; {:flg; noparse :} >> {:;name:} :}" = B "{:;name:}".
Proof. split; vm_compute; reflexivity. Qed.

(** In a whole template the text does not stay alone: as soon as one {:!cache; ... :} has been
    evaluated in the cache pass, every later bif of the output is evaluated, this one too. *)
Theorem C64_cache_pass_refuted :
  output_of "{:cache; /120/ >> {:!cache; a :} :}{:code; {:flg; noparse :} >> {:;name:} :}" = B "aWorld".
Proof. vm_compute. reflexivity. Qed.
Print Assumptions C64_cache_pass_refuted.

(** ** C37: dynamic variable names *)

Lemma notes_or_plain l : occurs (B "{:") (ctexts l) \/ ctexts l = outside l.
Proof.
  induction l as [|[t|b] l IH]; [right; reflexivity| |].
  - cbn [ctexts outside flat_map ctext]. change (flat_map ctext l) with (ctexts l).
    change (flat_map (fun p => match p with CText t => t | CNote _ => [] end) l) with (outside l).
    destruct IH as [IH|IH]; [left; apply occurs_app_r; exact IH|right; rewrite IH; reflexivity].
  - left. exists [], (B "*" ++ flat_map ctext b ++ B "*:}" ++ ctexts l).
    cbn [ctexts flat_map ctext]. rewrite <- !app_assoc. reflexivity.
Qed.

Lemma bare_facts t : bare_variable t -> occurs (B "{:") t /\ contains_allow t = Some false.
Proof.
  intros (l & w & HW & -> & HO & H1 & H2). split.
  - destruct (notes_or_plain l) as [H|H]; [exact H|]. rewrite H, HO. exists [], (B ";" ++ w ++ B ":}"). reflexivity.
  - unfold contains_allow. rewrite (contains_no _ _ H1), (contains_no _ _ H2). cbn [orb].
    rewrite (remove_comments_exact l HW), HO. f_equal. apply negb_false_iff, andb_true_intro. split.
    + apply starts_with_app.
    + unfold ends_with. rewrite app_assoc, rev_app_distr. apply starts_with_app.
Qed.

(** A variable whose name is itself a bare variable bif is rejected: the only effects are the
    error and one more bif started; the inner bif is not evaluated. *)
Theorem C37_rejected : forall env s i mods body only, Forall modifier mods -> ~ In "+"%char mods ->
  may_start s -> selected only i mods [] -> can_report (started s) -> bare_variable (trim body) ->
  eval_bif env s i (bif_text mods [] body) only =
  failed env (B "insecure varname") (B "var") mods (bif_text mods [] body) [] (started s) (started_in s i).
Proof.
  intros env s i mods body only HM HP HS HO HC HB. apply bare_facts in HB as [H1 H2]. apply var_insecure; assumption.
Qed.
Print Assumptions C37_rejected.

Example C37_example : bare_variable (trim (B " {:* x *:}{:;ref:} ")) /\
  output_of "{:;{:;ref:}:}{:;name:}" = B "World" /\ can_report (started (fst (start_of ""))).
Proof.
  split; [|split; [vm_compute; reflexivity|exists true; vm_compute; reflexivity]].
  exists [CNote [CText (B " x ")]; CText (B "{:;ref:}")], (B "ref"). split.
  - constructor.
    + constructor.
      * constructor; [|constructor|intro; exact I].
        constructor; [discriminate|intro E; apply contains_iff in E; vm_compute in E; discriminate..].
      * intros [r E]. discriminate.
      * intros [r E]. apply (f_equal (@rev ascii)) in E. rewrite rev_app_distr in E. discriminate.
    + constructor; [intro E; apply contains_iff in E; vm_compute in E; discriminate|exact I|constructor].
  - split; [vm_compute; reflexivity|]. split; [reflexivity|].
    split; intro E; apply contains_iff in E; vm_compute in E; discriminate.
Qed.

(** The check is about the text "{:;": with a modifier, or inside another bif, the name is
    evaluated without allow; so it is when "{:allow;" occurs anywhere in it, even in code that is not rendered. *)
Theorem C37_every_dynamic_name_refuted :
  output_of "{:;{:&;ref:}:}" = B "World" /\ output_of "{:;{:code;{:;ref:}:}:}" = B "World" /\
  output_of "{:;{:;ref:}{:bool; no >> {:allow; x >> y :} :}:}" = B "World".
Proof. repeat split; vm_compute; reflexivity. Qed.
Print Assumptions C37_every_dynamic_name_refuted.
