(** * Property theorems: modifiers, allow, definitions, redirect, rand, trans, join *)

From Verif Require Import Bytes Json Utils ConstantsGen State Engine Template Spec SpecEngine SpecStatus BytesFacts EscapeProofs WildcardProofs TextProofs
  BlockProofs TemplateProofs WordProofs InertProofs FrameProofs FrameRun EngineFrames MoreFrames EvalProofs KeepProofs HandlerProofs Samples
  PropertiesVars PropertiesFiles.

(** ** C54: disallowed modifiers *)

Ltac refuse HC HI :=
  rewrite bind_rejected;
  [apply result_fail; [exact HC|reflexivity|reflexivity]
  |proj; repeat match goal with H : In _ ?m |- _ => apply has_mod_true in H; rewrite H end;
   rewrite ?orb_true_l, ?orb_true_r; reflexivity].

Theorem C54_refused : forall env s i mods nm no c body only, In (nm, no) refused -> In c no -> In c mods ->
  Forall modifier mods -> may_start s -> selected only i mods nm -> can_report s ->
  eval_bif env s i (bif_text mods nm body) only =
  failed env (B "modifier not allowed") nm mods (bif_text mods nm body) [] (started s) (started_in s i).
Proof.
  intros env s i mods nm no c body only HT HI HC HM HS HO HR.
  assert (can_report (started s)) as HR2 by exact HR.
  assert (plain_name nm) as HN.
  { assert (Forall (fun e => plain_name (fst e)) refused) as HF by (repeat (constructor; [plain|]); constructor).
    rewrite Forall_forall in HF. exact (HF _ HT). }
  rewrite eval_bif_text by assumption.
  assert (exists t h, dispatch env (run_blocks env (enough_fuel s)) nm = bind (reject t) h /\
            t (bif_of mods nm body only) = true) as (t & h & -> & ET).
  2:{ unfold entry. rewrite bind_rejected by exact ET. apply result_fail; [exact HR2|reflexivity|reflexivity]. }
  apply has_mod_true in HC.
  repeat (destruct HT as [HT|HT];
    [apply (f_equal fst) in HT as HT1; apply (f_equal snd) in HT as HT2; cbn [fst snd] in HT1, HT2; subst nm no;
     do 2 eexists; (split; [reflexivity|]); proj;
     repeat (destruct HI as [<-|HI]; [rewrite HC, ?orb_true_l, ?orb_true_r; reflexivity|]); destruct HI|]).
  destruct HT.
Qed.
Print Assumptions C54_refused.

(** every bif is in the table *)
Theorem C54_table_is_complete : forall env rec nm, ~ In nm (map fst refused) -> dispatch env rec nm = bif_unknown.
Proof.
  intros env rec nm H. unfold dispatch, handlers. cbn [lookup_handler].
  repeat match goal with
  | |- (if beq nm ?k then _ else _) = _ =>
      let E := fresh in destruct (beq nm k) eqn:E; [apply beq_eq in E; exfalso; apply H; rewrite E; vm_compute; tauto|clear E]
  end. reflexivity.
Qed.
Print Assumptions C54_table_is_complete.

Example C54_example : In (B "moveto", B "&!+") refused /\ In "!"%char (B "&!+") /\
  output_of "a{:!moveto; <body >> {:exit; 404 :} :}b{:+lang; :}" = B "ab".
Proof. split; [cbn; tauto|]. split; [cbn; tauto|]. vm_compute. reflexivity. Qed.

(** ** C04: allow *)

Lemma replace_byte_filter (a : ascii) t : replace [a] [] t = filter (fun x => negb (aeqb x a)) t.
Proof.
  unfold replace. induction t as [|x t IH]; [reflexivity|]. cbn [repl starts_with filter length Nat.sub app].
  assert (aeqb a x = aeqb x a) as -> by (destruct (aeqb x a) eqn:E; [apply aeqb_eq in E; subst; apply aeqb_refl|apply aeqb_neq in E; apply aeqb_neq; congruence]).
  rewrite andb_true_r, IH. destruct (aeqb x a); reflexivity.
Qed.

Lemma wildcards_out w : replace (B ".") [] (replace (B "?") [] (replace (B "*") [] (replace (B "~") [] w))) = without_wildcards w.
Proof.
  change (B ".") with ["."%char]. change (B "?") with ["?"%char]. change (B "*") with ["*"%char]. change (B "~") with ["~"%char].
  rewrite !replace_byte_filter. unfold without_wildcards. induction w as [|x w IH]; [reflexivity|].
  cbn [filter].
  change (existsb (aeqb x) (B "~*?.")) with (aeqb x "~" || (aeqb x "*" || (aeqb x "?" || (aeqb x "." || false)))).
  destruct (aeqb x "~"); cbn [negb orb filter]; [exact IH|].
  destruct (aeqb x "*"); cbn [negb orb filter]; [exact IH|].
  destruct (aeqb x "?"); cbn [negb orb filter]; [exact IH|].
  destruct (aeqb x "."); cbn [negb orb filter]; [exact IH|]. f_equal. exact IH.
Qed.

Definition allow_flags : list bytes := [B "partial"; B "replace"; B "casein"].

(** What allow lets through is decided by the declared words alone: the content is evaluated, and
    the output [r c] for the evaluated content [c] is as the property says. *)
Theorem C04_allow : forall env s i mods body only p fl s1, Forall modifier mods -> ~ In "&"%char mods -> ~ In "+"%char mods ->
  may_start s -> selected only i mods (B "allow") ->
  prepared env (B "allow") (started s) (started_in s i) only body p fl s1 -> flags_in allow_flags fl ->
  declared s1 (started_in s i) p <> [] ->
  exists r,
    eval_bif env s i (bif_text mods (B "allow") body) only =
    and_then (eval_nested env (B "allow") s1 (started_in s i) (code_of body) only) (fun c => finished mods (r c)) /\
    forall c,
      let hit w := word_of w (declared s1 (started_in s i) p) /\ allows env fl w c in
      (~ In "!"%char mods -> (forall w, ~ hit w) -> r c = []) /\
      (~ In "!"%char mods -> (exists w, hit w) -> flagged (B "replace") fl = false -> r c = c) /\
      (~ In "!"%char mods -> (exists w, hit w) -> flagged (B "replace") fl = true -> exists w, hit w /\ r c = without_wildcards w) /\
      (In "!"%char mods -> (exists w, hit w) -> r c = []) /\
      (In "!"%char mods -> (forall w, ~ hit w) -> r c = if flagged (B "replace") fl then [] else c).
Proof.
  intros env s i mods body only p fl s1 HM HA HU HS HO HP HF HD.
  assert (forall w c, allow_word env fl c w = true <-> allows env fl w c) as HW.
  { intros w c. unfold allow_word, allows, flagged.
    change (B "|" ++ B "partial" ++ B "|") with (B "|partial|"). change (B "|" ++ B "replace" ++ B "|") with (B "|replace|").
    change (B "|" ++ B "casein" ++ B "|") with (B "|casein|").
    destruct (contains (B "|casein|") fl); reflexivity. }
  set (words := declared s1 (started_in s i) p) in *.
  set (fnd := fun c => match List.find (allow_word env fl c) (split_whitespace words) with Some w => w | None => [] end).
  exists (fun c => if xorb (negb (is_empty (fnd c))) (has_mod "!" mods) then
            if flagged (B "replace") fl then without_wildcards (fnd c) else c else []).
  split.
  - rewrite eval_bif_text by (assumption || plain).
    change (dispatch env ?r (B "allow")) with (bif_allow env r). unfold bif_allow, entry.
    rewrite bind_reject by (proj; allowed). pose proof (room_started s) as HR.
    erewrite bind_done by (eapply run_extract; [exact HR|reflexivity..|exact HP]).
    rewrite bind_getB, bind_getS, bind_getI. proj.
    change (get_from_key (idx (get_indir s1 (indir (started_in s i))) (B "declare")) p) with words.
    assert (room (enough_fuel s) s1) as HR1 by (eapply room_later; [eapply prepared_later; exact HP|exact HR]).
    assert (is_empty words = false) as -> by (destruct words; [congruence|reflexivity]).
    rewrite bind_check_flags by exact HF. unfold bind at 1.
    rewrite (has_mod_false _ _ HU).
    rewrite child_block by (exact HR1 || reflexivity). proj. unfold eval_block.
    destruct (eval_nested env (B "allow") s1 (started_in s i) (code_of body) only) as [o s2 i2|q|] eqn:E; [|reflexivity|reflexivity].
    cbn [onto and_then]. rewrite bind_modB. fold (fnd o).
    unfold has_flag, flagged. proj. change (B "|" ++ B "replace" ++ B "|") with (B "|replace|").
    destruct (xorb (negb (is_empty (fnd o))) (has_mod "!" mods)).
    + destruct (contains (B "|replace|") fl); unfold set_out; [rewrite wildcards_out|]; apply result_done; reflexivity.
    + unfold set_out. apply result_done; reflexivity.
  - intro c. cbv zeta.
    set (hit := fun w => word_of w words /\ allows env fl w c).
    assert ((exists w, hit w /\ fnd c = w /\ is_empty w = false) \/ ((forall w, ~ hit w) /\ fnd c = [])) as HH.
    { unfold fnd. destruct (List.find _ _) as [w|] eqn:E.
      - apply List.find_some in E as [E1 E2]. left. exists w. split; [split; [apply words_exact; exact E1|apply HW; exact E2]|].
        split; [reflexivity|]. apply word_ne in E1. destruct w; [congruence|reflexivity].
      - right. split; [|reflexivity]. intros w [H1 H2]. apply words_exact in H1. apply HW in H2.
        pose proof (List.find_none _ _ E _ H1). congruence. }
    split; [|split; [|split; [|split]]].
    + intros HG HN. rewrite (has_mod_false _ _ HG). destruct HH as [(w & H & _)|[_ ->]]; [exfalso; exact (HN w H)|reflexivity].
    + intros HG [w0 H0] HF0. rewrite (has_mod_false _ _ HG), HF0. destruct HH as [(w & _ & -> & ->)|[H _]]; [reflexivity|exfalso; exact (H w0 H0)].
    + intros HG [w0 H0] HF0. rewrite (has_mod_false _ _ HG), HF0. destruct HH as [(w & H & -> & ->)|[H _]]; [exists w; split; [exact H|reflexivity]|exfalso; exact (H w0 H0)].
    + intros HG [w0 H0]. rewrite (has_mod_true _ _ HG). destruct HH as [(w & H & -> & ->)|[H _]]; [reflexivity|exfalso; exact (H w0 H0)].
    + intros HG HN. rewrite (has_mod_true _ _ HG). destruct HH as [(w & H & _)|[_ ->]]; [exfalso; exact (HN w H)|reflexivity].
Qed.
Print Assumptions C04_allow.

(** without a declaration allow fails, and its content is not evaluated *)
Theorem C04_undeclared : forall env s i mods body only p fl s1, Forall modifier mods -> ~ In "&"%char mods -> ~ In "+"%char mods ->
  may_start s -> selected only i mods (B "allow") -> has_data s -> can_report s ->
  prepared env (B "allow") (started s) (started_in s i) only body p fl s1 ->
  declared s1 (started_in s i) p = [] ->
  eval_bif env s i (bif_text mods (B "allow") body) only =
  failed env (p ++ B " declared is empty") (B "allow") mods (bif_text mods (B "allow") body) [] s1 (started_in s i).
Proof.
  intros env s i mods body only p fl s1 HM HA HU HS HO HH HC HP HD.
  rewrite eval_bif_text by (assumption || plain).
  change (dispatch env ?r (B "allow")) with (bif_allow env r). unfold bif_allow, entry.
  rewrite bind_reject by (proj; allowed). pose proof (room_started s) as HR.
  erewrite bind_done by (eapply run_extract; [exact HR|reflexivity..|exact HP]).
  rewrite bind_getB, bind_getS, bind_getI. proj.
  change (get_from_key (idx (get_indir s1 (indir (started_in s i))) (B "declare")) p) with (declared s1 (started_in s i) p).
  rewrite HD. cbn [is_empty].
  apply result_fail; [|reflexivity|reflexivity]. eapply prepared_reports; [| |exact HP]; [exact HH|exact HC].
Qed.
Print Assumptions C04_undeclared.

Example C04_example :
  output_of "[{:allow; any >> yes :}][{:!allow; traversal >> yes :}][{:!allow; traversal >> /etc :}][{:allow; {:flg; replace casein :} traversal >> /x :}]"
  = B "[yes][yes][][/]" /\
  word_of (B "/*") (declared (fst (start_of "")) (snd (start_of "")) (B "traversal")) /\ allows env0 [] (B "/*") (B "/etc") /\
  output_of "[{:allow; nosuch >> {:exit; 404 :} :}]" = B "[]".
Proof.
  split; [vm_compute; reflexivity|]. split; [apply words_exact; vm_compute; tauto|]. split; [vm_compute; reflexivity|].
  vm_compute. reflexivity.
Qed.

(** So {:!allow; traversal >> path :} outputs a path exactly if it is no traversal path (with the shipped words). *)
Theorem C03_not_output : forall env s i mods body only s1, Forall modifier mods -> ~ In "&"%char mods -> ~ In "+"%char mods -> In "!"%char mods ->
  may_start s -> selected only i mods (B "allow") ->
  prepared env (B "allow") (started s) (started_in s i) only body (B "traversal") [] s1 ->
  declared s1 (started_in s i) (B "traversal") = get_from_key (idx (idx DEFAULT_SCHEMA (B "inherit")) (B "declare")) (B "traversal") ->
  exists r,
    eval_bif env s i (bif_text mods (B "allow") body) only =
    and_then (eval_nested env (B "allow") s1 (started_in s i) (code_of body) only) (fun c => finished mods (r c)) /\
    forall c, utf8_valid c = true -> (traversal_path c -> r c = []) /\ (~ traversal_path c -> r c = c).
Proof.
  intros env s i mods body only s1 HM HA HP HN MS SE PR DE.
  destruct (C04_allow env s i mods body only (B "traversal") [] s1 HM HA HP MS SE PR) as (r & HR & HC).
  - intros f [<- |[]]. left. reflexivity.
  - rewrite DE. vm_compute. discriminate.
  - exists r. split; [exact HR|]. intros c V. destruct (HC c) as (_ & _ & _ & H1 & H2). rewrite DE in H1, H2.
    assert ((exists w, word_of w (get_from_key (idx (idx DEFAULT_SCHEMA (B "inherit")) (B "declare")) (B "traversal")) /\ allows env [] w c) <-> traversal_path c) as HT.
    { rewrite <- (traversal_match c (utf8_aligned c V)), <- default_traversal_words. split.
      - intros (w & HW & HL). exists w. split; [apply words_exact; exact HW|exact HL].
      - intros (w & HW & HL). exists w. split; [apply words_exact; exact HW|exact HL]. }
    split; intro T.
    + apply H1; [exact HN|]. apply HT. exact T.
    + apply H2; [exact HN|]. intros w HW. apply T, HT. exists w. exact HW.
Qed.
Print Assumptions C03_not_output.
Example C03_not_output_example : declared (fst (start_of "")) (snd (start_of "")) (B "traversal") = get_from_key (idx (idx DEFAULT_SCHEMA (B "inherit")) (B "declare")) (B "traversal") /\
  output_of "[{:!allow; traversal >> a/../b :}][{:!allow; traversal >> a/b :}]" = B "[][a/b]".
Proof. split; vm_compute; reflexivity. Qed.

(** ** C53: where definitions are accepted *)

Lemma create_visible s i s1 i1 : is_obj (visible s i) -> create_block_schema s i = (s1, i1) -> visible s1 i1 = visible s i.
Proof.
  unfold visible, get_indir. intros [m H] E. unfold create_block_schema in E. injection E as <- <-. cbn [indir iset_indir].
  destruct (beq (indir i) _) eqn:EB; [apply beq_eq in EB; rewrite <- EB; reflexivity|].
  destruct (oget (indir i) (indir_store s)) as [v|] eqn:EG; [|discriminate].
  cbn [indir_store set_indir_store]. rewrite oget_oset, beq_refl. reflexivity.
Qed.

Lemma idx_oset k k' v m : idx (JObj (oset k v m)) k' = if beq k' k then v else idx (JObj m) k'.
Proof. unfold idx, vget. rewrite oget_oset. destruct (beq k' k); reflexivity. Qed.

Lemma run_define s i b sec nm v : definable sec s i ->
  exists s', upd_local (upd sec (put nm v)) (mkSt s i b) = Done tt (mkSt s' i b) /\
    defined_as sec nm v (visible s i) (visible s' i) /\ only_local s s'.
Proof.
  intros [[m H] HN]. unfold upd_local, upd_indir. cbn [inh sh bf].
  assert (oget (indir i) (indir_store s) = Some (JObj m)) as EG.
  { unfold visible, get_indir in H. destruct (oget (indir i) (indir_store s)); [f_equal; exact H|discriminate]. }
  rewrite EG, H in *.
  assert (exists w, put nm v (idx (JObj m) sec) = Some w /\ idx w nm = v /\ forall k, k <> nm -> idx w k = idx (idx (JObj m) sec) k) as (w & EP & W1 & W2).
  { unfold put. destruct HN as [->|[m2 ->]].
    - unfold upd. eexists. split; [reflexivity|]. split.
      + unfold idx, vget. cbn [oget]. rewrite ?beq_refl. reflexivity.
      + intros k Hk. unfold idx, vget. cbn. destruct (beq k nm) eqn:E; [apply beq_eq in E; contradiction|reflexivity].
    - rewrite (upd_obj _ _ _ v) by reflexivity. eexists. split; [reflexivity|]. split.
      + rewrite idx_oset, beq_refl. reflexivity.
      + intros k Hk. rewrite idx_oset. destruct (beq k nm) eqn:E; [apply beq_eq in E; contradiction|reflexivity]. }
  rewrite (upd_obj _ _ _ _ EP). eexists. split; [reflexivity|]. split; [|eexists; reflexivity].
  unfold visible, get_indir. cbn [indir_store set_indir_store]. rewrite oget_oset, beq_refl. split; [|split].
  - rewrite idx_oset, beq_refl. exact W1.
  - intros k Hk. rewrite idx_oset, beq_refl. apply W2. exact Hk.
  - intros c Hc. rewrite idx_oset. destruct (beq c sec) eqn:E; [apply beq_eq in E; contradiction|reflexivity].
Qed.

(** param outside a code block, declare outside a snippet file, snippet outside both: an error,
    the only effects are the evaluation of the parameters and the error *)
Theorem C53_param_refused : forall env s i mods body only p s1, Forall modifier mods ->
  ~ In "&"%char mods -> ~ In "!"%char mods -> ~ In "+"%char mods ->
  may_start s -> selected only i mods (B "param") -> has_data s -> can_report s ->
  prepared env (B "param") (started s) (started_in s i) only body p [] s1 ->
  separated body = true -> i.(ialias) <> B "code" ->
  eval_bif env s i (bif_text mods (B "param") body) only =
  failed env (B "param cannot be set here") (B "param") mods (bif_text mods (B "param") body) [] s1 (started_in s i).
Proof.
  intros env s i mods body only p s1 HM HA HG HU HS HO HH HC HP HSep HN.
  rewrite eval_bif_text by (assumption || plain).
  change (dispatch env ?r (B "param")) with (bif_param r). unfold bif_param, entry.
  rewrite bind_reject by (proj; allowed). pose proof (room_started s) as HR.
  erewrite bind_done by (eapply run_extract; [exact HR|reflexivity..|exact HP]).
  rewrite bind_no_flags by reflexivity. rewrite bind_getI, bind_getB, HSep. proj.
  assert (beq (ialias i) (B "code") = false) as E by (destruct (beq (ialias i) (B "code")) eqn:E; [apply beq_eq in E; contradiction|reflexivity]).
  change (ialias (started_in s i)) with (ialias i). rewrite E.
  apply result_fail; [|reflexivity|reflexivity]. eapply prepared_reports; [| |exact HP]; [exact HH|exact HC].
Qed.
Print Assumptions C53_param_refused.

Theorem C53_declare_refused : forall env s i mods body only p s1, Forall modifier mods ->
  ~ In "&"%char mods -> ~ In "!"%char mods -> ~ In "+"%char mods ->
  may_start s -> selected only i mods (B "declare") -> has_data s -> can_report s ->
  prepared env (B "declare") (started s) (started_in s i) only body p [] s1 ->
  ~ occurs (B "snippet") i.(current_file) ->
  eval_bif env s i (bif_text mods (B "declare") body) only =
  failed env (B "declare cannot be set here") (B "declare") mods (bif_text mods (B "declare") body) [] s1 (started_in s i).
Proof.
  intros env s i mods body only p s1 HM HA HG HU HS HO HH HC HP HN.
  rewrite eval_bif_text by (assumption || plain).
  change (dispatch env ?r (B "declare")) with (bif_declare r). unfold bif_declare, entry.
  rewrite bind_reject by (proj; allowed). pose proof (room_started s) as HR.
  erewrite bind_done by (eapply run_extract; [exact HR|reflexivity..|exact HP]).
  rewrite bind_no_flags by reflexivity. rewrite bind_getI. change SNIPPETS_FILES with (B "snippet").
  change (current_file (started_in s i)) with (current_file i). rewrite (contains_no _ _ HN).
  apply result_fail; [|reflexivity|reflexivity]. eapply prepared_reports; [| |exact HP]; [exact HH|exact HC].
Qed.
Print Assumptions C53_declare_refused.

Definition snippet_names : list bytes := [B "snippet"; B "snip"].

Ltac snippet_start HNm HP HF HR :=
  assert (plain_name (B "snippet") /\ plain_name (B "snip")) as [HPN1 HPN2] by (split; plain);
  cbn [snippet_names In] in HNm;
  rewrite eval_bif_text; [|assumption|destruct HNm as [<-|[<-|[]]]; assumption|assumption|assumption];
  match goal with |- context [dispatch ?e ?r ?nm] =>
    let E := fresh in assert (dispatch e r nm = bif_snippet r) as E by (destruct HNm as [<-|[<-|[]]]; reflexivity); rewrite E; clear E end;
  unfold bif_snippet, entry;
  rewrite bind_reject by (proj; allowed); rewrite bind_modB;
  erewrite bind_done by (eapply run_extract; [exact HR|reflexivity..|exact HP]);
  rewrite bind_check_flags by exact HF; rewrite bind_getB, bind_getI.

Theorem C53_snippet_refused : forall env s i mods nm body only p fl s1, In nm snippet_names -> Forall modifier mods ->
  ~ In "&"%char mods -> ~ In "!"%char mods -> ~ In "+"%char mods ->
  may_start s -> selected only i mods nm -> has_data s -> can_report s ->
  prepared env (B "snippet") (started s) (started_in s i) only body p fl s1 -> flags_in [B "static"] fl ->
  separated body = true -> ~ occurs (B "snippet") i.(current_file) -> i.(ialias) <> B "snippet" ->
  eval_bif env s i (bif_text mods nm body) only =
  failed env (B "snippet cannot be set here") (B "snippet") mods (bif_text mods nm body) [] s1 (started_in s i).
Proof.
  intros env s i mods nm body only p fl s1 HNm HM HA HG HU HS HO HH HC HP HF HSep HN1 HN2.
  pose proof (room_started s) as HR. snippet_start HNm HP HF HR. rewrite HSep. change SNIPPETS_FILES with (B "snippet").
  change (current_file (started_in s i)) with (current_file i). change (ialias (started_in s i)) with (ialias i).
  rewrite (contains_no _ _ HN1).
  assert (beq (ialias i) (B "snippet") = false) as E by (destruct (beq (ialias i) (B "snippet")) eqn:E; [apply beq_eq in E; contradiction|reflexivity]).
  rewrite E. cbn [orb].
  apply result_fail; [|reflexivity|reflexivity]. eapply prepared_reports; [| |exact HP]; [exact HH|exact HC].
Qed.
Print Assumptions C53_snippet_refused.

(** Where they are accepted, exactly the one definition is added to what the block sees. *)
Theorem C53_param_defines : forall env s i mods body only p s1 c s2 i2, Forall modifier mods ->
  ~ In "&"%char mods -> ~ In "!"%char mods -> ~ In "+"%char mods ->
  may_start s -> selected only i mods (B "param") ->
  prepared env (B "param") (started s) (started_in s i) only body p [] s1 ->
  separated body = true -> i.(ialias) = B "code" ->
  eval_code env (B "param") false s1 (started_in s i) (code_of body) only = BOk c s2 i2 -> definable (B "params") s2 i2 ->
  exists s' i', eval_bif env s i (bif_text mods (B "param") body) only = finished mods [] s' i' /\
    defined_as (B "params") p (JStr c) (visible s2 i2) (visible s' i') /\ only_local s2 s'.
Proof.
  intros env s i mods body only p s1 c s2 i2 HM HA HG HU HS HO HP HSep HN HE HD.
  rewrite eval_bif_text by (assumption || plain).
  change (dispatch env ?r (B "param")) with (bif_param r). unfold bif_param, entry.
  rewrite bind_reject by (proj; allowed). pose proof (room_started s) as HR.
  erewrite bind_done by (eapply run_extract; [exact HR|reflexivity..|exact HP]).
  rewrite bind_no_flags by reflexivity. rewrite bind_getI, bind_getB, HSep. proj.
  change (ialias (started_in s i)) with (ialias i). rewrite HN, beq_refl, (has_mod_false _ _ HU).
  assert (room (enough_fuel s) s1) as HR1 by (eapply room_later; [eapply prepared_later; exact HP|exact HR]).
  erewrite bind_done by (rewrite run_code by (exact HR1 || reflexivity); proj; rewrite HE; reflexivity).
  destruct (create_block_schema s2 i2) as [s3 i3] eqn:EC.
  erewrite bind_done by (unfold create_schema; cbn [sh inh bf]; rewrite EC; reflexivity).
  pose proof (create_visible _ _ _ _ (proj1 HD) EC) as EV.
  assert (definable (B "params") s3 i3) as HD3 by (unfold definable; rewrite EV; exact HD).
  rewrite bind_getB. proj. destruct (run_define s3 i3 (bset_code c (bset_flags [] (bset_params p (bset_code (code_of body) (bif_of mods (B "param") body only)))))
    (B "params") p (JStr c) HD3) as (s' & E1 & E2 & x & E3).
  erewrite bind_done by exact E1. exists s', i3. split; [unfold set_out; apply result_done; reflexivity|].
  rewrite EV in E2. split; [exact E2|]. destruct (create_store s2 i2) as [y Ey]. rewrite EC in Ey. cbn [fst] in Ey.
  exists x. rewrite E3, Ey. reflexivity.
Qed.
Print Assumptions C53_param_defines.

Theorem C53_declare_defines : forall env s i mods body only p s1 s2 i2 c s3 i3, Forall modifier mods ->
  ~ In "&"%char mods -> ~ In "!"%char mods -> ~ In "+"%char mods ->
  may_start s -> selected only i mods (B "declare") ->
  prepared env (B "declare") (started s) (started_in s i) only body p [] s1 ->
  occurs (B "snippet") i.(current_file) -> create_block_schema s1 (started_in s i) = (s2, i2) ->
  eval_code env (B "declare") false s2 i2 (code_of body) only = BOk c s3 i3 -> definable (B "declare") s3 i3 ->
  let words := if contains (B "{:") (code_of body) then replace (B "&#0;") [] c else c in
  exists s' i', eval_bif env s i (bif_text mods (B "declare") body) only = finished mods [] s' i' /\
    defined_as (B "declare") p (JStr words) (visible s3 i3) (visible s' i') /\ only_local s3 s'.
Proof.
  intros env s i mods body only p s1 s2 i2 c s3 i3 HM HA HG HU HS HO HP HN EC HE HD. cbv zeta.
  rewrite eval_bif_text by (assumption || plain).
  change (dispatch env ?r (B "declare")) with (bif_declare r). unfold bif_declare, entry.
  rewrite bind_reject by (proj; allowed). pose proof (room_started s) as HR.
  erewrite bind_done by (eapply run_extract; [exact HR|reflexivity..|exact HP]).
  rewrite bind_no_flags by reflexivity. rewrite bind_getI. change SNIPPETS_FILES with (B "snippet").
  change (current_file (started_in s i)) with (current_file i). rewrite (contains_yes _ _ HN).
  assert (room (enough_fuel s) s1) as HR1 by (eapply room_later; [eapply prepared_later; exact HP|exact HR]).
  erewrite bind_done by (unfold create_schema; cbn [sh inh bf]; rewrite EC; reflexivity).
  assert (room (enough_fuel s) s2) as HR2.
  { pose proof (room_create (enough_fuel s) s1 (started_in s i) HR1) as H. rewrite EC in H. exact H. }
  rewrite bind_getB, bind_if. proj. unfold eval_code in HE. change BIF_OPEN with (B "{:").
  match goal with |- exists _ _, bif_result _ (if _ then ?X else ?Y) = _ /\ _ =>
    assert ((if contains (B "{:") (code_of body) then X else Y) =
      (b <- getB ;; upd_local (upd (B "declare") (put b.(params) (JStr b.(code)))) ;;; set_out [])
      (mkSt s3 i3 (bset_code (if contains (B "{:") (code_of body) then replace (B "&#0;") [] c else c)
        (bset_flags [] (bset_params p (bset_code (code_of body) (bif_of mods (B "declare") body only))))))) as E end.
  { destruct (contains (B "{:") (code_of body)).
    - rewrite bind_bind. erewrite bind_done by (rewrite child_nested by (exact HR2 || reflexivity); proj; rewrite HE; reflexivity).
      rewrite bind_modB. reflexivity.
    - assert (c = code_of body /\ s3 = s2 /\ i3 = i2) as (-> & -> & ->) by (repeat split; congruence). rewrite bind_ret. reflexivity. }
  rewrite E. clear E. rewrite bind_getB. proj.
  match goal with |- context [mkSt s3 i3 ?b] => destruct (run_define s3 i3 b (B "declare") p
    (JStr (if contains (B "{:") (code_of body) then replace (B "&#0;") [] c else c)) HD) as (s' & E1 & E2 & E3) end.
  erewrite bind_done by exact E1. exists s', i3. split; [unfold set_out; apply result_done; reflexivity|]. split; assumption.
Qed.
Print Assumptions C53_declare_defines.

(** A snippet is stored unevaluated, or with the flag static evaluated, together with the
    directory of the file that defines it. *)
Theorem C53_snippet_defines : forall env s i mods nm body only p fl s1, In nm snippet_names -> Forall modifier mods ->
  ~ In "&"%char mods -> ~ In "!"%char mods -> ~ In "+"%char mods ->
  may_start s -> selected only i mods nm ->
  prepared env (B "snippet") (started s) (started_in s i) only body p fl s1 -> flags_in [B "static"] fl ->
  separated body = true -> occurs (B "snippet") i.(current_file) \/ i.(ialias) = B "snippet" ->
  forall c s2 i2,
  (if flagged (B "static") fl then eval_nested env (B "snippet") s1 (started_in s i) (code_of body) only = BOk c s2 i2
   else c = code_of body /\ create_block_schema s1 (started_in s i) = (s2, i2)) ->
  definable (B "snippets") s2 i2 -> definable (B "snippets_set_dir") s2 i2 ->
  exists s' j, eval_bif env s i (bif_text mods nm body) only = finished mods [] s' i2 /\
    defined_as (B "snippets") p (JStr c) (visible s2 i2) j /\
    defined_as (B "snippets_set_dir") p (JStr i.(current_dir)) j (visible s' i2) /\ only_local s2 s'.
Proof.
  intros env s i mods nm body only p fl s1 HNm HM HA HG HU HS HO HP HF HSep HN c s2 i2 HE HD1 HD2.
  pose proof (room_started s) as HR. snippet_start HNm HP HF HR. rewrite HSep. change SNIPPETS_FILES with (B "snippet").
  change (current_file (started_in s i)) with (current_file i). change (ialias (started_in s i)) with (ialias i).
  assert (contains (B "snippet") (current_file i) || beq (ialias i) (B "snippet") = true) as EN.
  { destruct HN as [HN| ->]; [rewrite (contains_yes _ _ HN); reflexivity|rewrite beq_refl; apply orb_true_r]. }
  rewrite EN. unfold has_flag. proj.
  assert (room (enough_fuel s) s1) as HR1 by (eapply room_later; [eapply prepared_later; exact HP|exact HR]).
  unfold flagged in HE. change (B "|" ++ B "static" ++ B "|") with (B "|static|") in HE.
  rewrite bind_if, (has_mod_false _ _ HU).
  match goal with |- exists _ _, bif_result _ (if _ then ?X else ?Y) = _ /\ _ =>
    assert ((if contains (B "|static|") fl then X else Y) =
      (b <- getB ;; upd_local (upd (B "snippets") (put b.(params) (JStr b.(code)))) ;;;
        i <- getI ;; upd_local (upd (B "snippets_set_dir") (put b.(params) (JStr i.(current_dir)))) ;;; set_out [])
      (mkSt s2 i2 (bset_code c
        (bset_flags fl (bset_params p (bset_code (code_of body) (bset_alias (B "snippet") (bif_of mods nm body only)))))))) as E end.
  { destruct (contains (B "|static|") fl).
    - rewrite bind_bind. erewrite bind_done by (rewrite child_nested by (exact HR1 || reflexivity); proj; rewrite HE; reflexivity).
      rewrite bind_modB. reflexivity.
    - destruct HE as [-> EC]. erewrite bind_done by (unfold create_schema; cbn [sh inh bf]; rewrite EC; reflexivity). reflexivity. }
  rewrite E. clear E. rewrite bind_getB. proj.
  match goal with |- context [mkSt s2 i2 ?b] => destruct (run_define s2 i2 b (B "snippets") p (JStr c) HD1) as (s3 & E1 & E2 & x & E3); set (bb := b) in * end.
  erewrite bind_done by exact E1. rewrite bind_getI.
  assert (definable (B "snippets_set_dir") s3 i2) as HD3.
  { destruct E2 as (Ea & Eb & Ec). split.
    - assert (is_obj (visible s3 i2)) as HO3; [|exact HO3].
      destruct (visible s3 i2) eqn:EV; try (unfold idx in Ea; cbn in Ea; discriminate). eexists; reflexivity.
    - rewrite Ec; [apply HD2|]. intro H. apply (f_equal (@length ascii)) in H. discriminate. }
  destruct (run_define s3 i2 bb (B "snippets_set_dir") p (JStr (current_dir i2)) HD3) as (s' & E4 & E5 & y & E6).
  erewrite bind_done by exact E4. exists s', (visible s3 i2). split; [unfold set_out; apply result_done; reflexivity|].
  split; [exact E2|]. split.
  - assert (current_dir i2 = current_dir i) as <-; [|exact E5].
    destruct (contains (B "|static|") fl).
    + destruct (nested_later _ _ _ _ _ _ _ _ _ HE) as [_ ->]. reflexivity.
    + destruct HE as [_ EC]. unfold create_block_schema in EC. injection EC as _ <-. reflexivity.
  - exists y. rewrite E6, E3. reflexivity.
Qed.
Print Assumptions C53_snippet_defines.

Example C53_example :
  output_in env1 "{:include; /snippets.ntpl :}{:snip; hi :}{:allow; yn >> no :}{:allow; yn >> maybe :}" = B "<World>no" /\
  output_of "{:code; {:param; a >> 1 :}[{:param; a :}] :}{:code; [{:param; a :}] :}" = B "[1][]" /\
  output_of "{:param; a >> 1 :}[{:param; a :}]{:snippet; s >> x :}[{:snippet; s :}]{:declare; d >> x :}[{:allow; d >> x :}]" = B "[][][]" /\
  definable (B "params") (fst (start_of "")) (snd (start_of "")) /\
  definable (B "declare") (fst (start_of "")) (snd (start_of "")) /\
  definable (B "snippets") (fst (start_of "")) (snd (start_of "")) /\
  definable (B "snippets_set_dir") (fst (start_of "")) (snd (start_of "")).
Proof.
  do 3 (split; [vm_compute; reflexivity|]).
  repeat split; try (eexists; vm_compute; reflexivity);
    try (right; eexists; vm_compute; reflexivity); left; vm_compute; reflexivity.
Qed.

(** ** C41: redirect *)

Lemma bind_echo {C} (k : unit -> M C) s i b : bind echo_in_cache k (mkSt s i b) = k tt (mkSt s i (bset_out (echo i (raw b)) b)).
Proof. unfold echo_in_cache, echo. rewrite bind_bind, bind_getI, bind_bind, bind_getB. destruct (in_cache i); reflexivity. Qed.

Lemma raw_text mods nm body only : raw (bif_of mods nm body only) = bif_text mods nm body.
Proof. reflexivity. Qed.

Ltac redirect_start HP HE :=
  rewrite eval_bif_text by (assumption || plain);
  change (dispatch ?e ?r (B "redirect")) with (bif_redirect r); unfold bif_redirect, entry;
  rewrite bind_reject by (proj; allowed); rewrite bind_echo;
  erewrite bind_done by (eapply run_extract; [eapply room_started|reflexivity..|exact HP]);
  rewrite bind_no_flags by reflexivity;
  erewrite bind_done by (rewrite run_code by (reflexivity || (eapply room_later; [eapply prepared_later; exact HP|eapply room_started]));
    proj; rewrite HE; reflexivity);
  rewrite bind_getB; proj; rewrite ?raw_text.

Ltac closed_ifs :=
  repeat match goal with |- context [beq (B ?x) (B ?y)] =>
    let v := eval vm_compute in (beq (B x) (B y)) in change (beq (B x) (B y)) with v end; cbn [orb].

Lemma assoc_iff k l t : assoc k l = Some t -> In (k, t) l.
Proof.
  induction l as [|[k' v] l IH]; cbn [assoc]; [discriminate|]. destruct (beq k k') eqn:E; [|right; auto].
  apply beq_eq in E as ->. intro H. left. congruence.
Qed.
Lemma assoc_not k l : assoc k l = None -> forall t, ~ In (k, t) l.
Proof.
  induction l as [|[k' v] l IH]; cbn [assoc In]; [tauto|]. destruct (beq k k') eqn:E; [discriminate|].
  intros H t [F|F]; [|exact (IH H t F)]. assert (k' = k) as -> by congruence. rewrite beq_refl in E. discriminate.
Qed.
Lemma phrase_text c : phrase c (status_text_of c).
Proof.
  unfold status_text_of. change STATUS_CODES with reasons. destruct (assoc c reasons) as [t|] eqn:E.
  - apply ph_known. apply assoc_iff. exact E.
  - apply ph_other. apply assoc_not. exact E.
Qed.
(** a code has one text *)
Lemma phrase_unique c t t' : phrase c t -> phrase c t' -> t = t'.
Proof.
  assert (NoDup (map fst reasons)) as ND.
  { assert (forall l : list bytes, (fix nd l := match l with [] => true | x :: l => negb (existsb (beq x) l) && nd l end) l = true -> NoDup l) as A.
    { induction l as [|x l IH]; intro H; [constructor|]. apply andb_true_iff in H as [H1 H2]. constructor; [|exact (IH H2)].
      intro I. apply negb_true_iff in H1. rewrite <- not_true_iff_false in H1. apply H1. apply existsb_exists. exists x. split; [exact I|apply beq_refl]. }
    apply A. vm_compute. reflexivity. }
  assert (forall t t' (l : list (bytes * bytes)), NoDup (map fst l) -> In (c, t) l -> In (c, t') l -> t = t') as U.
  { clear t t'. intros t t' l. induction l as [|[k v] l IH]; [intros _ []|]. intros N. inversion N as [|? ? N1 N2]; subst. intros [H|H] [H'|H'].
    - congruence.
    - exfalso. apply N1. assert (k = c) as -> by congruence. exact (in_map fst _ _ H').
    - exfalso. apply N1. assert (k = c) as -> by congruence. exact (in_map fst _ _ H).
    - exact (IH N2 H H'). }
  intros [t0 I|O] [t1 I'|O']; [exact (U _ _ _ ND I I')|exfalso; exact (O' _ I)|exfalso; exact (O _ I')|reflexivity].
Qed.

Theorem C41_accepts : forall env s i mods body only p s1 c s2 i2 code js, Forall modifier mods ->
  ~ In "&"%char mods -> ~ In "!"%char mods -> ~ In "+"%char mods ->
  may_start s -> selected only i mods (B "redirect") ->
  prepared env (B "redirect") (started s) (started_in s i) only body p [] s1 ->
  eval_code env (B "redirect") false s1 (started_in s i) (code_of body) only = BOk c s2 i2 ->
  redirects (separated body) p c code js ->
  exists s', eval_bif env s i (bif_text mods (B "redirect") body) only =
      finished mods (echo i (bif_text mods (B "redirect") body)) s' i2 /\
    s'.(status_code) = code /\ phrase code s'.(status_text) /\ s'.(status_param) = c /\ s'.(exit) = true /\
    s'.(redirect_js) = (match js with Some j => j | None => s2.(redirect_js) end) /\
    s'.(schema) = s2.(schema) /\ s'.(indir_store) = s2.(indir_store).
Proof.
  intros env s i mods body only p s1 c s2 i2 code js HM HA HG HU HS HO HP HE HD.
  redirect_start HP HE. rewrite (has_mod_false _ _ HG). cbn [negb].
  inversion HD as [p' c' H1 H2|c'|c'|c' H1|c' H1|p'|p']; subst.
  - rename code into p. assert (beq p (B "301") || beq p (B "302") || beq p (B "303") || beq p (B "307") || beq p (B "308") = true) as ->.
    { cbn [redirect_codes In] in H1. destruct H1 as [<-|[<-|[<-|[<-|[<-|[]]]]]]; reflexivity. }
    rewrite bind_bind. unfold redirect_url. rewrite bind_bind, bind_getB. proj.
    assert (is_empty c = false) as -> by (destruct c; [congruence|reflexivity]).
    rewrite bind_ret, bind_ret, bind_modS. eexists. split; [unfold modS; apply result_done; reflexivity|]. repeat split; apply phrase_text.
  - eexists. split; [apply result_done; reflexivity|]. repeat split; apply phrase_text.
  - eexists. split; [apply result_done; reflexivity|]. repeat split; apply phrase_text.
  - closed_ifs.
    rewrite bind_bind. unfold redirect_url. rewrite bind_bind, bind_getB. proj.
    assert (is_empty c = false) as -> by (destruct c; [congruence|reflexivity]).
    eexists. split; [apply result_done; reflexivity|]. repeat split; apply phrase_text.
  - closed_ifs.
    rewrite bind_bind. unfold redirect_url. rewrite bind_bind, bind_getB. proj.
    assert (is_empty c = false) as -> by (destruct c; [congruence|reflexivity]).
    eexists. split; [apply result_done; reflexivity|]. repeat split; apply phrase_text.
  - eexists. split; [apply result_done; reflexivity|]. repeat split; apply phrase_text.
  - eexists. split; [apply result_done; reflexivity|]. repeat split; apply phrase_text.
Qed.
Print Assumptions C41_accepts.

(** Every other type, and a type that needs a target without one, is an error: the status, the
    exit flag and the script stay as they were. *)
Theorem C41_refuses : forall env s i mods body only p s1 c s2 i2, Forall modifier mods ->
  ~ In "&"%char mods -> ~ In "!"%char mods -> ~ In "+"%char mods ->
  may_start s -> selected only i mods (B "redirect") -> has_data s -> can_report s ->
  prepared env (B "redirect") (started s) (started_in s i) only body p [] s1 ->
  eval_code env (B "redirect") false s1 (started_in s i) (code_of body) only = BOk c s2 i2 ->
  (forall code js, ~ redirects (separated body) p c code js) ->
  ~ (occurs (B "js:reload:self") c /\ occurs (B "js:reload:top") c) ->
  exists msg s', (separated body = false -> msg = B "redirect type not allowed") /\
    (separated body = true -> In p (redirect_codes ++ [B "js:redirect:top"; B "js:redirect:self"]) -> msg = B "this redirection requires URL") /\
    (separated body = true -> ~ In p (redirect_codes ++ [B "js:redirect:top"; B "js:redirect:self"]) -> msg = B "status code not allowed") /\
    eval_bif env s i (bif_text mods (B "redirect") body) only =
      failed env msg (B "redirect") mods (bif_text mods (B "redirect") body)
        (echo i (bif_text mods (B "redirect") body)) s2 i2 /\
    s' = with_error env msg (B "redirect") (bif_text mods (B "redirect") body) s2 i2 /\
    s'.(status_code) = s2.(status_code) /\ s'.(status_param) = s2.(status_param) /\ s'.(exit) = s2.(exit) /\
    s'.(redirect_js) = s2.(redirect_js).
Proof.
  intros env s i mods body only p s1 c s2 i2 HM HA HG HU HS HO HH HR HP HE HN HX.
  assert (can_report s2) as HC.
  { pose proof (prepared_reports _ _ (started s) _ _ _ _ _ _ HH HR HP) as H1.
    pose proof (prepared_has_data _ _ _ _ _ _ _ _ _ HP HH) as H2.
    unfold eval_code in HE. destruct (contains (B "{:") (code_of body)).
    - eapply keeps_reports; [eapply nested_keeps; [exact H2|exact HE]|exact H1].
    - assert (s2 = s1) as -> by congruence. exact H1. }
  enough (exists msg, ((separated body = false -> msg = B "redirect type not allowed") /\
    (separated body = true -> In p (redirect_codes ++ [B "js:redirect:top"; B "js:redirect:self"]) -> msg = B "this redirection requires URL") /\
    (separated body = true -> ~ In p (redirect_codes ++ [B "js:redirect:top"; B "js:redirect:self"]) -> msg = B "status code not allowed")) /\
    eval_bif env s i (bif_text mods (B "redirect") body) only =
      failed env msg (B "redirect") mods (bif_text mods (B "redirect") body) (echo i (bif_text mods (B "redirect") body)) s2 i2) as (msg & (M1 & M2 & M3) & E).
  { exists msg. eexists. split; [exact M1|]. split; [exact M2|]. split; [exact M3|]. split; [exact E|]. split; [reflexivity|]. unfold with_error, push_error, add_event.
    repeat split; match goal with |- context [match ?x with _ => _ end] => destruct x; reflexivity end. }
  redirect_start HP HE. destruct (separated body).
  - destruct (beq p (B "301") || beq p (B "302") || beq p (B "303") || beq p (B "307") || beq p (B "308")) eqn:E1.
    { assert (In p redirect_codes) as HI.
      { rewrite !orb_true_iff in E1. cbn [redirect_codes In]. destruct E1 as [[[[E|E]|E]|E]|E]; apply beq_eq in E; subst; tauto. }
      destruct c as [|a c]; [|exfalso; apply (HN p None); constructor; [exact HI|discriminate]].
      rewrite bind_bind. unfold redirect_url. rewrite bind_bind, bind_getB. proj. cbn [is_empty].
      rewrite bind_err. exists (B "this redirection requires URL"). (split; [split; [discriminate|split; [reflexivity|intros _ HZ; exfalso; apply HZ; apply in_or_app; left; exact HI]]|]). apply result_fail; [exact HC|reflexivity|reflexivity]. }
    destruct (beq p (B "js:reload:top")) eqn:E2; [apply beq_eq in E2; subst; exfalso; eapply HN; apply rd_reload_top|].
    destruct (beq p (B "js:reload:self")) eqn:E3; [apply beq_eq in E3; subst; exfalso; eapply HN; apply rd_reload_self|].
    destruct (beq p (B "js:redirect:top")) eqn:E4.
    { apply beq_eq in E4; subst. destruct c as [|a c]; [|exfalso; eapply HN; apply rd_top; discriminate].
      rewrite bind_bind. unfold redirect_url. rewrite bind_bind, bind_getB. proj. cbn [is_empty].
      rewrite bind_err. exists (B "this redirection requires URL"). (split; [split; [discriminate|split; [reflexivity|intros _ HZ; exfalso; apply HZ; apply in_or_app; right; left; reflexivity]]|]). apply result_fail; [exact HC|reflexivity|reflexivity]. }
    destruct (beq p (B "js:redirect:self")) eqn:E5.
    { apply beq_eq in E5; subst. destruct c as [|a c]; [|exfalso; eapply HN; apply rd_self; discriminate].
      rewrite bind_bind. unfold redirect_url. rewrite bind_bind, bind_getB. proj. cbn [is_empty].
      rewrite bind_err. exists (B "this redirection requires URL"). (split; [split; [discriminate|split; [reflexivity|intros _ HZ; exfalso; apply HZ; apply in_or_app; right; right; left; reflexivity]]|]). apply result_fail; [exact HC|reflexivity|reflexivity]. }
    assert (negb (contains (B "js:reload:self") c) || negb (contains (B "js:reload:top") c) = true) as ->.
    { destruct (contains (B "js:reload:self") c) eqn:Ea; [|reflexivity]. destruct (contains (B "js:reload:top") c) eqn:Eb; [|reflexivity].
      exfalso. apply HX. split; apply contains_iff; assumption. }
    rewrite bind_err. exists (B "status code not allowed").
    split; [split; [discriminate|split; [intros _ HZ; exfalso|reflexivity]]|apply result_fail; [exact HC|reflexivity|reflexivity]].
    apply in_app_or in HZ as [HZ|[HZ|[HZ|[]]]]; [|subst p; rewrite beq_refl in E4; discriminate|subst p; rewrite beq_refl in E5; discriminate].
    cbn [redirect_codes In] in HZ. repeat (destruct HZ as [<-|HZ]; [vm_compute in E1; discriminate|]). destruct HZ.
  - destruct (beq c (B "js:reload:top")) eqn:E2; [apply beq_eq in E2; subst; exfalso; eapply HN; constructor|].
    destruct (beq c (B "js:reload:self")) eqn:E3; [apply beq_eq in E3; subst; exfalso; eapply HN; constructor|].
    rewrite bind_err. exists (B "redirect type not allowed").
    split; [split; [reflexivity|split; discriminate]|apply result_fail; [exact HC|reflexivity|reflexivity]].
Qed.
Print Assumptions C41_refuses.

(** One unlisted type gets through: the check of the fall-through case looks at the target. *)
Theorem C41_other_types_refuted :
  output_of "a{:redirect; nonsense >> js:reload:self js:reload:top :}b{:;name:}" = B "a" /\
  forall code js, ~ redirects true (B "nonsense") (B "js:reload:self js:reload:top") code js.
Proof.
  split; [vm_compute; reflexivity|]. intros code js H. inversion H. cbn in H0. intuition discriminate.
Qed.
Print Assumptions C41_other_types_refuted.

Example C41_example :
  output_of "a{:redirect; 301 >> /x :}b{:;name:}" = B "301 Moved Permanently" ++ [ascii_of_N 10] ++ B "/x" /\
  output_of "a{:redirect; js:redirect:top >> /x :}b" = B "<!DOCTYPE html><script>top.location.href='/x';</script>" /\
  output_of "a{:redirect; 200 >> /x :}{:redirect; 301 >> :}b" = B "ab" /\
  redirects true (B "307") (B "/x") (B "307") None.
Proof.
  do 3 (split; [vm_compute; reflexivity|]). constructor; [cbn; tauto|discriminate].
Qed.
