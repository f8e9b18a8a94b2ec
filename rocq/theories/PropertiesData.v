(** * Property theorems: data, locale, and the unevaluated includes *)

From Verif Require Import Bytes Json Utils ConstantsGen State Engine Template Spec SpecEngine BytesFacts EscapeProofs TextProofs
  BlockProofs MergeProofs TemplateProofs InertProofs FrameProofs FrameRun EngineFrames MoreFrames EvalProofs KeepProofs HandlerProofs Samples
  PropertiesVars PropertiesFiles PropertiesMore.

Lemma run_merge sec j s i b : is_obj (visible s i) ->
  exists s' i', (create_schema ;;; upd_local (upd sec (fun old => Some (merge_schema_owned old j)))) (mkSt s i b) = Done tt (mkSt s' i' b) /\
    merged_into sec j (visible s i) (visible s' i') /\ only_local s s' /\ same_block i i'.
Proof.
  intros HV. destruct (create_block_schema s i) as [s1 i1] eqn:EC.
  erewrite bind_done by (unfold create_schema; cbn [sh inh bf]; rewrite EC; reflexivity).
  pose proof (create_visible _ _ _ _ HV EC) as EV. rewrite <- EV in *. destruct HV as [m H].
  unfold upd_local, upd_indir. cbn [inh sh bf].
  assert (oget (indir i1) (indir_store s1) = Some (JObj m)) as EG.
  { unfold visible, get_indir in H. destruct (oget (indir i1) (indir_store s1)); [f_equal; exact H|discriminate]. }
  rewrite EG, H. rewrite (upd_obj sec _ m (merge_schema_owned (idx (JObj m) sec) j)) by reflexivity.
  eexists _, i1. split; [reflexivity|]. destruct (create_store s i) as [y Ey]. rewrite EC in Ey. cbn [fst] in Ey. split; [|split].
  - unfold visible, get_indir. cbn [indir_store set_indir_store]. rewrite oget_oset, beq_refl. split.
    + rewrite idx_oset, beq_refl, merge_owned_eq. reflexivity.
    + intros c Hc. rewrite idx_oset. destruct (beq c sec) eqn:E; [apply beq_eq in E; contradiction|reflexivity].
  - subst s1. eexists. reflexivity.
  - unfold create_block_schema in EC. injection EC as _ <-. eexists. reflexivity.
Qed.
Lemma data_member j : match j with JObj m => match oget (B "data") m with Some v => v | None => JNull end | _ => JNull end = idx j (B "data").
Proof. destruct j; reflexivity. Qed.

(** ** C69: data *)

(** the flags under which the bif reads a file *)
Definition file_flags (l : list bytes) (fl : bytes) : Prop :=
  flagged (B "inline") fl = false /\ (fl = [] \/ exists f, In f l /\ flagged f fl = true).

Ltac data_start HPr :=
  rewrite eval_bif_text by (assumption || plain);
  change (dispatch ?e ?r (B "data")) with (bif_data e r); unfold bif_data, entry;
  rewrite bind_reject by (proj; allowed);
  erewrite bind_done by (eapply run_extract; [apply room_started|reflexivity..|exact HPr]);
  rewrite bind_getB; unfold has_flag; proj.
Ltac data_flags HF HI :=
  change (contains (B "|inline|") ?fl) with (flagged (B "inline") fl);
  change (contains (B "|require|") ?fl) with (flagged (B "require") fl);
  change (contains (B "|noparse|") ?fl) with (flagged (B "noparse") fl);
  rewrite HI; cbn [negb]; rewrite ?andb_false_r, ?andb_true_r;
  match goal with |- context [if ?c then err E_FLAGS else _] =>
    let E := fresh in assert (c = false) as E;
    [destruct HF as [-> |(f & Hf & EF)]; [reflexivity|]; cbn [In] in Hf;
     repeat (destruct Hf as [<-|Hf]; [rewrite EF, ?andb_false_r; reflexivity|]); destruct Hf|rewrite E; clear E] end.
Ltac data_name HPr HN :=
  erewrite bind_done by (eapply run_resolve;
    [eapply room_later; [eapply prepared_later; exact HPr|apply room_started]|reflexivity|exact HN]);
  rewrite bind_getB; unfold has_flag; proj.
Ltac data_found HX path s2 :=
  destruct HX as [c HX1 HX2]; unfold ask_exists; rewrite bind_ask, HX1; cbn [negb];
  unfold ask_canon; rewrite bind_ask;
  change (strace (add_event (EvExists path true) s2)) with (EvExists path true :: strace s2); rewrite HX2;
  cbn [lift_option]; rewrite bind_ret, bind_getI.

Lemma not_again mods c l : ~ (In "!"%char mods /\ In c l) -> has_mod "!" mods && existsb (beq c) l = false.
Proof.
  intro HI. destruct (has_mod "!" mods) eqn:EG; [|reflexivity]. cbn [andb].
  destruct (existsb (beq c) l) eqn:EE; [|reflexivity]. exfalso. apply HI.
  apply existsb_exists in EE as (x & Hx & Ex). apply beq_eq in Ex. subst x. split; [|exact Hx].
  unfold has_mod in EG. apply existsb_exists in EG as (x & Hx2 & Ex). apply aeqb_eq in Ex. subst x. exact Hx2.
Qed.
Lemma again c l : In c l -> existsb (beq c) l = true.
Proof. intro H. apply existsb_exists. exists c. split; [exact H|apply beq_refl]. Qed.
(** A file of local data: its member "data" is merged into the local data of the block, nothing else changes but the
    list of files read. *)
Theorem C69_file : forall env s i mods body only p fl s1 path s2 c s3 j, Forall modifier mods -> ~ In "&"%char mods -> ~ In "+"%char mods ->
  may_start s -> selected only i mods (B "data") ->
  prepared env (B "data") (started s) (started_in s i) only body p fl s1 -> file_flags [B "require"] fl ->
  file_named env (B "data") s1 (started_in s i) only (code_of body) path s2 -> found env s2 path c s3 ->
  ~ (In "!"%char mods /\ In c i.(data_files)) -> env.(e_from_str) (content_of env s3 path) = inl j -> is_obj (visible s2 i) ->
  exists s' i', eval_bif env s i (bif_text mods (B "data") body) only = finished mods (B "&#0;") s' i' /\
    merged_into (B "data") (idx j (B "data")) (visible s2 i) (visible s' i') /\ only_local (after_read env s3 path) s' /\
    same_block (iset_data_files (i.(data_files) ++ [c]) (started_in s i)) i'.
Proof.
  intros env s i mods body only p fl s1 path s2 c s3 j HM HA HU HS HO HPr [HI HF] HN HX HG HJ HV.
  data_start HPr. data_flags HF HI. data_name HPr HN. data_found HX path s2.
  change (data_files (started_in s i)) with (data_files i). rewrite (not_again _ _ _ HG).
  rewrite bind_modI. set (s3 := add_event (EvCanon path (Some c)) (add_event (EvExists path true) s2)) in *.
  erewrite bind_done by apply run_read. rewrite HJ. unfold merge_local_data. rewrite data_member.
  change (data_files (started_in s i)) with (data_files i).
  set (i1 := iset_data_files (data_files i ++ [c]) (started_in s i)).
  match goal with |- context [mkSt ?a i1 ?b] => destruct (run_merge (B "data") (idx j (B "data")) a i1 b) as (s' & i' & E1 & E2 & E3 & E4);
    [exact HV|] end.
  erewrite bind_done by exact E1. exists s', i'. split; [unfold set_out; apply result_done; reflexivity|].
  split; [exact E2|]. split; [exact E3|exact E4].
Qed.
Print Assumptions C69_file.

(** the same for data given in the template *)
Theorem C69_inline : forall env s i mods body only p fl s1 j, Forall modifier mods -> ~ In "&"%char mods -> ~ In "+"%char mods ->
  may_start s -> selected only i mods (B "data") ->
  prepared env (B "data") (started s) (started_in s i) only body p fl s1 -> flagged (B "inline") fl = true ->
  env.(e_from_str) (code_of body) = inl j -> is_obj (visible s1 i) ->
  exists s' i', eval_bif env s i (bif_text mods (B "data") body) only = finished mods (B "&#0;") s' i' /\
    merged_into (B "data") (idx j (B "data")) (visible s1 i) (visible s' i') /\ only_local s1 s' /\ same_block (started_in s i) i'.
Proof.
  intros env s i mods body only p fl s1 j HM HA HU HS HO HPr HI HJ HV. data_start HPr.
  change (contains (B "|inline|") fl) with (flagged (B "inline") fl). rewrite HI. rewrite andb_false_r, HJ.
  unfold merge_local_data. rewrite data_member.
  match goal with |- context [mkSt ?a ?i1 ?b] => destruct (run_merge (B "data") (idx j (B "data")) a i1 b) as (s' & i' & E1 & E2 & E3 & E4);
    [exact HV|] end.
  erewrite bind_done by exact E1. exists s', i'. split; [unfold set_out; apply result_done; reflexivity|].
  split; [exact E2|]. split; [exact E3|exact E4].
Qed.
Print Assumptions C69_inline.

(** Text that is not JSON is an error and defines nothing. *)
Theorem C69_not_json : forall env s i mods body only p fl s1 path s2 c s3 e, Forall modifier mods -> ~ In "&"%char mods -> ~ In "+"%char mods ->
  may_start s -> selected only i mods (B "data") -> has_data s -> can_report s ->
  prepared env (B "data") (started s) (started_in s i) only body p fl s1 -> file_flags [B "require"] fl ->
  file_named env (B "data") s1 (started_in s i) only (code_of body) path s2 -> found env s2 path c s3 ->
  ~ (In "!"%char mods /\ In c i.(data_files)) -> env.(e_from_str) (content_of env s3 path) = inr e ->
  eval_bif env s i (bif_text mods (B "data") body) only =
  failed env (B "not a valid JSON file") (B "data") mods (bif_text mods (B "data") body) [] (after_read env s3 path)
    (iset_data_files (i.(data_files) ++ [c]) (started_in s i)).
Proof.
  intros env s i mods body only p fl s1 path s2 c s3 e HM HA HU HS HO HD HC HPr [HI HF] HN HX HG HJ.
  assert (can_report s2) as HC2 by (eapply (named_reports env (B "data") (started s)); [exact HD|exact HC|exact HPr|exact HN]).
  data_start HPr. data_flags HF HI. data_name HPr HN. data_found HX path s2.
  change (data_files (started_in s i)) with (data_files i). rewrite (not_again _ _ _ HG).
  rewrite bind_modI. set (s3 := add_event (EvCanon path (Some c)) (add_event (EvExists path true) s2)) in *.
  erewrite bind_done by apply run_read. rewrite HJ. change (data_files (started_in s i)) with (data_files i).
  apply result_fail; [exact HC2|reflexivity|reflexivity].
Qed.
Print Assumptions C69_not_json.
Theorem C69_inline_not_json : forall env s i mods body only p fl s1 e, Forall modifier mods -> ~ In "&"%char mods -> ~ In "+"%char mods ->
  may_start s -> selected only i mods (B "data") -> has_data s -> can_report s ->
  prepared env (B "data") (started s) (started_in s i) only body p fl s1 -> flagged (B "inline") fl = true ->
  env.(e_from_str) (code_of body) = inr e ->
  eval_bif env s i (bif_text mods (B "data") body) only =
  failed env (B "not a valid JSON file") (B "data") mods (bif_text mods (B "data") body) [] s1 (started_in s i).
Proof.
  intros env s i mods body only p fl s1 e HM HA HU HS HO HD HC HPr HI HJ. data_start HPr.
  change (contains (B "|inline|") fl) with (flagged (B "inline") fl). rewrite HI. rewrite andb_false_r, HJ.
  apply result_fail; [|reflexivity|reflexivity]. eapply prepared_reports; [| |exact HPr]; [exact HD|exact HC].
Qed.
Print Assumptions C69_inline_not_json.

(** A missing file: nothing, or an error if it is required.  With '!' a file is read once. *)
Theorem C69_missing : forall env s i mods body only p fl s1 path s2, Forall modifier mods -> ~ In "&"%char mods -> ~ In "+"%char mods ->
  may_start s -> selected only i mods (B "data") -> has_data s -> can_report s ->
  prepared env (B "data") (started s) (started_in s i) only body p fl s1 -> file_flags [B "require"] fl ->
  file_named env (B "data") s1 (started_in s i) only (code_of body) path s2 -> not_found env s2 path ->
  eval_bif env s i (bif_text mods (B "data") body) only =
  (if flagged (B "require") fl
   then failed env (B "file not found") (B "data") mods (bif_text mods (B "data") body) []
   else finished mods []) (add_event (EvExists path false) s2) (started_in s i).
Proof.
  intros env s i mods body only p fl s1 path s2 HM HA HU HS HO HD HC HPr [HI HF] HN HX.
  assert (can_report s2) as HC2 by (eapply (named_reports env (B "data") (started s)); [exact HD|exact HC|exact HPr|exact HN]).
  data_start HPr. data_flags HF HI. data_name HPr HN.
  unfold ask_exists. rewrite bind_ask. unfold not_found in HX. rewrite HX. cbn [negb].
  change (contains (B "|require|") fl) with (flagged (B "require") fl). rewrite app_if.
  destruct (flagged (B "require") fl).
  - unfold err. cbn [inh bf]. proj. apply result_fail; [exact HC2|reflexivity|reflexivity].
  - apply result_done; reflexivity.
Qed.
Print Assumptions C69_missing.
Theorem C69_once : forall env s i mods body only p fl s1 path s2 c s3, Forall modifier mods -> ~ In "&"%char mods -> ~ In "+"%char mods ->
  In "!"%char mods -> may_start s -> selected only i mods (B "data") ->
  prepared env (B "data") (started s) (started_in s i) only body p fl s1 -> file_flags [B "require"] fl ->
  file_named env (B "data") s1 (started_in s i) only (code_of body) path s2 -> found env s2 path c s3 ->
  In c i.(data_files) ->
  eval_bif env s i (bif_text mods (B "data") body) only = finished mods (B "&#0;") s3 (started_in s i).
Proof.
  intros env s i mods body only p fl s1 path s2 c s3 HM HA HU HG HS HO HPr [HI HF] HN HX HC.
  data_start HPr. data_flags HF HI. data_name HPr HN. data_found HX path s2.
  change (data_files (started_in s i)) with (data_files i). rewrite (has_mod_true _ _ HG), (again _ _ HC). cbn [andb].
  apply result_done; reflexivity.
Qed.
Print Assumptions C69_once.
Theorem C69_bad_flags : forall env s i mods body only p fl s1, Forall modifier mods -> ~ In "&"%char mods -> ~ In "+"%char mods ->
  may_start s -> selected only i mods (B "data") -> has_data s -> can_report s ->
  prepared env (B "data") (started s) (started_in s i) only body p fl s1 -> fl <> [] ->
  flagged (B "inline") fl = false -> flagged (B "require") fl = false ->
  eval_bif env s i (bif_text mods (B "data") body) only =
  failed env (B "flags not allowed") (B "data") mods (bif_text mods (B "data") body) [] s1 (started_in s i).
Proof.
  intros env s i mods body only p fl s1 HM HA HU HS HO HD HC HPr HF H1 H2. data_start HPr.
  change (contains (B "|inline|") fl) with (flagged (B "inline") fl). change (contains (B "|require|") fl) with (flagged (B "require") fl).
  rewrite H1, H2. assert (is_empty fl = false) as -> by (destruct fl; [congruence|reflexivity]). cbn [negb andb].
  apply result_fail; [|reflexivity|reflexivity]. eapply prepared_reports; [| |exact HPr]; [exact HD|exact HC].
Qed.
Print Assumptions C69_bad_flags.

(** What the member "data" does not mention is kept only if there is such a member: without one the local data of the
    block are lost. *)
Theorem C69_rest_is_kept_refuted : exists env src1 src2,
  output_in env src1 = B "[local]" /\ output_in env (src1 ++ src2)%string = B "[local][]" /\
  src2 = "{:data; {:flg; inline :} >> {} :}[{:;local::x:}]"%string.
Proof.
  exists (mkEnv (e_md5 env1) (e_sha256 env1) (e_lower env1)
    (fun t => if beq t (B "{}") then inl (JObj []) else e_from_str env1 t) (e_to_string env1) (e_to_pretty env1) (e_fadd env1)
    (e_parent env1) (e_date env1) (e_cwd env1) (e_tmp env1) (e_exists env1) (e_is_file env1) (e_canon env1) (e_read env1) (e_read_err env1)
    (e_mkdir env1) (e_create env1) (e_write env1) (e_mtime env1) (e_age env1) (e_now env1) (e_local_now env1) (e_rand env1) (e_rand_bytes env1)
    (e_python env1) (e_php env1)), "{:data; /j.json :}[{:;local::x:}]"%string, "{:data; {:flg; inline :} >> {} :}[{:;local::x:}]"%string.
  split; [vm_compute; reflexivity|]. split; [vm_compute; reflexivity|reflexivity].
Qed.
Print Assumptions C69_rest_is_kept_refuted.

Example C69_example :
  output_in env1 "{:data; /j.json :}[{:;local::x:}][{:;x:}]{:code; {:data; /j.json :} :}" = B "[local][]" ++ B "" /\
  output_in env1 "{:data; {:flg; inline :} >> {...} :}[{:;local::x:}]{:data; {:flg; inline :} >> oops :}[{:;local::x:}]" = B "[local][local]" /\
  (let s := started (fst (start_of "")) in
   file_named env1 (B "data") s (snd (start_of "")) [] (B "/j.json") (B "/j.json") s /\ file_flags [B "require"] [] /\
   e_from_str env1 (content_of env1 s (B "/j.json")) <> inr (B "no json") /\ is_obj (visible s (snd (start_of "")))).
Proof.
  split; [vm_compute; reflexivity|]. split; [vm_compute; reflexivity|]. cbv zeta. split; [|split; [split; [reflexivity|left; reflexivity]|split]].
  - apply (fn_literal env1 (B "data") (started (fst (start_of ""))) (snd (start_of "")) [] (B "/j.json")).
    intro E. apply contains_iff in E. vm_compute in E. discriminate.
  - vm_compute. discriminate.
  - eexists. vm_compute. reflexivity.
Qed.

(** ** C70: locale *)

Ltac locale_start HPr :=
  rewrite eval_bif_text by (assumption || plain);
  change (dispatch ?e ?r (B "locale")) with (bif_locale e r); unfold bif_locale, entry;
  rewrite bind_reject by (proj; allowed);
  erewrite bind_done by (eapply run_extract; [apply room_started|reflexivity..|exact HPr]);
  rewrite bind_getB; unfold has_flag; proj.

Lemma run_locale_text env n fl path s i b c t s1 : room n s -> alias b = B "locale" -> file_path b = path -> dir b = [] ->
  locale_text env fl path s i (only b) c t s1 ->
  forall (k : bytes -> M unit), bind (if negb (flagged (B "noparse") fl) && contains (B "{:") c
    then child (run_blocks env n) c false else ret c) k (mkSt s i b) = k t (mkSt s1 i b).
Proof.
  intros HR HA HF HD HT k. destruct HT as [HT|o s2 i2 H1 H2 HE].
  - assert (negb (flagged (B "noparse") fl) && contains (B "{:") c = false) as ->; [|apply bind_ret].
    destruct HT as [-> |HT]; [reflexivity|rewrite (contains_no _ _ HT); apply andb_false_r].
  - rewrite H1, (contains_yes _ _ H2). cbn [negb andb]. erewrite bind_done; [reflexivity|].
    rewrite child_unscoped by exact HR. rewrite HA, HF, HD, HE. reflexivity.
Qed.

(** A file of translations is merged as a whole into the translations of the block. *)
Theorem C70_file : forall env s i mods body only p fl s1 path s2 c s3 t s4 j, Forall modifier mods -> ~ In "&"%char mods -> ~ In "+"%char mods ->
  may_start s -> selected only i mods (B "locale") ->
  prepared env (B "locale") (started s) (started_in s i) only body p fl s1 -> file_flags [B "require"; B "noparse"] fl ->
  file_named env (B "locale") s1 (started_in s i) only (code_of body) path s2 -> found env s2 path c s3 ->
  ~ (In "!"%char mods /\ In c i.(locale_files)) ->
  let recorded := iset_locale_files (i.(locale_files) ++ [c]) (started_in s i) in
  locale_text env fl path (after_read env s3 path) recorded only (content_of env s3 path) t s4 ->
  env.(e_from_str) t = inl j -> is_obj (visible s4 i) ->
  exists s' i', eval_bif env s i (bif_text mods (B "locale") body) only = finished mods (B "&#0;") s' i' /\
    merged_into (B "locale") j (visible s4 i) (visible s' i') /\ only_local s4 s' /\ same_block recorded i'.
Proof.
  intros env s i mods body only p fl s1 path s2 c s3 t s4 j HM HA HU HS HO HPr [HI HF] HN HX HG rec0 HT HJ HV.
  assert (room (enough_fuel s) (after_read env s3 path)) as HR3.
  { eapply room_later; [|apply room_started]. eapply later_trans; [eapply prepared_later; exact HPr|].
    eapply later_trans; [eapply file_named_later; exact HN|]. eapply later_trans; [eapply found_later; exact HX|].
    split; [reflexivity|]. split; [apply N.le_refl|]. eexists [_]. reflexivity. }
  locale_start HPr. data_flags HF HI. data_name HPr HN. data_found HX path s2.
  change (locale_files (started_in s i)) with (locale_files i). rewrite (not_again _ _ _ HG).
  rewrite bind_modI. change (locale_files (started_in s i)) with (locale_files i). fold rec0.
  set (s3 := add_event (EvCanon path (Some c)) (add_event (EvExists path true) s2)) in *.
  erewrite bind_done by apply run_read. change BIF_OPEN with (B "{:"). change (contains (B "|noparse|") fl) with (flagged (B "noparse") fl).
  erewrite run_locale_text; [|exact HR3|reflexivity|reflexivity|reflexivity|exact HT].
  rewrite HJ. unfold merge_local_locale.
  match goal with |- context [mkSt ?a rec0 ?b] => destruct (run_merge (B "locale") j a rec0 b) as (s' & i' & E1 & E2 & E3 & E4);
    [exact HV|] end.
  erewrite bind_done by exact E1. exists s', i'. split; [unfold set_out; apply result_done; reflexivity|].
  split; [exact E2|]. split; [exact E3|exact E4].
Qed.
Print Assumptions C70_file.

(** Translations in the template are evaluated first, and merged the same way. *)
Theorem C70_inline : forall env s i mods body only p fl s1 t s2 i2 j, Forall modifier mods -> ~ In "&"%char mods -> ~ In "+"%char mods ->
  may_start s -> selected only i mods (B "locale") ->
  prepared env (B "locale") (started s) (started_in s i) only body p fl s1 -> flagged (B "inline") fl = true ->
  eval_text env (B "locale") s1 (started_in s i) (code_of body) only = BOk t s2 i2 ->
  env.(e_from_str) t = inl j -> is_obj (visible s2 i2) ->
  exists s' i', eval_bif env s i (bif_text mods (B "locale") body) only = finished mods [] s' i' /\
    merged_into (B "locale") j (visible s2 i2) (visible s' i') /\ only_local s2 s' /\ same_block (started_in s i) i'.
Proof.
  intros env s i mods body only p fl s1 t s2 i2 j HM HA HU HS HO HPr HI HE HJ HV. locale_start HPr.
  change (contains (B "|inline|") fl) with (flagged (B "inline") fl). rewrite HI. cbn [negb]. rewrite andb_false_r, andb_false_l.
  assert (room (enough_fuel s) s1) as HR1 by (eapply room_later; [eapply prepared_later; exact HPr|apply room_started]).
  assert (i2 = started_in s i) as -> by (eapply text_later; exact HE).
  erewrite bind_done by (rewrite run_code by (exact HR1 || reflexivity); proj; unfold eval_code, eval_text in *; rewrite HE; reflexivity).
  rewrite bind_getB. proj. rewrite HJ. unfold merge_local_locale.
  match goal with |- context [mkSt ?a ?i1 ?b] => destruct (run_merge (B "locale") j a i1 b) as (s' & i' & E1 & E2 & E3 & E4);
    [exact HV|] end.
  erewrite bind_done by exact E1. exists s', i'. split; [unfold set_out; apply result_done; reflexivity|].
  split; [exact E2|]. split; [exact E3|exact E4].
Qed.
Print Assumptions C70_inline.

Theorem C70_not_json : forall env s i mods body only p fl s1 path s2 c s3 t s4 e, Forall modifier mods -> ~ In "&"%char mods -> ~ In "+"%char mods ->
  may_start s -> selected only i mods (B "locale") ->
  prepared env (B "locale") (started s) (started_in s i) only body p fl s1 -> file_flags [B "require"; B "noparse"] fl ->
  file_named env (B "locale") s1 (started_in s i) only (code_of body) path s2 -> found env s2 path c s3 ->
  ~ (In "!"%char mods /\ In c i.(locale_files)) ->
  let recorded := iset_locale_files (i.(locale_files) ++ [c]) (started_in s i) in
  locale_text env fl path (after_read env s3 path) recorded only (content_of env s3 path) t s4 ->
  env.(e_from_str) t = inr e -> can_report s4 ->
  eval_bif env s i (bif_text mods (B "locale") body) only =
  failed env (B "not a valid JSON file") (B "locale") mods (bif_text mods (B "locale") body) [] s4 recorded.
Proof.
  intros env s i mods body only p fl s1 path s2 c s3 t s4 e HM HA HU HS HO HPr [HI HF] HN HX HG rec0 HT HJ HV.
  assert (room (enough_fuel s) (after_read env s3 path)) as HR3.
  { eapply room_later; [|apply room_started]. eapply later_trans; [eapply prepared_later; exact HPr|].
    eapply later_trans; [eapply file_named_later; exact HN|]. eapply later_trans; [eapply found_later; exact HX|].
    split; [reflexivity|]. split; [apply N.le_refl|]. eexists [_]. reflexivity. }
  locale_start HPr. data_flags HF HI. data_name HPr HN. data_found HX path s2.
  change (locale_files (started_in s i)) with (locale_files i). rewrite (not_again _ _ _ HG).
  rewrite bind_modI. change (locale_files (started_in s i)) with (locale_files i). fold rec0.
  set (s3 := add_event (EvCanon path (Some c)) (add_event (EvExists path true) s2)) in *.
  erewrite bind_done by apply run_read. change BIF_OPEN with (B "{:"). change (contains (B "|noparse|") fl) with (flagged (B "noparse") fl).
  erewrite run_locale_text; [|exact HR3|reflexivity|reflexivity|reflexivity|exact HT].
  rewrite HJ. apply result_fail; [exact HV|reflexivity|reflexivity].
Qed.
Print Assumptions C70_not_json.

Theorem C70_missing : forall env s i mods body only p fl s1 path s2, Forall modifier mods -> ~ In "&"%char mods -> ~ In "+"%char mods ->
  may_start s -> selected only i mods (B "locale") -> has_data s -> can_report s ->
  prepared env (B "locale") (started s) (started_in s i) only body p fl s1 -> file_flags [B "require"; B "noparse"] fl ->
  file_named env (B "locale") s1 (started_in s i) only (code_of body) path s2 -> not_found env s2 path ->
  eval_bif env s i (bif_text mods (B "locale") body) only =
  (if flagged (B "require") fl
   then failed env (B "file not found") (B "locale") mods (bif_text mods (B "locale") body) []
   else finished mods []) (add_event (EvExists path false) s2) (started_in s i).
Proof.
  intros env s i mods body only p fl s1 path s2 HM HA HU HS HO HD HC HPr [HI HF] HN HX.
  assert (can_report s2) as HC2 by (eapply (named_reports env (B "locale") (started s)); [exact HD|exact HC|exact HPr|exact HN]).
  locale_start HPr. data_flags HF HI. data_name HPr HN.
  unfold ask_exists. rewrite bind_ask. unfold not_found in HX. rewrite HX. cbn [negb].
  change (contains (B "|require|") fl) with (flagged (B "require") fl). rewrite app_if.
  destruct (flagged (B "require") fl).
  - unfold err. cbn [inh bf]. proj. apply result_fail; [exact HC2|reflexivity|reflexivity].
  - apply result_done; reflexivity.
Qed.
Print Assumptions C70_missing.
Theorem C70_once : forall env s i mods body only p fl s1 path s2 c s3, Forall modifier mods -> ~ In "&"%char mods -> ~ In "+"%char mods ->
  In "!"%char mods -> may_start s -> selected only i mods (B "locale") ->
  prepared env (B "locale") (started s) (started_in s i) only body p fl s1 -> file_flags [B "require"; B "noparse"] fl ->
  file_named env (B "locale") s1 (started_in s i) only (code_of body) path s2 -> found env s2 path c s3 ->
  In c i.(locale_files) ->
  eval_bif env s i (bif_text mods (B "locale") body) only = finished mods (B "&#0;") s3 (started_in s i).
Proof.
  intros env s i mods body only p fl s1 path s2 c s3 HM HA HU HG HS HO HPr [HI HF] HN HX HC.
  locale_start HPr. data_flags HF HI. data_name HPr HN. data_found HX path s2.
  change (locale_files (started_in s i)) with (locale_files i). rewrite (has_mod_true _ _ HG), (again _ _ HC). cbn [andb].
  apply result_done; reflexivity.
Qed.
Print Assumptions C70_once.

(** What trans (C52) then finds: the new translation where there is one, the old one elsewhere. *)
Theorem C70_translation : forall v j new lang text, wf_json new -> is_obj (idx v (B "locale")) -> is_obj new ->
  merged_into (B "locale") new v j ->
  let at_ x := at_path [B "trans"; lang; text] x in
  (forall t, at_ new = Some (JStr t) -> at_ (idx j (B "locale")) = Some (JStr t)) /\
  (~ touches new [B "trans"; lang; text] -> at_ (idx j (B "locale")) = at_ (idx v (B "locale"))).
Proof.
  intros v j new lang text HW HO HN [H _]. cbv zeta. rewrite H. split.
  - intros t HT. apply merge_second_wins; [exact HW|exact HT|]. intros [m E]. discriminate.
  - intro HT. apply merge_rest_kept; assumption.
Qed.
Print Assumptions C70_translation.

Example C70_example :
  output_in env1 "[{:trans; Hello :}]{:locale; /j.json :}[{:trans; Hello :}][{:trans; Bye :}]" = B "[Hello][Hi][Bye]" /\
  output_in env1 "{:code; {:locale; {:flg; inline :} >> {...} :}[{:trans; Hello :}] :}[{:trans; Hello :}]" = B "[Hi][Hello]".
Proof. split; vm_compute; reflexivity. Qed.

(** ** C39: the flags safe and noparse *)

(** the content is not evaluated, the file is not recorded, nothing else happens *)
Theorem C39_raw : forall env s i mods body only p fl s1 path s2 c s3, Forall modifier mods -> ~ In "&"%char mods -> ~ In "+"%char mods ->
  may_start s -> selected only i mods (B "include") ->
  prepared env (B "include") (started s) (started_in s i) only body p fl s1 -> flags_in include_flags fl ->
  file_named env (B "include") s1 (started_in s i) only (code_of body) path s2 -> found env s2 path c s3 ->
  ~ (In "!"%char mods /\ In c i.(include_files)) -> flagged (B "safe") fl = true \/ flagged (B "noparse") fl = true ->
  exists r, eval_bif env s i (bif_text mods (B "include") body) only = finished mods r (after_read env s3 path) (started_in s i) /\
    if flagged (B "safe") fl then bifs_encoded (refilter false (content_of env s3 path)) r /\ no_bif r
    else r = content_of env s3 path.
Proof.
  intros env s i mods body only p fl s1 path s2 c s3 HM HA HU HS HO HPr HF HN HX HI HT.
  include_start HPr HF HN.
  destruct HX as [c HX1 HX2]. unfold ask_exists. rewrite bind_ask, HX1. cbn [negb].
  erewrite bind_done by (apply run_dir; reflexivity). unfold ask_canon. rewrite bind_ask.
  change (strace (add_event (EvExists path true) s2)) with (EvExists path true :: strace s2). rewrite HX2.
  cbn [lift_option]. rewrite bind_ret, bind_getI.
  change (include_files (started_in s i)) with (include_files i). rewrite (not_again _ _ _ HI).
  change (contains (B "|safe|") fl) with (flagged (B "safe") fl). change (contains (B "|noparse|") fl) with (flagged (B "noparse") fl).
  set (s3 := add_event (EvCanon path (Some c)) (add_event (EvExists path true) s2)) in *.
  destruct (flagged (B "safe") fl).
  - erewrite bind_done by apply run_read. rewrite bind_modB. eexists. split; [unfold set_out; apply result_done; reflexivity|].
    split; [|apply encode_bifs_clean]. unfold encode_bifs, encode_tags, refilter. eexists. split; apply replace_replaced; discriminate.
  - destruct HT as [HT|HT]; [discriminate|]. rewrite HT.
    erewrite bind_done by apply run_read. rewrite bind_modB. eexists. split; [unfold set_out; apply result_done; reflexivity|reflexivity].
Qed.
Print Assumptions C39_raw.

Example C39_raw_example :
  output_in env1 "{:include; {:flg; safe :} >> /f.ntpl :}{:include; {:flg; noparse :} >> /f.ntpl :}{:!include; /f.ntpl :}" =
  B "[&#123;:;name:&#125;][{:;name:}][World]".
Proof. vm_compute. reflexivity. Qed.

(** ** C11: the flags of code *)

(** The code, encoded as the flags say, is output as it is (safe, noparse) or evaluated; encode_tags_after encodes the result. *)
Theorem C11_flags : forall env s i mods body only p fl s1, Forall modifier mods -> ~ In "&"%char mods -> ~ In "!"%char mods ->
  may_start s -> selected only i mods (B "code") ->
  prepared env (B "code") (started s) (started_in s i) only body p fl s1 -> flags_in code_flags fl ->
  exists c1 c2 enc after, encoded_if (B "encode_tags") fl tags_encoded (code_of body) c1 /\ encoded_if (B "encode_bifs") fl bifs_encoded c1 c2 /\
    bifs_encoded (refilter false (code_of body)) enc /\ (forall o, encoded_if (B "encode_tags_after") fl tags_encoded o (after o)) /\
    eval_bif env s i (bif_text mods (B "code") body) only =
    if flagged (B "safe") fl then finished mods (after enc) s1 (started_in s i)
    else if flagged (B "noparse") fl then finished mods (after c2) s1 (started_in s i)
    else and_then (eval_code env (B "code") (has_mod "+" mods) s1 (started_in s i) c2 only)
           (fun o s2 i2 => finished mods (after o) s2 i2).
Proof.
  intros env s i mods body only p fl s1 HM HA HG HS HO HP HF.
  pose proof (code_run env s i mods body only p fl s1 HM HA HG HS HO HP HF) as E. cbv zeta in E.
  assert (forall t, bifs_encoded t (encode_bifs t)) as HB by (intro t; eexists; split; apply replace_replaced; discriminate).
  exists (if flagged (B "encode_tags") fl then encode_tags (code_of body) else code_of body),
    (let c1 := if flagged (B "encode_tags") fl then encode_tags (code_of body) else code_of body in
     if flagged (B "encode_bifs") fl then encode_bifs c1 else c1), (encode_bifs (encode_tags (code_of body))),
    (fun c => if flagged (B "encode_tags_after") fl then encode_tags c else c). split; [|split; [|split; [|split; [|exact E]]]].
  - unfold encoded_if. destruct (flagged (B "encode_tags") fl); reflexivity.
  - unfold encoded_if. destruct (flagged (B "encode_bifs") fl); [apply HB|reflexivity].
  - apply HB.
  - intro o. unfold encoded_if. destruct (flagged (B "encode_tags_after") fl); reflexivity.
Qed.
Print Assumptions C11_flags.

Example C11_flags_example :
  output_of "{:code; {:flg; encode_tags :} >> <b>{:;name:} :}{:code; {:flg; encode_tags_after :} >> <b>{:;name:} :}" = B "&lt;b&gt;World&lt;b&gt;World" /\
  output_of "{:code; {:flg; encode_bifs :} >> <b>{:;name:} :}" = B "<b>&#123;:;name:&#125;".
Proof. split; vm_compute; reflexivity. Qed.
