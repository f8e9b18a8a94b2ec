(** * Property theorems: include, data and locale *)

From Verif Require Import Bytes Json Utils ConstantsGen State Engine Template Spec SpecEngine BytesFacts EscapeProofs TextProofs
  BlockProofs TemplateProofs InertProofs FrameProofs FrameRun EngineFrames MoreFrames EvalProofs KeepProofs HandlerProofs Samples
  PropertiesVars.

(** ** Steps *)
Lemma child_file env n s i b src : room n s ->
  child (run_blocks env n) src true (mkSt s i b) =
  onto b (eval_file env (alias b) (file_path b) (dir b) s i src (only b)) (fun o => o) (fun _ b => b).
Proof.
  intros HR. unfold child, with_child. cbn [bf sh inh]. unfold eval_file, onto. pose proof (room_create n s i HR) as HR2.
  destruct (create_block_schema s i) as [s1 i1]. cbn [fst] in HR2.
  rewrite block_parse_any by exact HR2.
  change (iset_block_count _ _) with (inside_file (alias b) (file_path b) (dir b) i).
  destruct (parse env s1 (inside_file (alias b) (file_path b) (dir b) i) src (only b)); reflexivity.
Qed.
Lemma child_unscoped env n s i b src : room n s ->
  child (run_blocks env n) src false (mkSt s i b) =
  match parse env s (inside_file (alias b) (file_path b) (dir b) i) src (only b) with
  | BOk o s2 i2 => Done o (mkSt (drop_block s2 i2) i b)
  | BPanic p => Panic p
  | BNoFuel => NoFuel
  end.
Proof.
  intros HR. unfold child, with_child. cbn [bf sh inh]. rewrite block_parse_any by exact HR.
  change (iset_block_count _ _) with (inside_file (alias b) (file_path b) (dir b) i).
  destruct (parse env s (inside_file (alias b) (file_path b) (dir b) i) src (only b)); reflexivity.
Qed.

Lemma run_resolve env n s i b path s1 : room n s -> dir b = [] ->
  file_named env (alias b) s i (only b) (code b) path s1 ->
  resolve_file (run_blocks env n) (mkSt s i b) = Done tt (mkSt s1 i (bset_file_path path b)).
Proof.
  intros HR HD HN. unfold resolve_file. rewrite bind_modB, bind_getB. proj. rewrite bind_if. change BIF_OPEN with (B "{:").
  destruct HN as [HN|p s2 i2 HN HA HE].
  - rewrite (contains_no _ _ HN). rewrite bind_ret, bind_getI. unfold modB. proj. destruct b; reflexivity.
  - rewrite (contains_yes _ _ HN), HA. cbn [lift_option]. rewrite bind_bind, bind_ret. cbn [negb]. rewrite bind_bind.
    erewrite bind_done.
    2:{ rewrite child_unscoped by exact HR. proj. rewrite HD, HE. reflexivity. }
    rewrite bind_modB, bind_getI. unfold modB. proj. destruct b; reflexivity.
Qed.
Lemma file_named_later env al s i only code path s1 : file_named env al s i only code path s1 -> later s s1.
Proof.
  intros [|p s2 i2 _ _ H]; [apply later_refl|]. apply parse_later in H. eapply later_trans; [exact H|].
  destruct (drop_store s2 i2) as [x ->]. apply later_same; reflexivity.
Qed.

Lemma bad_resolve env n s i b : bare_variable (code b) ->
  resolve_file (run_blocks env n) (mkSt s i b)
  = Fail (mkErr E_INSECURE_FILE i.(current_file) b.(alias) b.(raw)) (mkSt s i (bset_file_path (code b) b)).
Proof.
  intro H. apply bare_facts in H as [H1 H2]. unfold resolve_file. rewrite bind_modB, bind_getB. proj.
  rewrite bind_if. change BIF_OPEN with (B "{:"). rewrite (contains_yes _ _ H1), H2. cbn [lift_option].
  rewrite bind_bind, bind_ret. cbn [negb]. rewrite bind_err. reflexivity.
Qed.

(** ** C38: a file name that is a bare variable bif *)

Definition include_flags : list bytes := [B "require"; B "safe"; B "noparse"].

Theorem C38_include : forall env s i mods body only p fl s1, Forall modifier mods -> ~ In "&"%char mods -> ~ In "+"%char mods ->
  may_start s -> selected only i mods (B "include") -> has_data s -> can_report s ->
  prepared env (B "include") (started s) (started_in s i) only body p fl s1 -> flags_in include_flags fl ->
  bare_variable (code_of body) ->
  eval_bif env s i (bif_text mods (B "include") body) only =
  failed env (B "insecure file name") (B "include") mods (bif_text mods (B "include") body) [] s1 (started_in s i).
Proof.
  intros env s i mods body only p fl s1 HM HA HP HS HO HD HC HPr HF HB. rewrite eval_bif_text by (assumption || plain).
  change (dispatch env ?r (B "include")) with (bif_include env r). unfold bif_include, entry.
  rewrite bind_reject by (proj; allowed). pose proof (room_started s) as HR.
  erewrite bind_done by (eapply run_extract; [exact HR|reflexivity..|exact HPr]).
  rewrite bind_check_flags by exact HF.
  erewrite bind_fail by (apply bad_resolve; exact HB).
  apply result_fail; [eapply prepared_reports; [| |exact HPr]; assumption|reflexivity|reflexivity].
Qed.
Print Assumptions C38_include.

Theorem C38_data : forall env s i mods body only p fl s1, Forall modifier mods -> ~ In "&"%char mods -> ~ In "+"%char mods ->
  may_start s -> selected only i mods (B "data") -> has_data s -> can_report s ->
  prepared env (B "data") (started s) (started_in s i) only body p fl s1 -> fl = [] \/ flagged (B "require") fl = true ->
  flagged (B "inline") fl = false -> bare_variable (code_of body) ->
  eval_bif env s i (bif_text mods (B "data") body) only =
  failed env (B "insecure file name") (B "data") mods (bif_text mods (B "data") body) [] s1 (started_in s i).
Proof.
  intros env s i mods body only p fl s1 HM HA HP HS HO HD HC HPr HF HI HB. rewrite eval_bif_text by (assumption || plain).
  change (dispatch env ?r (B "data")) with (bif_data env r). unfold bif_data, entry.
  rewrite bind_reject by (proj; allowed). pose proof (room_started s) as HR.
  erewrite bind_done by (eapply run_extract; [exact HR|reflexivity..|exact HPr]).
  rewrite bind_getB. unfold has_flag. proj.
  change (contains (B "|inline|") fl) with (flagged (B "inline") fl).
  change (contains (B "|require|") fl) with (flagged (B "require") fl). rewrite HI.
  assert (negb (is_empty fl) && negb (flagged (B "require") fl) && negb false = false) as ->
    by (destruct HF as [-> | -> ]; [reflexivity|rewrite andb_false_r; reflexivity]).
  erewrite bind_fail by (apply bad_resolve; exact HB).
  apply result_fail; [eapply prepared_reports; [| |exact HPr]; assumption|reflexivity|reflexivity].
Qed.
Print Assumptions C38_data.

Theorem C38_locale : forall env s i mods body only p fl s1, Forall modifier mods -> ~ In "&"%char mods -> ~ In "+"%char mods ->
  may_start s -> selected only i mods (B "locale") -> has_data s -> can_report s ->
  prepared env (B "locale") (started s) (started_in s i) only body p fl s1 ->
  fl = [] \/ flagged (B "require") fl = true \/ flagged (B "noparse") fl = true ->
  flagged (B "inline") fl = false -> bare_variable (code_of body) ->
  eval_bif env s i (bif_text mods (B "locale") body) only =
  failed env (B "insecure file name") (B "locale") mods (bif_text mods (B "locale") body) [] s1 (started_in s i).
Proof.
  intros env s i mods body only p fl s1 HM HA HP HS HO HD HC HPr HF HI HB. rewrite eval_bif_text by (assumption || plain).
  change (dispatch env ?r (B "locale")) with (bif_locale env r). unfold bif_locale, entry.
  rewrite bind_reject by (proj; allowed). pose proof (room_started s) as HR.
  erewrite bind_done by (eapply run_extract; [exact HR|reflexivity..|exact HPr]).
  rewrite bind_getB. unfold has_flag. proj.
  change (contains (B "|inline|") fl) with (flagged (B "inline") fl).
  change (contains (B "|require|") fl) with (flagged (B "require") fl).
  change (contains (B "|noparse|") fl) with (flagged (B "noparse") fl). rewrite HI.
  assert (negb (is_empty fl) && negb (flagged (B "require") fl) && negb false && negb (flagged (B "noparse") fl) = false) as ->
    by (destruct HF as [-> | [-> | -> ]]; [reflexivity|rewrite andb_false_r; reflexivity|rewrite andb_false_r; reflexivity]).
  erewrite bind_fail by (apply bad_resolve; exact HB).
  apply result_fail; [eapply prepared_reports; [| |exact HPr]; assumption|reflexivity|reflexivity].
Qed.
Print Assumptions C38_locale.

(** ** C39: include *)

Lemma run_dir env path s i b : dir b = [] ->
  (match env.(e_parent) path with Some d => modB (bset_dir d) | None => ret tt end) (mkSt s i b)
  = Done tt (mkSt s i (bset_dir (dir_of env path) b)).
Proof. intro H. unfold dir_of. destruct (e_parent env path); [reflexivity|]. unfold ret. destruct b; cbn in *; subst; reflexivity. Qed.
Lemma run_read env path s i b :
  read_or_empty env path (mkSt s i b) = Done (content_of env s path) (mkSt (after_read env s path) i b).
Proof. reflexivity. Qed.
Lemma file_named_facts env al s i only code path s1 : has_data s -> file_named env al s i only code path s1 ->
  has_data s1 /\ keeps_rest s s1.
Proof.
  intros HD [|p s2 i2 _ _ H]; [split; [exact HD|apply keeps_refl]|].
  split; [apply drop_has_data; eapply parse_has_data; eassumption|].
  eapply keeps_trans; [eapply parse_keeps; eassumption|apply drop_keeps].
Qed.
Lemma named_reports env al s i only body p fl s1 code path s2 : has_data s -> can_report s ->
  prepared env al s i only body p fl s1 -> file_named env al s1 i only code path s2 -> can_report s2.
Proof.
  intros HD HC HP HN. eapply keeps_reports; [|exact HC]. eapply keeps_trans; [eapply prepared_keeps; eassumption|].
  eapply file_named_facts; [|exact HN]. eapply prepared_has_data; eassumption.
Qed.
Lemma found_later env s path c s1 : found env s path c s1 -> later s s1.
Proof. intros []. split; [reflexivity|]. split; [apply N.le_refl|]. eexists [_; _]. reflexivity. Qed.
Lemma only_flag g fl h : flags_in [g] fl -> ~ In "|"%char h -> h <> [] -> h <> g -> flagged h fl = false.
Proof.
  intros HF H1 H2 H3. destruct (flagged h fl) eqn:E; [|reflexivity]. exfalso. unfold flagged in E. apply contains_iff in E.
  assert (In h (split (B "|") fl)) as HJ by (apply split_piece; [exact H1|exact E]).
  destruct (HF h HJ) as [EE|[EE|[]]]; congruence.
Qed.

(** run up to the first question to the file system *)
Ltac include_start HPr HF HN :=
  rewrite eval_bif_text by (assumption || plain);
  change (dispatch ?e ?r (B "include")) with (bif_include e r); unfold bif_include, entry;
  rewrite bind_reject by (proj; allowed);
  erewrite bind_done by (eapply run_extract; [apply room_started|reflexivity..|exact HPr]);
  rewrite bind_check_flags by exact HF;
  erewrite bind_done by (eapply run_resolve;
    [eapply room_later; [eapply prepared_later; exact HPr|apply room_started]|reflexivity|exact HN]);
  rewrite bind_getB; unfold has_flag; proj.

(** the file does not exist: nothing happens, or an error if it is required *)
Theorem C39_missing : forall env s i mods body only p fl s1 path s2, Forall modifier mods -> ~ In "&"%char mods -> ~ In "+"%char mods ->
  may_start s -> selected only i mods (B "include") ->
  prepared env (B "include") (started s) (started_in s i) only body p fl s1 -> flags_in include_flags fl ->
  file_named env (B "include") s1 (started_in s i) only (code_of body) path s2 -> not_found env s2 path ->
  has_data s -> can_report s ->
  eval_bif env s i (bif_text mods (B "include") body) only =
  (if flagged (B "require") fl
   then failed env (B "file not found") (B "include") mods (bif_text mods (B "include") body) []
   else finished mods []) (add_event (EvExists path false) s2) (started_in s i).
Proof.
  intros env s i mods body only p fl s1 path s2 HM HA HU HS HO HPr HF HN HX HD HC.
  assert (can_report s2) as HC2 by (eapply (named_reports env (B "include") (started s)); [exact HD|exact HC|exact HPr|exact HN]).
  include_start HPr HF HN.
  unfold ask_exists. rewrite bind_ask. unfold not_found in HX. rewrite HX. cbn [negb].
  change (contains (B "|require|") fl) with (flagged (B "require") fl). rewrite app_if.
  destruct (flagged (B "require") fl).
  - unfold err. cbn [inh bf]. proj. apply result_fail; [exact HC2|reflexivity|reflexivity].
  - apply result_done; reflexivity.
Qed.
Print Assumptions C39_missing.

(** with '!': nothing when the file has been included already, not even its content is read *)
Theorem C39_once : forall env s i mods body only p fl s1 path s2 c s3, Forall modifier mods -> ~ In "&"%char mods -> ~ In "+"%char mods ->
  In "!"%char mods -> may_start s -> selected only i mods (B "include") ->
  prepared env (B "include") (started s) (started_in s i) only body p fl s1 -> flags_in include_flags fl ->
  file_named env (B "include") s1 (started_in s i) only (code_of body) path s2 -> found env s2 path c s3 ->
  In c i.(include_files) ->
  eval_bif env s i (bif_text mods (B "include") body) only = finished mods [] s3 (started_in s i).
Proof.
  intros env s i mods body only p fl s1 path s2 c s3 HM HA HU HG HS HO HPr HF HN HX HI. include_start HPr HF HN.
  destruct HX as [c HX1 HX2]. unfold ask_exists. rewrite bind_ask, HX1. cbn [negb].
  erewrite bind_done by (apply run_dir; reflexivity). unfold ask_canon. rewrite bind_ask.
  change (strace (add_event (EvExists path true) s2)) with (EvExists path true :: strace s2). rewrite HX2.
  cbn [lift_option]. rewrite bind_ret, bind_getI, (has_mod_true _ _ HG).
  assert (existsb (beq c) (include_files (started_in s i)) = true) as -> by (apply existsb_exists; exists c; split; [exact HI|apply beq_refl]).
  cbn [andb]. apply result_done; reflexivity.
Qed.
Print Assumptions C39_once.

(** otherwise the content is evaluated and the path recorded *)
Theorem C39_include : forall env s i mods body only p fl s1 path s2 c s3 src, Forall modifier mods -> ~ In "&"%char mods -> ~ In "+"%char mods ->
  may_start s -> selected only i mods (B "include") ->
  prepared env (B "include") (started s) (started_in s i) only body p fl s1 -> flags_in [B "require"] fl ->
  file_named env (B "include") s1 (started_in s i) only (code_of body) path s2 -> found env s2 path c s3 ->
  ~ (In "!"%char mods /\ In c i.(include_files)) -> stripped s3 (content_of env s3 path) src ->
  let recorded := iset_include_files (i.(include_files) ++ [c]) (started_in s i) in
  eval_bif env s i (bif_text mods (B "include") body) only =
  and_then (eval_file env (B "include") path (dir_of env path) (after_read env s3 path) recorded src only) (finished mods).
Proof.
  intros env s i mods body only p fl s1 path s2 c s3 src HM HA HU HS HO HPr HF0 HN HX HI HT. cbv zeta.
  assert (flags_in include_flags fl) as HF.
  { intros f Hf. destruct (HF0 f Hf) as [E|[<-|[]]]; [left; exact E|right; cbn; tauto]. }
  assert (room (enough_fuel s) (after_read env s3 path)) as HR3.
  { eapply room_later; [|apply room_started]. eapply later_trans; [eapply prepared_later; exact HPr|].
    eapply later_trans; [eapply file_named_later; exact HN|]. eapply later_trans; [eapply found_later; exact HX|].
    split; [reflexivity|]. split; [apply N.le_refl|]. eexists [_]. reflexivity. }
  include_start HPr HF HN.
  destruct HX as [c HX1 HX2]. unfold ask_exists. rewrite bind_ask, HX1. cbn [negb].
  erewrite bind_done by (apply run_dir; reflexivity). unfold ask_canon. rewrite bind_ask.
  change (strace (add_event (EvExists path true) s2)) with (EvExists path true :: strace s2). rewrite HX2.
  cbn [lift_option]. rewrite bind_ret, bind_getI.
  assert (has_mod "!" mods && existsb (beq c) (include_files (started_in s i)) = false) as ->.
  { destruct (has_mod "!" mods) eqn:EG; [|reflexivity]. cbn [andb].
    destruct (existsb (beq c) (include_files (started_in s i))) eqn:EE; [|reflexivity]. exfalso. apply HI.
    apply existsb_exists in EE as (x & Hx & Ex). apply beq_eq in Ex. subst x. split; [|exact Hx].
    unfold has_mod in EG. apply existsb_exists in EG as (x & Hx2 & Ex). apply aeqb_eq in Ex. subst x. exact Hx2. }
  change (contains (B "|safe|") fl) with (flagged (B "safe") fl). change (contains (B "|noparse|") fl) with (flagged (B "noparse") fl).
  rewrite (only_flag (B "require") fl (B "safe")) by (assumption || discriminate || (cbn; intuition discriminate)).
  rewrite (only_flag (B "require") fl (B "noparse")) by (assumption || discriminate || (cbn; intuition discriminate)).
  rewrite bind_modI. set (s3 := add_event (EvCanon path (Some c)) (add_event (EvExists path true) s2)) in *.
  erewrite bind_done by apply run_read. rewrite bind_getS.
  change (cfg (after_read env s3 path)) with (cfg s3).
  assert (forall (k : bytes -> M unit) st, bind (if contains (B "remove") (comments (cfg s3))
            then lift_option PRemoveComments (remove_comments (content_of env s3 path)) else ret (content_of env s3 path)) k st = k src st) as ->.
  { intros k st. destruct HT as [HT|r HT HR].
    - rewrite (contains_no _ _ HT). apply bind_ret.
    - rewrite (contains_yes _ _ HT), HR. apply bind_ret. }
  unfold bind at 1. rewrite child_file by exact HR3. proj.
  change (include_files (started_in s i)) with (include_files i).
  destruct (eval_file env (B "include") path (dir_of env path) (after_read env s3 path)
     (iset_include_files (include_files i ++ [c]) (started_in s i)) src only) as [o s4 i4|q|]; [|reflexivity|reflexivity].
  cbn [onto and_then]. apply result_done; reflexivity.
Qed.
Print Assumptions C39_include.

(** what has been recorded is not forgotten, and nested blocks inherit it *)
Theorem C39_remembered : forall env s i text only o s' i', eval_bif env s i text only = BOk o s' i' ->
  exists l, i'.(include_files) = i.(include_files) ++ l.
Proof. intros env s i text only o s' i' H. apply bif_run_remembers in H. apply H. Qed.
Print Assumptions C39_remembered.
Theorem C39_inherited : forall al file d i, (inside al i).(include_files) = i.(include_files) /\
  (inside_file al file d i).(include_files) = i.(include_files).
Proof. intros al file d i. unfold inside_file. destruct (is_empty file), (is_empty d); split; reflexivity. Qed.
Print Assumptions C39_inherited.
(** so a second !include of the same file, by a later bif of the block, does nothing *)
Theorem C39_recorded : forall env s i mods body only p fl s1 path s2 c s3 src o s' i', Forall modifier mods -> ~ In "&"%char mods -> ~ In "+"%char mods ->
  may_start s -> selected only i mods (B "include") ->
  prepared env (B "include") (started s) (started_in s i) only body p fl s1 -> flags_in [B "require"] fl ->
  file_named env (B "include") s1 (started_in s i) only (code_of body) path s2 -> found env s2 path c s3 ->
  stripped s3 (content_of env s3 path) src ->
  eval_bif env s i (bif_text mods (B "include") body) only = BOk o s' i' -> In c i'.(include_files).
Proof.
  intros env s i mods body only p fl s1 path s2 c s3 src o s' i' HM HA HU HS HO HPr HF HN HX HT H.
  destruct (has_mod "!" mods && existsb (beq c) (include_files i)) eqn:E.
  - apply andb_prop in E as [_ E]. apply existsb_exists in E as (x & Hx & Ex). apply beq_eq in Ex. subst x.
    apply C39_remembered in H as [l ->]. apply in_or_app. left. exact Hx.
  - rewrite (C39_include env s i mods body only p fl s1 path s2 c s3 src) in H; try assumption.
    + unfold eval_file, create_block_schema in H. cbn [iset_include_files] in H.
      destruct (parse _ _ _ src only) as [o4 s4 i4|q|]; [|discriminate|discriminate].
      cbn [and_then] in H. unfold finished in H.
      assert (include_files i' = include_files i ++ [c]) as ->.
      { match type of H with BOk _ _ ?a = _ => assert (i' = a) as -> by congruence end. reflexivity. }
      apply in_or_app. right. left. reflexivity.
    + intros [H1 H2]. apply has_mod_true in H1. rewrite H1 in E. cbn [andb] in E.
      assert (existsb (beq c) (include_files i) = true) as E2 by (apply existsb_exists; exists c; split; [exact H2|apply beq_refl]).
      congruence.
Qed.
Print Assumptions C39_recorded.

Example C39_example :
  output_in env1 "{:include; /f.ntpl :}{:!include; /f.ntpl :}{:include; /f.ntpl :}{:code; {:!include; /f.ntpl :} :}" = B "[World][World]" /\
  output_in env1 "{:!include; /f.ntpl :}{:!include; /nofile :}|" = B "[World]|" /\
  (let s := started (fst (start_of "")) in
   file_named env1 (B "include") s (snd (start_of "")) [] (B "/f.ntpl") (B "/f.ntpl") s /\
   found env1 s (B "/f.ntpl") (B "/f.ntpl")
     (add_event (EvCanon (B "/f.ntpl") (Some (B "/f.ntpl"))) (add_event (EvExists (B "/f.ntpl") true) s)) /\
   stripped s (B "[{:;name:}]") (B "[{:;name:}]")).
Proof.
  split; [vm_compute; reflexivity|]. split; [vm_compute; reflexivity|]. cbv zeta.
  split; [|split; [constructor; reflexivity|]].
  - apply (fn_literal env1 (B "include") (started (fst (start_of ""))) (snd (start_of "")) [] (B "/f.ntpl")).
    intro E. apply contains_iff in E. vm_compute in E. discriminate.
  - apply st_remove; [apply contains_iff; vm_compute; reflexivity|vm_compute; reflexivity].
Qed.

(** The levels matter: a file included inside an included file may be included again outside. *)
Example C39_levels : output_in env1 "{:include; /g.ntpl :}{:!include; /f.ntpl :}" = B "([World])[World]".
Proof. vm_compute. reflexivity. Qed.

(** only the clock is read, for the error message *)
Example C38_example : bare_variable (code_of (B " {:;name:} ")) /\
  trace_in env1 "{:include; {:;name:} :}{:data; {:;name:} :}{:locale; {:;name:} :}"
  = [EvLocalNow (B "now"); EvLocalNow (B "now"); EvLocalNow (B "now")] /\
  has_data (fst (start_of "")) /\ can_report (fst (start_of "")).
Proof.
  split; [|split; [vm_compute; reflexivity|split; [split; eexists; vm_compute; reflexivity|exists true; vm_compute; reflexivity]]].
  exists [CText (B "{:;name:}")], (B "name"). split.
  - constructor; [|exact I|constructor]. intro E. apply contains_iff in E. vm_compute in E. discriminate.
  - split; [vm_compute; reflexivity|]. split; [reflexivity|].
    split; intro E; apply contains_iff in E; vm_compute in E; discriminate.
Qed.

(** The claim does not extend to obj: there a bare variable is evaluated and the file looked up. *)
Theorem C38_obj_refuted : exists e, hd_error (trace_in env1 "{:obj; {:;name:} :}") = Some e /\ e = EvExists (B "World") false.
Proof. eexists. split; vm_compute; reflexivity. Qed.
Print Assumptions C38_obj_refuted.
