(** * Property theorems: debug and obj *)

From Verif Require Import Bytes Json Utils ConstantsGen State Engine Template Spec SpecEngine BytesFacts EscapeProofs TextProofs
  BlockProofs TemplateProofs InertProofs FrameProofs FrameRun EngineFrames MoreFrames EvalProofs KeepProofs HandlerProofs Samples
  PropertiesVars PropertiesFiles PropertiesMore PropertiesHandlers PropertiesCache PropertiesMisc.

(** ** C77: debug *)

Lemma run_enable env s i b o s1 : debug_open env s o s1 -> debug_enable env (mkSt s i b) = Done o (mkSt s1 i b).
Proof.
  intro H. unfold debug_enable. rewrite bind_getS.
  destruct H as [H|f H HN H1|f s1 H HN H1 -> H2|f s1 s2 a o H HN H1 -> H2 -> H3 HO]; rewrite H; [reflexivity|..];
    destruct f as [|c f]; try congruence; cbn [is_empty]; unfold ask_exists; rewrite bind_ask, H1; cbn [negb]; [reflexivity|..];
    unfold ask_is_file; rewrite bind_ask; cbn [add_event strace] in *; rewrite H2; cbn [negb]; [reflexivity|].
  unfold ask_age. rewrite bind_ask. cbn [add_event strace]. rewrite H3. unfold ret.
  assert (match a with Some n => (n <? debug_expire (cfg s))%N | None => false end = o) as ->; [|reflexivity].
  destruct a as [n|].
  - destruct (N.ltb_spec n (debug_expire (cfg s))) as [L|L].
    + symmetry. apply HO. exists n. auto.
    + destruct o; [|reflexivity]. destruct (proj1 HO eq_refl) as (n' & E & L'). injection E as <-. lia.
  - destruct o; [|reflexivity]. destruct (proj1 HO eq_refl) as (n' & E & _). discriminate.
Qed.
Lemma open_later env s o s1 : debug_open env s o s1 -> later s s1.
Proof.
  assert (forall e x, later x (add_event e x)) as E.
  { intros e x. split; [reflexivity|]. split; [cbn; lia|]. exists [e]. reflexivity. }
  destruct 1; subst; repeat (eapply later_trans; [|apply E]); apply later_refl.
Qed.
Lemma open_schema env s o s1 : debug_open env s o s1 -> schema s1 = schema s.
Proof. destruct 1; subst; reflexivity. Qed.

(** While the debug file does not open it, debug reveals nothing: its output is empty and the error is a fixed text. *)
Theorem C77_closed : forall env s i mods body only s1, Forall modifier mods -> ~ In "!"%char mods -> ~ In "+"%char mods ->
  may_start s -> selected only i mods (B "debug") -> can_report s -> debug_open env (started s) false s1 ->
  eval_bif env s i (bif_text mods (B "debug") body) only =
  failed env (B "Debug is disabled. Remember to remove the bif debug in production.") (B "debug") mods
    (bif_text mods (B "debug") body) [] s1 (started_in s i).
Proof.
  intros env s i mods body only s1 HM HG HU HS HO HC HD.
  rewrite eval_bif_text by (assumption || plain).
  change (dispatch env ?r (B "debug")) with (bif_debug env r). unfold bif_debug, entry.
  rewrite bind_reject by (proj; allowed). erewrite bind_done by (eapply run_enable; exact HD).
  rewrite bind_getB. proj. rewrite (has_mod_false _ _ HG). cbn [negb]. unfold set_out. rewrite bind_modB.
  apply result_fail; [|reflexivity|reflexivity].
  destruct HC as [x HC]. exists x. rewrite (open_schema _ _ _ _ HD). exact HC.
Qed.
Print Assumptions C77_closed.

(** '!' only tells whether it is open *)
Theorem C77_test : forall env s i mods body only o s1, Forall modifier mods -> In "!"%char mods -> ~ In "+"%char mods ->
  may_start s -> selected only i mods (B "debug") -> debug_open env (started s) o s1 ->
  eval_bif env s i (bif_text mods (B "debug") body) only = finished mods (if o then UNPRINTABLE else []) s1 (started_in s i).
Proof.
  intros env s i mods body only o s1 HM HG HU HS HO HD.
  rewrite eval_bif_text by (assumption || plain).
  change (dispatch env ?r (B "debug")) with (bif_debug env r). unfold bif_debug, entry.
  rewrite bind_reject by (proj; allowed). erewrite bind_done by (eapply run_enable; exact HD).
  rewrite bind_getB. proj. rewrite (has_mod_true _ _ HG). destruct o; unfold set_out; apply result_done; reflexivity.
Qed.
Print Assumptions C77_test.

(** Open, it outputs the value of its name as JSON, filtered with '&'; the version without a name. *)
Theorem C77_shows : forall env s i mods body only s1 p fl s2, Forall modifier mods -> ~ In "!"%char mods -> ~ In "+"%char mods ->
  may_start s -> selected only i mods (B "debug") -> debug_open env (started s) true s1 ->
  prepared env (B "debug") s1 (started_in s i) only body p fl s2 ->
  let shown t := if has_mod "&" mods then refilter true t else t in
  (code_of body = [] -> eval_bif env s i (bif_text mods (B "debug") body) only = finished mods VERSION s2 (started_in s i)) /\
  (forall v, debug_value s2 (started_in s i) (code_of body) v ->
     eval_bif env s i (bif_text mods (B "debug") body) only = finished mods (shown (env.(e_to_pretty) v)) s2 (started_in s i)) /\
  (forall l nm, arrow_name l nm -> nm <> B "full-schema" ->
     (code_of body = nm /\ nm <> [] /\ (forall r, nm <> B "local::" ++ r) /\ (forall v, ~ points l s2.(schema) v)) \/
     (code_of body = B "local::" ++ nm /\ forall v, ~ points l (visible s2 (started_in s i)) v) ->
     eval_bif env s i (bif_text mods (B "debug") body) only =
     finished mods (shown (B "Undefined: '" ++ code_of body ++ B "'")) s2 (started_in s i)).
Proof.
  intros env s i mods body only s1 p fl s2 HM HG HU HS HO HD HP shown.
  assert (forall nm, (forall r, nm <> B "local::" ++ r) -> strip_prefix LOCAL nm = None) as SN.
  { intros nm H. destruct (strip_prefix LOCAL nm) as [r|] eqn:E; [|reflexivity]. exfalso. apply (H r). apply strip_prefix_some in E. exact E. }
  assert (forall root key out, (match strip_prefix LOCAL (code_of body) with Some l => (visible s2 (started_in s i), l) | None => (s2.(schema), code_of body) end) = (root, key) ->
    code_of body <> [] ->
    (match pointer (if beq key (B "full-schema") then [] else replace (B "->") (B "/") (B "/" ++ key)) root with
     | Some v => env.(e_to_pretty) v | None => B "Undefined: '" ++ code_of body ++ B "'" end) = out ->
    eval_bif env s i (bif_text mods (B "debug") body) only = finished mods (shown out) s2 (started_in s i)) as G.
  { intros root key o E HN EO. rewrite eval_bif_text by (assumption || plain).
    change (dispatch env ?r (B "debug")) with (bif_debug env r). unfold bif_debug, entry.
    rewrite bind_reject by (proj; allowed). erewrite bind_done by (eapply run_enable; exact HD).
    rewrite bind_getB. proj. rewrite (has_mod_false _ _ HG). cbn [negb].
    assert (room (enough_fuel s) s1) as HR1 by (eapply room_later; [eapply open_later; exact HD|apply room_started]).
    erewrite bind_done by (eapply run_extract; [exact HR1|reflexivity..|exact HP]).
    rewrite bind_getB, bind_getS, bind_getI. proj. unfold visible in E. rewrite E.
    destruct (code_of body) eqn:EC; [congruence|]. cbn [is_empty]. rewrite <- EC in *. rewrite <- EO. unfold shown, set_out.
    destruct (has_mod "&" mods) eqn:EA; apply result_done; reflexivity. }
  split; [|split].
  - intro HN. rewrite eval_bif_text by (assumption || plain).
    change (dispatch env ?r (B "debug")) with (bif_debug env r). unfold bif_debug, entry.
    rewrite bind_reject by (proj; allowed). erewrite bind_done by (eapply run_enable; exact HD).
    rewrite bind_getB. proj. rewrite (has_mod_false _ _ HG). cbn [negb].
    assert (room (enough_fuel s) s1) as HR1 by (eapply room_later; [eapply open_later; exact HD|apply room_started]).
    erewrite bind_done by (eapply run_extract; [exact HR1|reflexivity..|exact HP]).
    rewrite bind_getB, bind_getS, bind_getI. proj. rewrite HN. cbn [is_empty]. unfold set_out. apply result_done; reflexivity.
  - intros v HV. remember (code_of body) as c eqn:EC. clear EC. revert G.
    destruct HV as [| |l nm v HL HN HF HA HPt|l nm v HF HA HPt]; intro G.
    + eapply G; [reflexivity|discriminate|reflexivity].
    + eapply G; [reflexivity|discriminate|reflexivity].
    + eapply G; [rewrite (SN nm HL); reflexivity|exact HN|]. rewrite (proj2 (beq_neq _ _) HF).
      apply (arrow_pointer l nm _ v HA) in HPt. rewrite HPt. reflexivity.
    + eapply (G (visible s2 (started_in s i)) nm); [reflexivity|discriminate|]. rewrite (proj2 (beq_neq _ _) HF).
      apply (arrow_pointer l nm _ v HA) in HPt. rewrite HPt. reflexivity.
  - intros l nm HA HF [(E & HN & HL & HPt)|(E & HPt)]; rewrite E in *.
    + eapply G; [rewrite (SN nm HL); reflexivity|exact HN|]. rewrite (proj2 (beq_neq _ _) HF).
      destruct (pointer _ (schema s2)) as [v|] eqn:EP; [|reflexivity]. apply (arrow_pointer l nm _ v HA) in EP. exfalso. exact (HPt v EP).
    + eapply (G (visible s2 (started_in s i)) nm); [reflexivity|discriminate|]. rewrite (proj2 (beq_neq _ _) HF).
      destruct (pointer _ (visible s2 (started_in s i))) as [v|] eqn:EP; [|reflexivity]. apply (arrow_pointer l nm _ v HA) in EP. exfalso. exact (HPt v EP).
Qed.
Print Assumptions C77_shows.

(** a debug file of the given age, and a render with it configured *)
Definition env_debug (age : N) : Env :=
  mkEnv (e_md5 env0) (e_sha256 env0) (e_lower env0) (e_from_str env0) (e_to_string env0)
    (fun v => match v with JStr t => B """" ++ t ++ B """" | _ => B "value" end) (e_fadd env0)
    (e_parent env0) (e_date env0) (e_cwd env0) (e_tmp env0) (fun _ p => beq p (B "/dbg")) (fun _ p => beq p (B "/dbg")) (e_canon env0)
    (e_read env0) (e_read_err env0) (e_mkdir env0) (e_create env0) (e_write env0) (e_mtime env0) (fun _ _ => Some age) (e_now env0)
    (e_local_now env0) (e_rand env0) (e_rand_bytes env0) (e_python env0) (e_php env0).
Definition debug_output (age : N) (src : string) : bytes :=
  match update_schema sample_schema (JObj [(B "config", JObj [(B "debug_file", JStr (B "/dbg")); (B "debug_expire", JNum (NPos 60))])]) with
  | Some j => match render (env_debug age) 5 (tset_schema j (sample src)) with TOk o _ => o | _ => B "?" end
  | None => B "?"
  end.
Example C77_example :
  debug_output 59 "[{:debug; data->name :}{:!debug; :}]" = B "[""World""]" /\ debug_output 60 "[{:debug; data->name :}]" = B "[]" /\
  output_of "[{:debug; data->name :}]" = B "[]" /\ debug_output 59 "[{:&debug; data->name :}{:debug; data->none :}]" = B "[&quot;World&quot;Undefined: 'data->none']".
Proof. repeat split; vm_compute; reflexivity. Qed.

(** ** C78: obj *)

Lemma in_later env al file s i src only o s1 i1 : eval_in env al file false s i src only = BOk o s1 i1 -> later s s1 /\ i1 = i.
Proof.
  unfold eval_in. destruct (contains (B "{:") src).
  - destruct (parse env s (inside_file al file [] i) src only) as [o2 s2 i2|q|] eqn:E; try discriminate. intro H.
    assert (s1 = drop_block s2 i2 /\ i1 = i) as (-> & ->) by (split; congruence). split; [|reflexivity].
    eapply later_trans; [eapply parse_later; exact E|]. destruct (drop_store s2 i2) as [x ->]. apply later_same; reflexivity.
  - intro H. assert (s1 = s /\ i1 = i) as (-> & ->) by (split; congruence). split; [apply later_refl|reflexivity].
Qed.
Lemma in_keeps env al file s i src only o s1 i1 : has_data s -> eval_in env al file false s i src only = BOk o s1 i1 ->
  has_data s1 /\ keeps_rest s s1.
Proof.
  intro HD. unfold eval_in. destruct (contains (B "{:") src).
  - destruct (parse env s (inside_file al file [] i) src only) as [o2 s2 i2|q|] eqn:E; try discriminate. intro H.
    assert (s1 = drop_block s2 i2) as -> by congruence. split; [apply drop_has_data; eapply parse_has_data; eassumption|].
    eapply keeps_trans; [eapply parse_keeps; eassumption|apply drop_keeps].
  - intro H. assert (s1 = s) as -> by congruence. split; [exact HD|apply keeps_refl].
Qed.
Lemma text_value_later env file i only v s v' s1 : text_value env file i only v s v' s1 -> later s s1.
Proof. destruct 1 as [t s o s1 i1 H|]; [eapply in_later; exact H|apply later_refl]. Qed.
Lemma members_later env file i only r m s m' s1 : members env file i only r m s m' s1 -> later s s1.
Proof.
  induction 1 as [|r k v v' m m' s s1 s2 _ HT _ IH|r k x x' m m' s s1 s2 _ _ _ IH1 _ IH2|]; [apply later_refl| | |assumption].
  - eapply later_trans; [eapply text_value_later; exact HT|exact IH].
  - eapply later_trans; eassumption.
Qed.
Lemma members_keeps env file i only r m s m' s1 : members env file i only r m s m' s1 -> has_data s -> has_data s1 /\ keeps_rest s s1.
Proof.
  induction 1 as [|r k v v' m m' s s1 s2 _ HT _ IH|r k x x' m m' s s1 s2 _ _ _ IH1 _ IH2|]; intro HD; [split; [exact HD|apply keeps_refl]| | |auto].
  - assert (has_data s1 /\ keeps_rest s s1) as [H1 H2].
    { destruct HT as [t s o s1 i1 H|]; [eapply in_keeps; eassumption|split; [exact HD|apply keeps_refl]]. }
    destruct (IH H1) as [H3 H4]. split; [exact H3|eapply keeps_trans; eassumption].
  - destruct (IH1 HD) as [H1 H2]. destruct (IH2 H1) as [H3 H4]. split; [exact H3|eapply keeps_trans; eassumption].
Qed.

Section Obj.
  Variable env : Env.
  Variable n : nat.
  Notation rec := (run_blocks env n).

  Lemma run_value s i b v v' s1 : room n s -> alias b = B "obj" -> dir b = [] ->
    text_value env (file_path b) i (only b) v s v' s1 -> parse_str_value rec v (mkSt s i b) = Done v' (mkSt s1 i b).
  Proof.
    intros HR HA HD H. destruct H as [t s o s1 i1 H|v s H]; unfold parse_str_value.
    - unfold eval_in in H. change BIF_OPEN with (B "{:"). destruct (contains (B "{:") t).
      + destruct (parse env s (inside_file (B "obj") (file_path b) [] i) t (only b)) as [o2 s2 i2|q|] eqn:E; try discriminate.
        assert (s1 = drop_block s2 i2 /\ o = o2) as (-> & ->) by (split; congruence).
        erewrite bind_done; [reflexivity|]. rewrite child_unscoped by exact HR. rewrite HA, HD, E. reflexivity.
      + assert (s1 = s /\ o = t) as (-> & ->) by (split; congruence). reflexivity.
    - destruct v; try reflexivity. exfalso. eapply H. reflexivity.
  Qed.

  Lemma bind_ext {A C} (m : M A) (f g : A -> M C) st : (forall a st', f a st' = g a st') -> bind m f st = bind m g st.
  Proof. intro H. unfold bind. destruct (m st); auto. Qed.
  Lemma pov_cons k v m r st : parse_obj_values rec (JObj ((k, v) :: m)) r st =
    bind (if obj_file_key k then parse_str_value rec v
          else if beq k (B "params") || r then match v with JObj _ => parse_obj_values rec v true | _ => parse_str_value rec v end
          else ret v)
      (fun v' => bind (parse_obj_values rec (JObj m) r) (fun j => match j with JObj m' => ret (JObj ((k, v') :: m')) | _ => ret j end)) st.
  Proof.
    cbn [parse_obj_values]. rewrite bind_bind.
    apply bind_ext. intros v' st'. rewrite !bind_bind. apply bind_ext. reflexivity.
  Qed.
  Lemma file_key k : obj_file_key k = true <-> In k obj_texts.
  Proof.
    unfold obj_file_key, obj_texts. cbn [In]. rewrite !orb_true_iff, !beq_eq. intuition congruence.
  Qed.
  Lemma run_members i b r m s m' s1 : alias b = B "obj" -> dir b = [] -> members env (file_path b) i (only b) r m s m' s1 -> room n s ->
    parse_obj_values rec (JObj m) r (mkSt s i b) = Done (JObj m') (mkSt s1 i b).
  Proof.
    intros HA HD H. induction H as [r s|r k v v' m m' s s1 s2 HK HT HM IH|r k x x' m m' s s1 s2 HK HP HX IHX HM IH|k v m m' s s2 HK HP HM IH]; intro HR.
    - reflexivity.
    - rewrite pov_cons. assert (room n s1) as HR1 by (eapply room_later; [eapply text_value_later; exact HT|exact HR]).
      erewrite bind_done; [erewrite bind_done by (apply IH; exact HR1); reflexivity|].
      destruct (obj_file_key k) eqn:EK; [apply run_value; assumption|].
      destruct HK as [HK|[HK HV]]; [apply file_key in HK; congruence|].
      assert (beq k (B "params") || r = true) as -> by (apply orb_true_iff; destruct HK as [->| ->]; [left; reflexivity|right; reflexivity]).
      destruct v; try (apply run_value; assumption). exfalso. eapply HV. reflexivity.
    - rewrite pov_cons. assert (room n s1) as HR1 by (eapply room_later; [eapply members_later; exact HX|exact HR]).
      erewrite bind_done; [erewrite bind_done by (apply IH; exact HR1); reflexivity|].
      destruct (obj_file_key k) eqn:EK; [apply file_key in EK; contradiction|].
      assert (beq k (B "params") || r = true) as -> by (apply orb_true_iff; destruct HP as [->| ->]; [left; reflexivity|right; reflexivity]).
      apply IHX. exact HR.
    - rewrite pov_cons. erewrite bind_done; [erewrite bind_done by (apply IH; exact HR); reflexivity|].
      destruct (obj_file_key k) eqn:EK; [apply file_key in EK; contradiction|].
      rewrite (proj2 (beq_neq _ _) HP). reflexivity.
  Qed.
End Obj.

(** The stages of the bif (parse_bif_obj.rs 17-219, as in [bif_obj]). *)
Section Stages.
  Variable env : Env.
  Variable rec : Shared -> Inherit -> bytes -> list (nat * nat) -> bytes -> BRes.
  Definition describe (b : Bif) : M bytes :=
    let cs := chars b.(params) in
    let colon_at n := match nth_error cs n with Some c => beq c (B ":") | None => false end in
      (if starts_with (B "{") b.(params) && ends_with (B "}") b.(params)
          && negb (colon_at 1) && negb (colon_at (length b.(params) - 2))
       then ret b.(params)
       else
         (if contains BIF_OPEN b.(params) then
            p <- child rec b.(params) false ;; modB (bset_params p)
          else ret tt) ;;;
         modB (fun b => bset_file_path b.(params) b) ;;;
         b <- getB ;;
         (if contains BIF_OPEN b.(file_path) then
            ok <- lift_option PRemoveComments (contains_allow b.(file_path)) ;;
            if negb ok then err E_INSECURE_FILE
            else p <- child rec b.(params) false ;; modB (bset_file_path p)
          else ret tt) ;;;
         i <- getI ;;
         modB (fun b => bset_file_path (expand_hash i.(current_dir) b.(file_path)) b) ;;;
         b <- getB ;;
         ex <- ask_exists env b.(file_path) ;;
         if negb ex then err E_FILE_NOT_FOUND
         else
           s <- getS ;;
           let msg := env.(e_read_err) s.(strace) b.(file_path) in
           r <- ask_read env b.(file_path) ;;
           match r with
           | Some c => ret c
           | None => err (B "Failed to read file: " ++ msg)
           end).
  Definition call_script (engine : bytes) (o : json) (canonical : bytes) : M (json + bytes) :=
            s <- getS ;; i <- getI ;;
            let schema_data :=
              match vget (B "schema_data") o with
              | Some (JStr nm) =>
                  let r := match strip_prefix LOCAL nm with
                           | Some l => resolve_pointer (local_data_of s i) l
                           | None => resolve_pointer (data_of s) nm
                           end in
                  Some (match r with Some v => v | None => JNull end)
              | _ => None
              end in
            let schema_opt := match vget (B "schema") o with
                              | Some (JBool true) => Some s.(schema)
                              | _ => None
                              end in
            let conf := idx s.(schema) (B "config") in
            let callback := str_or DEFAULT_OBJ_CALLBACK (idx o (B "callback")) in
              (if beq engine (B "python") then
                 venv <- check_venv env (str_or (str_or [] (idx conf (B "obj_python_venv"))) (idx o (B "venv"))) ;;
                 ask_python env (mkExec canonical (idx o (B "params")) callback schema_opt schema_data venv None)
               else
                 venv <- check_venv env (str_or (str_or [] (idx conf (B "obj_php_venv"))) (idx o (B "venv"))) ;;
                 let fpm := expand_hash i.(current_dir)
                              (str_or (str_or (B "unix:/run/php/php-fpm.sock") (idx conf (B "obj_php_fpm")))
                                      (idx o (B "fpm"))) in
                 ask_php env (mkExec canonical (idx o (B "params")) callback schema_opt schema_data venv (Some fpm))) .
  Definition use_answer (o : json) (result : json + bytes) : M unit :=
            match result with
            | inr e => err e
            | inl res =>
                let c1 := if is_empty_key res (B "data") then []
                          else B "{:data;{:flg; inline :}>>" ++ env.(e_to_string) res ++ B ":}" in
                c2 <- (if is_empty_key o (B "template") then ret []
                       else match as_str (idx o (B "template")) with
                            | Some t => ret (B "{:include;" ++ t ++ B ":}")
                            | None => panicM PObjTemplate
                            end) ;;
                modB (fun b => bset_code (c1 ++ c2 ++ b.(code)) b) ;;;
                b <- getB ;;
                if contains BIF_OPEN b.(code) then
                  o <- child rec b.(code) b.(mod_scope) ;; set_out o
                else set_out b.(code)
            end.
  Definition run_script (engine : bytes) (o0 : json) : M unit :=
          b <- getB ;;
          o <- (if negb (has_flag (B "|inline|") b) then parse_obj_values rec o0 false else ret o0) ;;
          i <- getI ;;
          let fpo := expand_hash i.(current_dir) (str_or [] (idx o (B "file"))) in
          ex <- ask_exists env fpo ;;
          if negb ex then err E_OBJ_FILE
          else
            cn <- ask_canon env fpo ;;
            canonical <- (match cn with
                          | Some c => ret c
                          | None => err (B "Failed to canonicalize obj script: ")
                          end) ;;

            result <- call_script engine o canonical ;;
            use_answer o result.
  Definition with_description (obj_raw : bytes) : M unit :=
    match env.(e_from_str) (trim obj_raw) with
    | inr e => err (B "Failed to parse JSON: " ++ e)
    | inl o0 =>
        let engine := env.(e_lower) (str_or DEFAULT_OBJ_ENGINE (idx o0 (B "engine"))) in
        if negb (beq engine (B "python")) && negb (beq engine (B "php")) then err E_ENGINE
        else
          run_script engine o0
    end.
  Lemma bif_obj_stages : bif_obj env rec =
    (reject (fun b => b.(mod_filter) || b.(mod_negate)) ;;;
    b <- getB ;;
    let added := negb (contains BIF_CODE b.(src)) in
    (if added then modB (fun b => bset_src (b.(src) ++ BIF_CODE) b) else ret tt) ;;;
    extract_params_code rec false ;;;
    (if added then modB (fun b => bset_src (firstn (length b.(src) - 2) b.(src)) b) else ret tt) ;;;
    no_flags ;;;
    b <- getB ;;
    raw <- describe b ;;
    with_description raw).
  Proof. reflexivity. Qed.
End Stages.

Lemma text_or_str d v : str_or d v = text_or d v.
Proof. destruct v; reflexivity. Qed.
Lemma white_no_gt w : white w -> ~ In ">"%char w /\ w <> [].
Proof.
  intros (k & Hk & ->). revert k Hk.
  assert (Forall (fun k => negb (existsb (aeqb ">") (utf8 k)) && negb (is_empty (utf8 k)) = true) white_points) as H.
  { repeat constructor. }
  intros k Hk. rewrite Forall_forall in H. specialize (H k Hk). apply andb_true_iff in H as [H1 H2]. split.
  - intro HI. apply negb_true_iff in H1. assert (existsb (aeqb ">") (utf8 k) = true) as E; [|congruence].
    apply existsb_exists. exists ">"%char. split; [exact HI|reflexivity].
  - intro E. rewrite E in H2. discriminate.
Qed.
Lemma trim_code t : trim (trim t ++ B ">>") = trim t ++ B ">>".
Proof.
  destruct (trim_trimmed t) as (_ & H1 & H2). set (u := trim t) in *. apply trim_id.
  - intros w r Hw E. destruct (white_no_gt w Hw) as [N _].
    destruct (Nat.le_gt_cases (length w) (length u)) as [L|L].
    + apply (H1 w (skipn (length w) u) Hw). rewrite <- (firstn_skipn (length w) u) at 1. f_equal.
      assert (firstn (length w) (u ++ B ">>") = w) as F by (rewrite E, firstn_app, Nat.sub_diag, firstn_O, app_nil_r; apply firstn_all).
      rewrite firstn_app in F. replace (length w - length u) with 0 in F by lia. rewrite firstn_O, app_nil_r in F. exact F.
    + apply N. assert (nth_error (u ++ B ">>") (length u) = Some ">"%char) as F by (rewrite nth_error_app2, Nat.sub_diag by lia; reflexivity).
      rewrite E, nth_error_app1 in F by exact L. eapply nth_error_In. exact F.
  - intros w r Hw E. destruct (white_no_gt w Hw) as [N NE]. destruct (exists_last NE) as (w' & c & ->).
    apply N. apply in_or_app. right. left. change (B ">>") with ([">"%char] ++ [">"%char]) in E. rewrite !app_assoc in E.
    apply app_inj_tail in E as [_ E]. symmetry. exact E.
Qed.

Section Run.
  Variable env : Env.
  Variable n : nat.
  Notation rec := (run_blocks env n).

  Lemma in_place_bool p : in_place p <->
    starts_with (B "{") p && ends_with (B "}") p
      && negb (match nth_error (chars p) 1 with Some c => beq c (B ":") | None => false end)
      && negb (match nth_error (chars p) (length p - 2) with Some c => beq c (B ":") | None => false end) = true.
  Proof.
    assert (forall o : option bytes, negb (match o with Some c => beq c (B ":") | None => false end) = true <-> o <> Some (B ":")) as X.
    { intros [c|]; [|split; [discriminate|reflexivity]]. rewrite negb_true_iff, beq_neq. split; [congruence|]. intros H E. apply H. congruence. }
    unfold in_place. rewrite !andb_true_iff, !X. tauto.
  Qed.

  Lemma run_describe s i b file raw s1 : room n s -> alias b = B "obj" -> file_path b = [] -> dir b = [] ->
    description env s i (only b) (params b) file raw s1 ->
    exists q, describe env rec b (mkSt s i b) = Done raw (mkSt s1 i (bset_file_path file (bset_params q b))) /\ later s s1.
  Proof.
    intros HR HA HF HD H. unfold describe. destruct H as [HI|q s1 i1 path s2 c HI HE HB -> HX -> HC].
    - apply in_place_bool in HI. rewrite HI. exists (params b). split; [|apply later_refl]. unfold ret. destruct b; cbn in *. subst. reflexivity.
    - match goal with |- context [if ?c then _ else _] => destruct c eqn:EI end.
      { exfalso. apply HI. apply in_place_bool. exact EI. }
      exists q. assert (i1 = i /\ later s s1) as [-> HL] by (split; eapply text_later; exact HE).
      assert (forall {C} (k : unit -> M C), bind (if contains BIF_OPEN (params b) then p <- child rec (params b) false ;; modB (bset_params p) else ret tt) k (mkSt s i b)
        = k tt (mkSt s1 i (bset_params q b))) as E1.
      { intros C k. unfold eval_text in HE. change BIF_OPEN with (B "{:"). destruct (contains (B "{:") (params b)).
        - rewrite bind_bind. erewrite bind_done; [rewrite bind_modB; reflexivity|]. rewrite child_nested by assumption. rewrite HA, HE. reflexivity.
        - assert (q = params b /\ s1 = s) as (-> & ->) by (split; congruence). rewrite bind_ret. destruct b; reflexivity. }
      rewrite E1, bind_modB, bind_getB. cbn [file_path bset_file_path params bset_params].
      change BIF_OPEN with (B "{:"). rewrite (contains_no _ _ HB), bind_ret, bind_getI, bind_modB, bind_getB. cbn [file_path bset_file_path].
      unfold ask_exists. rewrite bind_ask, HX. cbn [negb]. rewrite bind_getS. unfold ask_read. rewrite bind_ask, HC. split; [reflexivity|].
      eapply later_trans; [exact HL|]. split; [reflexivity|]. split; [cbn; lia|].
      eexists [_; _]. reflexivity.
  Qed.

  Lemma run_venv s i b v r s1 : venv_found env s i v r s1 -> check_venv env v (mkSt s i b) = Done r (mkSt s1 i b).
  Proof.
    unfold check_venv. destruct 1 as [|v p HV -> HP HE]; [reflexivity|].
    destruct v as [|c v]; [congruence|]. cbn [is_empty]. rewrite bind_getI. unfold ask_exists. rewrite bind_ask, HE. unfold ret.
    destruct (expand_hash (current_dir i) (c :: v)); [congruence|reflexivity].
  Qed.

  Lemma asked_data s i o d : data_asked s i o d ->
    match vget (B "schema_data") o with
    | Some (JStr nm) => Some (match (match strip_prefix LOCAL nm with
                                     | Some l => resolve_pointer (local_data_of s i) l
                                     | None => resolve_pointer (data_of s) nm
                                     end) with Some v => v | None => JNull end)
    | _ => None
    end = d.
  Proof.
    assert (forall t, idx o (B "schema_data") = JStr t -> vget (B "schema_data") o = Some (JStr t)) as V.
    { intros t H. unfold idx in H. destruct (vget (B "schema_data") o); congruence. }
    assert (forall t m k, scope_of s i t = (JObj m, k) -> match strip_prefix LOCAL t with
        | Some l => resolve_pointer (local_data_of s i) l | None => resolve_pointer (data_of s) t end = resolve_pointer (JObj m) k) as R.
    { intros t m k H. unfold scope_of in H. change LOCAL with (B "local::"). unfold local_data_of, data_of. unfold visible in H.
      destruct (strip_prefix (B "local::") t); congruence. }
    destruct 1 as [H|t m k l v HT HS HN HP HV|t m k l HT HS HN HP HV].
    - unfold idx in H. destruct (vget (B "schema_data") o) as [[]|]; try reflexivity. exfalso. eapply H. reflexivity.
    - rewrite (V t HT), (R _ _ _ HS). apply (resolve_name m k l v HN HP) in HV. rewrite HV. reflexivity.
    - rewrite (V t HT), (R _ _ _ HS). destruct (resolve_pointer (JObj m) k) as [v|] eqn:E; [|reflexivity].
      exfalso. apply (HV v). apply (resolve_name m k l v HN HP). exact E.
  Qed.

  Lemma run_call s i b e o script data venv s2 : data_asked s i o data -> venv_found env s i (venv_name s e o) venv s2 ->
    let x := mkExec script (idx o (B "params")) (text_or (B "main") (idx o (B "callback"))) (schema_asked s o) data venv (endpoint_asked s i e o) in
    call_script env (engine_name e) o script (mkSt s i b) = Done (answer env e s2 x) (mkSt (after_call env e s2 x) i b).
  Proof.
    intros HD HV x. unfold call_script. rewrite bind_getS, bind_getI, (asked_data s i o data HD).
    assert (match vget (B "schema") o with Some (JBool true) => Some (schema s) | _ => None end = schema_asked s o) as ->.
    { unfold schema_asked, idx. destruct (vget (B "schema") o) as [[|[]| | | |]|]; reflexivity. }
    rewrite !text_or_str. unfold x. destruct e; cbn [engine_name].
    - change (beq (B "python") (B "python")) with true. cbv iota.
      erewrite bind_done by (apply run_venv; exact HV). reflexivity.
    - change (beq (B "php") (B "python")) with false. cbv iota.
      erewrite bind_done by (apply run_venv; exact HV). reflexivity.
  Qed.

  Lemma parts_code res o d t (k : bytes -> M unit) st : data_part env res d -> template_part o t ->
    bind (if is_empty_key o (B "template") then ret []
          else match as_str (idx o (B "template")) with Some t => ret (B "{:include;" ++ t ++ B ":}") | None => panicM PObjTemplate end) k st = k t st /\
    (if is_empty_key res (B "data") then [] else B "{:data;{:flg; inline :}>>" ++ env.(e_to_string) res ++ B ":}") = d.
  Proof.
    intros HD HT. split.
    - destruct (is_empty_key o (B "template")) eqn:E.
      + destruct HT as [H|u HU HN]; [reflexivity|]. exfalso. assert (~ empty_value (idx o (B "template"))) as HE.
        { rewrite HU. intros [X|[X|[X|X]]]; try discriminate X. injection X as ->. congruence. }
        apply (proj2 (empty_key_idx o (B "template") eq_refl eq_refl)) in HE. congruence.
      + apply (proj1 (empty_key_idx o (B "template") eq_refl eq_refl)) in E. destruct HT as [H|u HU HN]; [contradiction|]. rewrite HU. reflexivity.
    - destruct (is_empty_key res (B "data")) eqn:E.
      + destruct HD as [H|H]; [reflexivity|]. apply (proj2 (empty_key_idx res (B "data") eq_refl eq_refl)) in H. congruence.
      + apply (proj1 (empty_key_idx res (B "data") eq_refl eq_refl)) in E. destruct HD as [H|H]; [contradiction|reflexivity].
  Qed.
End Run.

Definition obj_bif (mods body only : bytes) : Bif :=
  bset_code (code_of (obj_body body)) (bset_params (params_of (obj_body body)) (bif_of mods (B "obj") body only)).
Lemma obj_start env s i mods body only : Forall modifier mods -> ~ In "&"%char mods -> ~ In "!"%char mods -> may_start s -> selected only i mods (B "obj") ->
  eval_bif env s i (bif_text mods (B "obj") body) only =
  bif_result env (bind (describe env (run_blocks env (enough_fuel s)) (obj_bif mods body only)) (with_description env (run_blocks env (enough_fuel s)))
    (mkSt (started s) (started_in s i) (obj_bif mods body only))).
Proof.
  intros HM HA HG HS HO. rewrite eval_bif_text by (assumption || plain).
  change (dispatch env ?r (B "obj")) with (bif_obj env r). rewrite bif_obj_stages. unfold entry.
  rewrite bind_reject by (proj; allowed). rewrite bind_getB. proj. change BIF_CODE with (B ">>"). unfold obj_bif, obj_body.
  destruct (contains (B ">>") (trim body)); cbn [negb].
  - rewrite bind_ret. erewrite bind_done by (apply run_extract_raw; reflexivity). rewrite bind_ret.
    rewrite bind_no_flags by reflexivity. rewrite bind_getB. reflexivity.
  - rewrite bind_modB. erewrite bind_done by (apply (run_extract_raw env _ _ _ _ (trim body ++ B ">>")); proj; rewrite trim_code; reflexivity).
    rewrite bind_modB, bind_no_flags by reflexivity. rewrite bind_getB. proj.
    assert (firstn (length (trim body ++ B ">>") - 2) (trim body ++ B ">>") = trim body) as ->; [|reflexivity].
    rewrite app_length. cbn [length B list_ascii_of_string]. replace (length (trim body) + 2 - 2) with (length (trim body)) by lia.
    rewrite firstn_app, Nat.sub_diag, firstn_O, app_nil_r. apply firstn_all.
Qed.

Lemma engine_known env o e : asks_for env o e ->
  e_lower env (str_or DEFAULT_OBJ_ENGINE (idx o (B "engine"))) = engine_name e /\ negb (beq (engine_name e) (B "python")) && negb (beq (engine_name e) (B "php")) = false.
Proof. unfold asks_for. intro H. rewrite text_or_str. split; [exact H|]. destruct e; reflexivity. Qed.

(** Up to the call: the description is read, its texts are evaluated, the script is called once and what it answers is used. *)
Theorem C78_call : forall env s i mods body only file raw s1 m e m' s2 x s3 res d t, Forall modifier mods ->
  ~ In "&"%char mods -> ~ In "!"%char mods -> may_start s -> selected only i mods (B "obj") ->
  let i1 := started_in s i in
  description env (started s) i1 only (params_of (obj_body body)) file raw s1 ->
  env.(e_from_str) (trim raw) = inl (JObj m) -> asks_for env (JObj m) e ->
  members env file i1 only false m s1 m' s2 ->
  calls env s2 i1 e (JObj m') x s3 -> answer env e s3 x = inl res ->
  data_part env res d -> template_part (JObj m') t ->
  eval_bif env s i (bif_text mods (B "obj") body) only =
  and_then (eval_in env (B "obj") file (has_mod "+" mods) (after_call env e s3 x) i1 (d ++ t ++ code_of (obj_body body)) only) (finished mods).
Proof.
  intros env s i mods body only file raw s1 m e m' s2 x s3 res d t HM HA HG HS HO i1 HDe HJ HEn HMe HCa HAn HDa HT.
  rewrite obj_start by assumption. pose proof (room_started s) as HR.
  destruct (run_describe env (enough_fuel s) (started s) i1 (obj_bif mods body only) file raw s1 HR eq_refl eq_refl eq_refl HDe) as (q & ED & HL1).
  fold i1. erewrite bind_done by exact ED. unfold with_description. rewrite HJ.
  destruct (engine_known env (JObj m) e HEn) as [E1 E2]. rewrite E1, E2. unfold run_script. rewrite bind_getB.
  set (b1 := bset_file_path file (bset_params q (obj_bif mods body only))).
  change (has_flag (B "|inline|") b1) with false. cbn [negb].
  assert (room (enough_fuel s) s1) as HR1 by (eapply room_later; [exact HL1|exact HR]).
  erewrite bind_done by (apply (run_members env (enough_fuel s) i1 b1); [reflexivity|reflexivity|exact HMe|exact HR1]).
  assert (room (enough_fuel s) s2) as HR2 by (eapply room_later; [eapply members_later; exact HMe|exact HR1]).
  rewrite bind_getI. destruct HCa as [script s2' data venv s3 HF HDat HV]. rewrite text_or_str.
  destruct HF as [script HX HC]. unfold ask_exists. rewrite bind_ask, HX. cbn [negb]. unfold ask_canon. rewrite bind_ask.
  cbn [add_event strace]. rewrite HC, bind_ret.
  set (s2a := add_event (EvCanon _ _) _) in *.
  assert (data_asked s2a i1 (JObj m') data) as HDat' by (destruct HDat; [eapply da_none|eapply da_value|eapply da_null]; eassumption).
  erewrite bind_done by (apply (run_call env s2a i1 b1 e (JObj m') script data venv s3 HDat' HV)).
  change (schema_asked s2a (JObj m')) with (schema_asked s2 (JObj m')). change (endpoint_asked s2a i1 e (JObj m')) with (endpoint_asked s2 i1 e (JObj m')).
  set (x := mkExec _ _ _ _ _ _ _) in *. rewrite HAn. unfold use_answer.
  destruct (parts_code env res (JObj m') d t (fun c2 => modB (fun b => bset_code ((if is_empty_key res (B "data") then [] else B "{:data;{:flg; inline :}>>" ++ env.(e_to_string) res ++ B ":}") ++ c2 ++ b.(code)) b) ;;;
                b <- getB ;;
                if contains BIF_OPEN b.(code) then
                  o <- child (run_blocks env (enough_fuel s)) b.(code) b.(mod_scope) ;; set_out o
                else set_out b.(code)) (mkSt (after_call env e s3 x) i1 b1) HDa HT) as [EP ED2].
  rewrite EP, ED2. rewrite bind_modB, bind_getB. unfold b1. proj.
  change (code (obj_bif mods body only)) with (code_of (obj_body body)). change (mod_scope (obj_bif mods body only)) with (has_mod "+" mods).
  change BIF_OPEN with (B "{:"). unfold eval_in.
  assert (room (enough_fuel s) (after_call env e s3 x)) as HR3.
  { eapply room_later; [|exact HR2]. assert (forall ev y, later y (add_event ev y)) as EV.
    { intros ev y. split; [reflexivity|]. split; [cbn; lia|]. exists [ev]. reflexivity. }
    unfold after_call. eapply later_trans; [|apply EV]. destruct HV; unfold s2a; repeat (eapply later_trans; [|apply EV]); apply later_refl. }
  destruct (contains (B "{:") (d ++ t ++ code_of (obj_body body))).
  - destruct (has_mod "+" mods).
    + unfold bind. rewrite child_file by exact HR3. proj.
      match goal with |- context [eval_file env ?a file ?dd ?ss ?ii ?c ?oo] => change a with (B "obj"); change dd with (@nil ascii); change oo with only end.
      destruct (eval_file env (B "obj") file [] (after_call env e s3 x) i1 (d ++ t ++ code_of (obj_body body)) only) as [o s4 i4| |]; [|reflexivity|reflexivity].
      cbn [onto and_then]. unfold set_out. apply result_done; reflexivity.
    + unfold bind. rewrite child_unscoped by exact HR3. proj.
      match goal with |- context [parse env ?ss (inside_file ?a file ?dd ?ii) ?c ?oo] => change a with (B "obj"); change dd with (@nil ascii); change oo with only end.
      destruct (parse env (after_call env e s3 x) (inside_file (B "obj") file [] i1) (d ++ t ++ code_of (obj_body body)) only) as [o s4 i4| |]; [|reflexivity|reflexivity].
      cbn [and_then]. unfold set_out. apply result_done; reflexivity.
  - unfold set_out. apply result_done; reflexivity.
Qed.
Print Assumptions C78_call.

Lemma description_keeps env s i only p file raw s1 : has_data s -> description env s i only p file raw s1 -> has_data s1 /\ keeps_rest s s1.
Proof.
  intros HD [HI|q s1' i1 path s2 c HI HE HB -> HX -> HC]; [split; [exact HD|apply keeps_refl]|].
  assert (has_data s1' /\ keeps_rest s s1') as [H1 H2].
  { unfold eval_text in HE. destruct (contains (B "{:") p).
    - split; [eapply nested_has_data; eassumption|eapply nested_keeps; eassumption].
    - assert (s1' = s) as -> by congruence. split; [exact HD|apply keeps_refl]. }
  split; [exact H1|]. destruct H2 as [H2 H3]. split; [|exact H3].
  eapply later_trans; [exact H2|]. split; [reflexivity|]. split; [cbn; lia|]. eexists [_; _]. reflexivity.
Qed.

(** A failing script is an error of the bif with the script's message; nothing of it is evaluated. *)
Theorem C78_script_error : forall env s i mods body only file raw s1 m e m' s2 x s3 msg, Forall modifier mods ->
  ~ In "&"%char mods -> ~ In "!"%char mods -> may_start s -> selected only i mods (B "obj") -> has_data s -> can_report s ->
  let i1 := started_in s i in
  description env (started s) i1 only (params_of (obj_body body)) file raw s1 ->
  env.(e_from_str) (trim raw) = inl (JObj m) -> asks_for env (JObj m) e ->
  members env file i1 only false m s1 m' s2 ->
  calls env s2 i1 e (JObj m') x s3 -> answer env e s3 x = inr msg ->
  eval_bif env s i (bif_text mods (B "obj") body) only =
  failed env msg (B "obj") mods (bif_text mods (B "obj") body) [] (after_call env e s3 x) i1.
Proof.
  intros env s i mods body only file raw s1 m e m' s2 x s3 msg HM HA HG HS HO HHD HRep i1 HDe HJ HEn HMe HCa HAn.
  rewrite obj_start by assumption. pose proof (room_started s) as HR.
  destruct (description_keeps _ (started s) _ _ _ _ _ _ HHD HDe) as [HD1 HK1]. destruct (members_keeps _ _ _ _ _ _ _ _ _ HMe HD1) as [HD2 HK2].
  assert (can_report s2) as HRep2 by (eapply keeps_reports; [eapply keeps_trans; [exact HK1|exact HK2]|exact HRep]).
  destruct (run_describe env (enough_fuel s) (started s) i1 (obj_bif mods body only) file raw s1 HR eq_refl eq_refl eq_refl HDe) as (q & ED & HL1).
  fold i1. erewrite bind_done by exact ED. unfold with_description. rewrite HJ.
  destruct (engine_known env (JObj m) e HEn) as [E1 E2]. rewrite E1, E2. unfold run_script. rewrite bind_getB.
  set (b1 := bset_file_path file (bset_params q (obj_bif mods body only))).
  change (has_flag (B "|inline|") b1) with false. cbn [negb].
  assert (room (enough_fuel s) s1) as HR1 by (eapply room_later; [exact HL1|exact HR]).
  erewrite bind_done by (apply (run_members env (enough_fuel s) i1 b1); [reflexivity|reflexivity|exact HMe|exact HR1]).
  rewrite bind_getI. destruct HCa as [script s2' data venv s3 HF HDat HV]. rewrite text_or_str.
  destruct HF as [script HX HC]. unfold ask_exists. rewrite bind_ask, HX. cbn [negb]. unfold ask_canon. rewrite bind_ask.
  cbn [add_event strace]. rewrite HC, bind_ret.
  set (s2a := add_event (EvCanon _ _) _) in *.
  assert (data_asked s2a i1 (JObj m') data) as HDat' by (destruct HDat; [eapply da_none|eapply da_value|eapply da_null]; eassumption).
  erewrite bind_done by (apply (run_call env s2a i1 b1 e (JObj m') script data venv s3 HDat' HV)).
  change (schema_asked s2a (JObj m')) with (schema_asked s2 (JObj m')). change (endpoint_asked s2a i1 e (JObj m')) with (endpoint_asked s2 i1 e (JObj m')).
  set (x := mkExec _ _ _ _ _ _ _) in *. rewrite HAn. unfold use_answer.
  apply result_fail; [|reflexivity|reflexivity].
  unfold can_report, after_call. cbn [add_event schema]. assert (schema s3 = schema s2a) as E3 by (clear - HV; destruct HV; reflexivity). rewrite E3. exact HRep2.
Qed.
Print Assumptions C78_script_error.

(** No script, no virtual environment: an error, and nothing is called. *)
Theorem C78_no_script : forall env s i mods body only file raw s1 m e m' s2 path, Forall modifier mods ->
  ~ In "&"%char mods -> ~ In "!"%char mods -> may_start s -> selected only i mods (B "obj") -> has_data s -> can_report s ->
  let i1 := started_in s i in
  description env (started s) i1 only (params_of (obj_body body)) file raw s1 ->
  env.(e_from_str) (trim raw) = inl (JObj m) -> asks_for env (JObj m) e ->
  members env file i1 only false m s1 m' s2 ->
  path = expand_hash i1.(current_dir) (text_or [] (idx (JObj m') (B "file"))) -> not_found env s2 path ->
  eval_bif env s i (bif_text mods (B "obj") body) only =
  failed env (B "obj script not found") (B "obj") mods (bif_text mods (B "obj") body) [] (add_event (EvExists path false) s2) i1.
Proof.
  intros env s i mods body only file raw s1 m e m' s2 path HM HA HG HS HO HHD HRep i1 HDe HJ HEn HMe -> HX.
  rewrite obj_start by assumption. pose proof (room_started s) as HR.
  destruct (description_keeps _ (started s) _ _ _ _ _ _ HHD HDe) as [HD1 HK1]. destruct (members_keeps _ _ _ _ _ _ _ _ _ HMe HD1) as [HD2 HK2].
  assert (can_report s2) as HRep2 by (eapply keeps_reports; [eapply keeps_trans; [exact HK1|exact HK2]|exact HRep]).
  destruct (run_describe env (enough_fuel s) (started s) i1 (obj_bif mods body only) file raw s1 HR eq_refl eq_refl eq_refl HDe) as (q & ED & HL1).
  fold i1. erewrite bind_done by exact ED. unfold with_description. rewrite HJ.
  destruct (engine_known env (JObj m) e HEn) as [E1 E2]. rewrite E1, E2. unfold run_script. rewrite bind_getB.
  set (b1 := bset_file_path file (bset_params q (obj_bif mods body only))).
  change (has_flag (B "|inline|") b1) with false. cbn [negb].
  assert (room (enough_fuel s) s1) as HR1 by (eapply room_later; [exact HL1|exact HR]).
  erewrite bind_done by (apply (run_members env (enough_fuel s) i1 b1); [reflexivity|reflexivity|exact HMe|exact HR1]).
  rewrite bind_getI, text_or_str. unfold not_found in HX. unfold ask_exists. rewrite bind_ask, HX. cbn [negb].
  apply result_fail; [exact HRep2|reflexivity|reflexivity].
Qed.
Print Assumptions C78_no_script.

Theorem C78_no_venv : forall env s i mods body only file raw s1 m e m' s2 script s3 path, Forall modifier mods ->
  ~ In "&"%char mods -> ~ In "!"%char mods -> may_start s -> selected only i mods (B "obj") -> has_data s -> can_report s ->
  let i1 := started_in s i in
  description env (started s) i1 only (params_of (obj_body body)) file raw s1 ->
  env.(e_from_str) (trim raw) = inl (JObj m) -> asks_for env (JObj m) e ->
  members env file i1 only false m s1 m' s2 ->
  found env s2 (expand_hash i1.(current_dir) (text_or [] (idx (JObj m') (B "file")))) script s3 ->
  venv_name s2 e (JObj m') <> [] -> path = expand_hash i1.(current_dir) (venv_name s2 e (JObj m')) -> not_found env s3 path ->
  eval_bif env s i (bif_text mods (B "obj") body) only =
  failed env (B "venv path does not exist") (B "obj") mods (bif_text mods (B "obj") body) [] (add_event (EvExists path false) s3) i1.
Proof.
  intros env s i mods body only file raw s1 m e m' s2 script s3 path HM HA HG HS HO HHD HRep i1 HDe HJ HEn HMe HF HVN -> HV.
  rewrite obj_start by assumption. pose proof (room_started s) as HR.
  destruct (description_keeps _ (started s) _ _ _ _ _ _ HHD HDe) as [HD1 HK1]. destruct (members_keeps _ _ _ _ _ _ _ _ _ HMe HD1) as [HD2 HK2].
  assert (can_report s2) as HRep2 by (eapply keeps_reports; [eapply keeps_trans; [exact HK1|exact HK2]|exact HRep]).
  destruct (run_describe env (enough_fuel s) (started s) i1 (obj_bif mods body only) file raw s1 HR eq_refl eq_refl eq_refl HDe) as (q & ED & HL1).
  fold i1. erewrite bind_done by exact ED. unfold with_description. rewrite HJ.
  destruct (engine_known env (JObj m) e HEn) as [E1 E2]. rewrite E1, E2. unfold run_script. rewrite bind_getB.
  set (b1 := bset_file_path file (bset_params q (obj_bif mods body only))).
  change (has_flag (B "|inline|") b1) with false. cbn [negb].
  assert (room (enough_fuel s) s1) as HR1 by (eapply room_later; [exact HL1|exact HR]).
  erewrite bind_done by (apply (run_members env (enough_fuel s) i1 b1); [reflexivity|reflexivity|exact HMe|exact HR1]).
  rewrite bind_getI, text_or_str.
  destruct HF as [script HX HC]. unfold ask_exists. rewrite bind_ask, HX. cbn [negb]. unfold ask_canon. rewrite bind_ask.
  cbn [add_event strace]. rewrite HC, bind_ret. unfold call_script. rewrite bind_bind, bind_getS, bind_bind, bind_getI. rewrite !text_or_str.
  set (s2a := add_event (EvCanon _ _) _) in *. unfold not_found in HV.
  assert (forall C (k : option bytes -> M C), bind (check_venv env (venv_name s2 e (JObj m'))) k (mkSt s2a i1 b1) =
     Fail (mkErr (B "venv path does not exist") (current_file i1) (B "obj") (bif_text mods (B "obj") body)) (mkSt (add_event (EvExists (expand_hash i1.(current_dir) (venv_name s2 e (JObj m'))) false) s2a) i1 b1)) as EV.
  { intros C k. unfold check_venv. destruct (venv_name s2 e (JObj m')) as [|c v]; [congruence|]. cbn [is_empty].
    rewrite bind_bind, bind_getI. unfold ask_exists. rewrite bind_bind, bind_ask, HV. reflexivity. }
  destruct e; cbn [engine_name].
  - change (beq (B "python") (B "python")) with true. cbv iota. rewrite bind_bind. unfold venv_name, config in EV.
    change (schema s2a) with (schema s2). rewrite EV. apply result_fail; [exact HRep2|reflexivity|reflexivity].
  - change (beq (B "php") (B "python")) with false. cbv iota. rewrite bind_bind. unfold venv_name, config in EV.
    change (schema s2a) with (schema s2). rewrite EV. apply result_fail; [exact HRep2|reflexivity|reflexivity].
Qed.
Print Assumptions C78_no_venv.

(** An unknown engine and text that is not JSON are errors; nothing of the description is evaluated. *)
Theorem C78_bad_description : forall env s i mods body only file raw s1 msg, Forall modifier mods ->
  ~ In "&"%char mods -> ~ In "!"%char mods -> may_start s -> selected only i mods (B "obj") -> has_data s -> can_report s ->
  let i1 := started_in s i in
  description env (started s) i1 only (params_of (obj_body body)) file raw s1 ->
  (exists o, env.(e_from_str) (trim raw) = inl o /\ (forall e, ~ asks_for env o e) /\ msg = B "only Python and PHP engines are supported") \/
  (exists e, env.(e_from_str) (trim raw) = inr e /\ msg = B "Failed to parse JSON: " ++ e) ->
  eval_bif env s i (bif_text mods (B "obj") body) only =
  failed env msg (B "obj") mods (bif_text mods (B "obj") body) [] s1 i1.
Proof.
  intros env s i mods body only file raw s1 msg HM HA HG HS HO HHD HRep i1 HDe HB.
  rewrite obj_start by assumption. pose proof (room_started s) as HR.
  destruct (description_keeps _ (started s) _ _ _ _ _ _ HHD HDe) as [HD1 HK1].
  assert (can_report s1) as HRep1 by (eapply keeps_reports; [exact HK1|exact HRep]).
  destruct (run_describe env (enough_fuel s) (started s) i1 (obj_bif mods body only) file raw s1 HR eq_refl eq_refl eq_refl HDe) as (q & ED & HL1).
  fold i1. erewrite bind_done by exact ED. unfold with_description.
  destruct HB as [(o & HJ & HE & ->)|(e & HJ & ->)]; rewrite HJ.
  - rewrite text_or_str. change DEFAULT_OBJ_ENGINE with (B "python").
    pose proof (HE Python) as H1. pose proof (HE Php) as H2. unfold asks_for, engine_name in H1, H2.
    rewrite (proj2 (beq_neq _ _) H1), (proj2 (beq_neq _ _) H2). cbn [negb andb]. apply result_fail; [exact HRep1|reflexivity|reflexivity].
  - apply result_fail; [exact HRep1|reflexivity|reflexivity].
Qed.
Print Assumptions C78_bad_description.

Theorem C78_missing_description : forall env s i mods body only q s1 i2 path, Forall modifier mods ->
  ~ In "&"%char mods -> ~ In "!"%char mods -> may_start s -> selected only i mods (B "obj") -> has_data s -> can_report s ->
  let i1 := started_in s i in
  ~ in_place (params_of (obj_body body)) -> eval_text env (B "obj") (started s) i1 (params_of (obj_body body)) only = BOk q s1 i2 ->
  ~ occurs (B "{:") q -> path = expand_hash i1.(current_dir) q -> not_found env s1 path ->
  eval_bif env s i (bif_text mods (B "obj") body) only =
  failed env (B "file not found") (B "obj") mods (bif_text mods (B "obj") body) [] (add_event (EvExists path false) s1) i1.
Proof.
  intros env s i mods body only q s1 i2 path HM HA HG HS HO HHD HRep i1 HI HE HB -> HX.
  rewrite obj_start by assumption. pose proof (room_started s) as HR. fold i1.
  assert (can_report s1) as HRep1.
  { unfold eval_text in HE. destruct (contains (B "{:") (params_of (obj_body body))).
    - eapply keeps_reports; [eapply (nested_keeps _ _ (started s)); [exact HHD|exact HE]|exact HRep].
    - assert (s1 = started s) as -> by congruence. exact HRep. }
  assert (i2 = i1) as -> by (eapply text_later; exact HE).
  set (b := obj_bif mods body only). assert (params b = params_of (obj_body body)) as EP by reflexivity.
  unfold describe. match goal with |- context [if ?c then ret (params b) else _] => destruct c eqn:EI end.
  { exfalso. apply HI. rewrite <- EP. apply in_place_bool. exact EI. }
  rewrite !bind_bind.
  assert (forall {C} (k : unit -> M C), bind (if contains BIF_OPEN (params b) then p <- child (run_blocks env (enough_fuel s)) (params b) false ;; modB (bset_params p) else ret tt) k (mkSt (started s) i1 b)
    = k tt (mkSt s1 i1 (bset_params q b))) as E1.
  { intros C k. rewrite EP. unfold eval_text in HE. change BIF_OPEN with (B "{:"). destruct (contains (B "{:") (params_of (obj_body body))).
    - rewrite bind_bind. erewrite bind_done; [rewrite bind_modB; reflexivity|]. rewrite child_nested by (exact HR || reflexivity).
      change (alias b) with (B "obj"). match goal with |- context [eval_nested _ _ _ _ _ ?oo] => change oo with only end. rewrite HE. reflexivity.
    - assert (q = params b /\ s1 = started s) as (-> & ->) by (split; congruence). rewrite bind_ret. reflexivity. }
  rewrite E1. rewrite bind_bind, bind_modB, bind_bind, bind_getB. cbn [file_path bset_file_path params bset_params].
  change BIF_OPEN with (B "{:"). rewrite (contains_no _ _ HB), bind_bind, bind_ret, bind_bind, bind_getI, bind_bind, bind_modB, bind_bind, bind_getB. cbn [file_path bset_file_path].
  unfold not_found in HX. unfold ask_exists. rewrite bind_bind, bind_ask, HX. cbn [negb]. rewrite bind_err.
  apply result_fail; [exact HRep1|reflexivity|reflexivity].
Qed.
Print Assumptions C78_missing_description.

(** An environment with one script: what it answers to, its answer and the JSON text of the answer. *)
Definition env_script (ans : json + bytes) (text : bytes) : Env :=
  mkEnv (fun s => s) (fun s => B "abc" ++ s) (fun s => s)
        (fun t => if beq t (B "{""file"":""s.py""}") then inl (JObj [(B "file", JStr (B "s.py"))])
                  else if beq t (B "{""data"":{""x"":""new""}}") then inl (JObj [(B "data", JObj [(B "x", JStr (B "new"))])])
                  else inr (B "not JSON"))
        (fun _ => text) (fun _ => B "{}") (fun a _ => a) (fun _ => None) (fun _ s => Some s) (B "/cwd") (B "/tmp")
        (fun _ p => beq p (B "s.py")) (fun _ _ => false) (fun _ p => Some (B "/" ++ p)) (fun _ _ => None) (fun _ _ => B "no file")
        (fun _ _ => None) (fun _ _ => None) (fun _ _ _ => None) (fun _ _ => None) (fun _ _ => None)
        (fun _ => 100%N) (fun _ => B "now") (fun _ lo _ => lo) (fun _ => B "0123456789abcdef")
        (fun _ _ => ans) (fun _ _ => inr (B "no php")).

Example C78_example :
  output_in (env_script (inl (JObj [(B "data", JObj [(B "x", JStr (B "new"))])])) (B "{""data"":{""x"":""new""}}"))
    "{:obj; {""file"":""s.py""} >> [{:;local::x:}] :}" = B "[new]" /\
  output_in (env_script (inr (B "failed")) []) "<{:obj; {""file"":""s.py""} >> [{:;local::x:}] :}>" = B "<>" /\
  output_in env0 "<{:obj; {""file"":""s.py""} >> [{:;local::x:}] :}>" = B "<>".
Proof. repeat split; vm_compute; reflexivity. Qed.

(** The answer is inserted into the template text: a text with ":}" in it ends the data, and what follows is evaluated as a
    template.  Here the script answers {"data":{"x":":}{:;name:}{:;"}}. *)
Theorem C78_answer_is_data_refuted : exists env x,
  (forall t a, env.(e_python) t a = inl (JObj [(B "data", JObj [(B "x", JStr x)])])) /\
  env.(e_to_string) (JObj [(B "data", JObj [(B "x", JStr x)])]) = B "{""data"":{""x"":""" ++ x ++ B """}}" /\
  output_in env "<{:obj; {""file"":""s.py""} :}>" = B "<World>".
Proof.
  exists (env_script (inl (JObj [(B "data", JObj [(B "x", JStr (B ":}{:;name:}{:;"))])])) (B "{""data"":{""x"":"":}{:;name:}{:;""}}")), (B ":}{:;name:}{:;").
  split; [reflexivity|]. split; [reflexivity|]. vm_compute. reflexivity.
Qed.
Print Assumptions C78_answer_is_data_refuted.

(** the hypotheses of C78_call, met *)
Example C78_hypotheses :
  let env := env_script (inl JNull) [] in
  let s := started (fst (start_of "")) in
  let i := started_in (fst (start_of "")) (snd (start_of "")) in
  let m := [(B "file", JStr (B "s.py"))] in
  description env s i [] (params_of (obj_body (B " {""file"":""s.py""} "))) [] (B "{""file"":""s.py""}") s /\
  asks_for env (JObj m) Python /\ members env [] i [] false m s m s /\
  calls env s i Python (JObj m) (mkExec (B "/s.py") JNull (B "main") None None None None)
    (add_event (EvCanon (B "s.py") (Some (B "/s.py"))) (add_event (EvExists (B "s.py") true) s)) /\
  data_part env JNull [] /\ template_part (JObj m) [].
Proof.
  intros env s i m. split; [|split; [|split; [|split; [|split]]]].
  - assert (params_of (obj_body (B " {""file"":""s.py""} ")) = B "{""file"":""s.py""}") as -> by (vm_compute; reflexivity).
    apply de_in_place. split; [reflexivity|]. split; [reflexivity|]. split; vm_compute; discriminate.
  - reflexivity.
  - eapply me_text; [left; left; reflexivity| |apply me_nil]. eapply tv_text. reflexivity.
  - eapply (calls_ env s i Python (JObj m) (B "/s.py")).
    + exact (found_ env s (B "s.py") (B "/s.py") eq_refl eq_refl).
    + apply da_none. intros t H. discriminate H.
    + assert (venv_name s Python (JObj m) = []) as -> by (vm_compute; reflexivity). apply vf_none.
  - apply dp_none. left. reflexivity.
  - apply tp_none. left. reflexivity.
Qed.
