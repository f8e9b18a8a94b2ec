(** * What the engine asks the outside world: every interaction is permitted by earlier ones *)

From Verif Require Import Bytes Json Utils ConstantsGen State Engine Template Spec SpecEngine BytesFacts TemplateProofs FrameProofs FrameRun EngineFrames.

Lemma disciplined_nil c : disciplined c [].
Proof. intros l e b H. destruct l; discriminate. Qed.
Lemma disciplined_cons c e t : permitted c t e -> disciplined c t -> disciplined c (e :: t).
Proof.
  intros HP HD l e' b H. destruct l as [|x l]; cbn in H; injection H as -> H.
  - subst. exact HP.
  - exact (HD _ _ _ H).
Qed.

Section Trace.
  Variable env : Env.
  Variable t0 : trace.
  Variable c : Cfg.

  (** [J L t]: since [t0] everything was permitted, and the events [L] have happened *)
  Definition J (L : list event) (t : trace) : Prop :=
    exists new, t = new ++ t0 /\ disciplined c new /\ incl L new.
  Definition JS (L : list event) (s : Shared) : Prop := s.(cfg) = c /\ J L s.(strace).

  Lemma J_weaken L L' t : incl L L' -> J L' t -> J L t.
  Proof. intros H (new & E & D & I). exists new. split; [exact E|split; [exact D|]]. eapply incl_tran; eassumption. Qed.
  Lemma J_event L t e : (forall before, incl L before -> permitted c before e) -> J L t -> J (e :: L) (e :: t).
  Proof.
    intros HP (new & -> & D & I). exists (e :: new). split; [reflexivity|]. split.
    - apply disciplined_cons; [apply HP; exact I|exact D].
    - intros x [<-|H]; [left; reflexivity|right; apply I; exact H].
  Qed.

  Definition tokb (L : list event) (r : BRes) : Prop :=
    match r with BOk _ s _ => JS L s | _ => True end.
  Definition tok_rec (rec : Shared -> Inherit -> bytes -> list (nat * nat) -> bytes -> BRes) : Prop :=
    forall L s i src bl only, JS L s -> tokb L (rec s i src bl only).

  Variable rec : Shared -> Inherit -> bytes -> list (nat * nat) -> bytes -> BRes.
  Hypothesis Hrec : tok_rec rec.

  Definition tok {A} (L : list event) (m : M A) : Prop :=
    forall st, JS L st.(sh) ->
    match m st with
    | Done _ st' => JS L st'.(sh)
    | Fail _ st' => JS L st'.(sh)
    | _ => True
    end.

  Lemma JS_weaken L L' s : incl L L' -> JS L' s -> JS L s.
  Proof. intros H [E HJ]. split; [exact E|]. eapply J_weaken; eassumption. Qed.

  Lemma tok_ret {A} L (x : A) : tok L (ret x). Proof. intros st H. exact H. Qed.
  Lemma tok_err {A} L msg : tok L (@err A msg). Proof. intros st H. exact H. Qed.
  Lemma tok_panic {A} L p : tok L (@panicM A p). Proof. intros st H. exact I. Qed.
  Lemma tok_bind {A C} L (m : M A) (k : A -> M C) : tok L m -> (forall x, tok L (k x)) -> tok L (bind m k).
  Proof.
    intros Hm Hk st HI. unfold bind. specialize (Hm st HI). destruct (m st) as [x st1|e st1|p|]; auto.
    apply Hk. exact Hm.
  Qed.
  Lemma tok_getB {C} L (k : Bif -> M C) : (forall b, tok L (k b)) -> tok L (bind getB k).
  Proof. intros Hk st HI. apply Hk. exact HI. Qed.
  Lemma tok_getI {C} L (k : Inherit -> M C) : (forall b, tok L (k b)) -> tok L (bind getI k).
  Proof. intros Hk st HI. apply Hk. exact HI. Qed.
  Lemma tok_getS {C} L (k : Shared -> M C) : (forall s, s.(cfg) = c -> tok L (k s)) -> tok L (bind getS k).
  Proof. intros Hk st HI. apply Hk; [apply HI|exact HI]. Qed.
  Lemma tok_modB L f : tok L (modB f). Proof. intros st H. exact H. Qed.
  Lemma tok_modI L f : tok L (modI f). Proof. intros st H. exact H. Qed.
  Lemma tok_modS L f : (forall s, (f s).(cfg) = s.(cfg) /\ (f s).(strace) = s.(strace)) -> tok L (modS f).
  Proof. intros Hf st [H1 H2]. cbn. destruct (Hf st.(sh)) as [E1 E2]. split; [rewrite E1|rewrite E2]; assumption. Qed.
  (** an interaction: permitted, and known to have happened afterwards *)
  Lemma tok_ask {A C} L (q : trace -> A) ev (k : A -> M C) :
    (forall a before, incl L before -> permitted c before (ev a)) -> (forall a, tok (ev a :: L) (k a)) ->
    tok L (bind (ask q ev) k).
  Proof.
    intros HP Hk st [HC HJ]. unfold bind, ask.
    set (a := q (strace (sh st))). set (st1 := mkSt _ _ _).
    assert (JS (ev a :: L) st1.(sh)) as H.
    { split; [exact HC|]. cbn. apply J_event; [apply HP|exact HJ]. }
    specialize (Hk a st1 H). destruct (k a st1); try exact I; (eapply JS_weaken; [|exact Hk]; apply incl_tl, incl_refl).
  Qed.
  Lemma tok_ask1 {A} L (q : trace -> A) ev :
    (forall a before, incl L before -> permitted c before (ev a)) -> tok L (ask q ev).
  Proof.
    intros HP st [HC HJ]. unfold ask. split; [exact HC|]. cbn.
    eapply J_weaken; [apply incl_tl, incl_refl|]. apply J_event; [apply HP|exact HJ].
  Qed.
  Lemma tok_lift {A} L p (o : option A) : tok L (lift_option p o).
  Proof. destruct o; [apply tok_ret|apply tok_panic]. Qed.
  Lemma tok_need_arg L l k msg : tok L (need_arg l k msg).
  Proof. unfold need_arg. destruct (arg l k); [apply tok_ret|apply tok_err]. Qed.
  Lemma tok_need_i32 L l k msg : tok L (need_i32 l k msg).
  Proof.
    unfold need_i32. destruct (nth_error l k) as [b|]; [|apply tok_err].
    destruct (parse_i32 b); [apply tok_ret|apply tok_err].
  Qed.
  Lemma tok_put_data L nm v : tok L (put_data nm v).
  Proof. intros st H. unfold put_data. destruct (upd _ _ _); [exact H|exact I]. Qed.
  Lemma tok_moveto L to v : tok L (moveto env to v).
  Proof. intros st H. unfold moveto. destruct (upd _ _ _); [exact H|exact I]. Qed.

  Lemma JS_store L x s : JS L (set_indir_store x s) <-> JS L s.
  Proof. split; intro H; exact H. Qed.
  Lemma JS_create L s i : JS L s -> JS L (fst (create_block_schema s i)).
  Proof. destruct (create_store s i) as [x ->]. auto. Qed.
  Lemma tok_create L : tok L create_schema.
  Proof.
    intros st H. unfold create_schema. pose proof (JS_create L (sh st) (inh st) H) as H1.
    destruct (create_block_schema (sh st) (inh st)). exact H1.
  Qed.
  Lemma tok_local L f : tok L (upd_local f).
  Proof.
    intros st H. unfold upd_local. destruct (upd_indir (indir (inh st)) f (sh st)) eqn:E; [|exact I].
    apply upd_indir_store in E as [x ->]. exact H.
  Qed.

  Lemma tok_with_child L scope p : (forall s i, JS L s -> tokb L (p s i)) -> tok L (with_child scope p).
  Proof.
    intros Hp st H. unfold with_child.
    set (ci0 := iset_alias (alias (bf st)) (inh st)).
    set (ci1 := if is_empty (file_path (bf st)) then ci0 else iset_current_file (file_path (bf st)) ci0).
    set (ci2 := if is_empty (dir (bf st)) then ci1 else iset_current_dir (dir (bf st)) ci1).
    pose proof (JS_create L (sh st) (inh st) H) as H1.
    destruct scope.
    - destruct (create_block_schema (sh st) (inh st)) as [s1 i1]. cbn [fst] in H1.
      specialize (Hp s1 (iset_block_count (block_count ci2 + 1) ci2) H1).
      destruct (p s1 _) as [o s2 ci3|q|]; [|exact I|exact I]. cbn in Hp |- *.
      destruct (drop_store (update_indir s2 (indir ci3) (indir i1)) ci3) as [x ->].
      destruct (update_store s2 (indir ci3) (indir i1)) as [y ->]. exact Hp.
    - specialize (Hp (sh st) (iset_block_count (block_count ci2 + 1) ci2) H).
      destruct (p (sh st) _) as [o s2 ci3|q|]; [|exact I|exact I]. cbn in Hp |- *.
      destruct (drop_store s2 ci3) as [x ->]. exact Hp.
  Qed.
  Lemma tok_block_parse L src only s i : JS L s -> tokb L (block_parse rec s i src only).
  Proof. intro H. unfold block_parse. destruct (extract_blocks src); [apply Hrec; exact H|exact H]. Qed.
  Lemma tok_child L src scope : tok L (child rec src scope).
  Proof.
    intros st H. unfold child.
    apply (tok_with_child L scope (fun s i => block_parse rec s i src (only (bf st)))); [|exact H].
    intros s i Hs. apply tok_block_parse. exact Hs.
  Qed.
  Lemma tok_with_rec L scope cd bl o : tok L (with_child scope (fun s i => rec s i cd bl o)).
  Proof. apply tok_with_child. intros s i H. apply Hrec. exact H. Qed.

  (** ** Handlers *)
  Ltac known := intros ? ? HL; cbn [permitted];
    first [exact I | apply HL; cbn [In]; tauto | split; [reflexivity|apply HL; cbn [In]; tauto]
          | eexists; split; [apply HL; cbn [In]; tauto|apply HL; cbn [In]; eauto 8] ].
  Ltac tok_step :=
    match goal with
    | |- tok _ (create_schema) => apply tok_create
    | |- tok _ (upd_local _) => apply tok_local
    | |- tok _ (modB _) => apply tok_modB
    | |- tok _ (modI _) => apply tok_modI
    | |- tok _ (modS _) => apply tok_modS; intro; split; reflexivity
    | |- tok _ (ret _) => apply tok_ret
    | |- tok _ (err _) => apply tok_err
    | |- tok _ (ask _ _) => apply tok_ask1; solve [known]
    | |- tok _ (need_arg _ _ _) => apply tok_need_arg
    | |- tok _ (need_i32 _ _ _) => apply tok_need_i32
    | |- tok _ (put_data _ _) => apply tok_put_data
    | |- tok _ (moveto _ _ _) => apply tok_moveto
    | |- tok _ (lift_option _ _) => apply tok_lift
    | |- tok _ (panicM _) => apply tok_panic
    | |- tok _ (child _ _ _) => apply tok_child
    | |- tok _ (bind getB _) => apply tok_getB; intros ?
    | |- tok _ (bind getI _) => apply tok_getI; intros ?
    | |- tok _ (bind getS _) => apply tok_getS; intros ? ?
    | |- tok _ (bind (ask _ _) _) => apply tok_ask; [solve [known]|intros ?]
    | |- tok _ (bind _ _) => apply tok_bind; [|intros ?]
    | |- tok _ (if ?x then _ else _) => is_var x; destruct x
    | |- tok _ (if negb ?x then _ else _) => is_var x; destruct x; cbn [negb]
    | |- tok _ (if ?x then _ else _) => destruct x eqn:?
    | |- tok _ (match ?x with _ => _ end) => is_var x; destruct x
    | |- tok _ (match ?x with _ => _ end) => destruct x eqn:?
    end.
  Ltac tok_all := cbv zeta; repeat (tok_step; cbv zeta).

  Lemma tok_parse_code L scope : tok L (parse_code rec scope).
  Proof. unfold parse_code. tok_all. Qed.
  Lemma tok_extract L p : tok L (extract_params_code rec p).
  Proof. unfold extract_params_code. tok_all. Qed.
  Lemma tok_parts L l : tok L (parse_parts rec l).
  Proof. induction l as [|p r IH]; cbn [parse_parts]; tok_all. exact IH. Qed.
  Lemma tok_args L : tok L (extract_args rec).
  Proof. unfold extract_args. tok_all. apply tok_parts. Qed.
  Lemma tok_get_data L nm : tok L (get_data nm). Proof. unfold get_data. tok_all. Qed.
  Lemma tok_get_trans L nm : tok L (get_trans nm). Proof. unfold get_trans. tok_all. Qed.
  Lemma tok_no_flags L : tok L no_flags. Proof. unfold no_flags. tok_all. Qed.
  Lemma tok_check_flags L l : tok L (check_flags l). Proof. unfold check_flags. tok_all. Qed.
  Lemma tok_reject L t : tok L (reject t). Proof. unfold reject. tok_all. Qed.
  Lemma tok_echo L : tok L echo_in_cache. Proof. unfold echo_in_cache, set_out. tok_all. Qed.
  Lemma tok_resolve L : tok L (resolve_file rec). Proof. unfold resolve_file. tok_all. Qed.
  Lemma tok_read L p : In (EvExists p true) L -> tok L (read_or_empty env p).
  Proof. intro HI. unfold read_or_empty, ask_read. apply tok_ask; [|intros; tok_all]. intros a b HL. apply HL. exact HI. Qed.
  Lemma tok_debug_enable L : tok L (debug_enable env).
  Proof.
    unfold debug_enable, ask_exists, ask_is_file, ask_age. apply tok_getS; intros s E. cbv zeta. rewrite E.
    destruct (is_empty (debug_file c)); [apply tok_ret|].
    apply tok_ask; [intros; exact I|intros ex]. destruct ex; cbn [negb]; [|apply tok_ret].
    apply tok_ask; [|intros fl].
    { intros a b HL. split; [reflexivity|]. apply HL. left. reflexivity. }
    destruct fl; cbn [negb]; [|apply tok_ret].
    apply tok_ask; [|intros; apply tok_ret]. intros a b HL. split; [reflexivity|]. split; apply HL; cbn [In]; tauto.
  Qed.
  Lemma tok_check_venv L v : tok L (check_venv env v). Proof. unfold check_venv, ask_exists. tok_all. Qed.
  Lemma tok_redirect_url L : tok L redirect_url. Proof. unfold redirect_url. tok_all. Qed.
  Lemma tok_cache_expires L p e : c.(cache_disable) = false -> In (EvExists p true) L -> tok L (cache_file_expires env p e).
  Proof.
    intros HC HI. unfold cache_file_expires, ask_now, ask_mtime. apply tok_ask; [intros; exact I|intros now].
    apply tok_ask; [|intros m; tok_all]. intros a b HL. split; [exact HC|]. apply HL. right. exact HI.
  Qed.
  Lemma tok_child_in_cache L src scope r : tok L (child_in_cache rec src scope r).
  Proof. unfold child_in_cache. tok_all. Qed.
  Lemma tok_parse_str L v : tok L (parse_str_value rec v). Proof. unfold parse_str_value. tok_all. Qed.
  Lemma tok_obj_values L j : forall b, tok L (parse_obj_values rec j b).
  Proof.
    induction j as [| | | | |m Hm] using json_ind'; intro ir; cbn [parse_obj_values]; try apply tok_ret.
    apply tok_bind; [|intro; apply tok_ret].
    induction Hm as [|[k v] r Hv _ IH]; [apply tok_ret|].
    apply tok_bind; [|intro; apply tok_bind; [exact IH|intro; apply tok_ret]].
    cbn [snd] in Hv.
    destruct (obj_file_key k); [apply tok_parse_str|].
    destruct (beq k (B "params") || ir); [|apply tok_ret].
    destruct v; try apply tok_parse_str. apply Hv.
  Qed.
  Lemma tok_each_loop L kn vn l bl : tok L (each_loop rec kn vn l bl).
  Proof.
    induction l as [|[k v] r IH]; cbn [each_loop]; [apply tok_ret|]. apply tok_bind; [|intro; exact IH].
    unfold each_iter. tok_all. apply tok_with_rec.
  Qed.
  Lemma tok_for_loop L v l bl : tok L (for_loop rec v l bl).
  Proof.
    induction l as [|z r IH]; cbn [for_loop]; [apply tok_ret|]. apply tok_bind; [|intro; exact IH].
    unfold for_iter, set_data. tok_all. apply tok_with_rec.
  Qed.

  Ltac tok_lib :=
    match goal with
    | |- tok _ (parse_code _ _) => apply tok_parse_code
    | |- tok _ (child_in_cache _ _ _ _) => apply tok_child_in_cache
    | |- tok _ (with_child _ _) => apply tok_with_rec
    | |- tok _ (extract_params_code _ _) => apply tok_extract
    | |- tok _ (extract_args _) => apply tok_args
    | |- tok _ (get_data _) => apply tok_get_data
    | |- tok _ (get_trans _) => apply tok_get_trans
    | |- tok _ (no_flags) => apply tok_no_flags
    | |- tok _ (check_flags _) => apply tok_check_flags
    | |- tok _ (reject _) => apply tok_reject
    | |- tok _ (echo_in_cache) => apply tok_echo
    | |- tok _ (resolve_file _) => apply tok_resolve
    | |- tok _ (read_or_empty _ _) => apply tok_read; cbn [In]; tauto
    | |- tok _ (debug_enable _) => apply tok_debug_enable
    | |- tok _ (check_venv _ _) => apply tok_check_venv
    | |- tok _ (redirect_url) => apply tok_redirect_url
    | |- tok _ (parse_obj_values _ _ _) => apply tok_obj_values
    | |- tok _ (each_loop _ _ _ _ _) => apply tok_each_loop
    | |- tok _ (for_loop _ _ _ _) => apply tok_for_loop
    | |- tok _ (merge_local_data _) => unfold merge_local_data
    | |- tok _ (merge_local_locale _) => unfold merge_local_locale
    end.
  Ltac tok_handler :=
    unfold set_out, set_data, ask_exists, ask_canon, ask_read, ask_mkdir, ask_create, ask_write,
      ask_now, ask_rand, ask_rand_bytes, ask_python, ask_php;
    cbv zeta; repeat (first [tok_lib | tok_step]; cbv zeta).

  Lemma tok_var L : tok L (bif_var rec). Proof. unfold bif_var. tok_handler. Qed.
  Lemma tok_allow L : tok L (bif_allow env rec). Proof. unfold bif_allow. tok_handler. Qed.
  Lemma tok_cond L t : tok L (bif_cond rec t). Proof. unfold bif_cond. tok_handler. Qed.
  Lemma tok_compare L t : tok L (bif_compare rec t). Proof. unfold bif_compare. tok_handler. Qed.
  Lemma tok_coalesce L : tok L (bif_coalesce rec). Proof. unfold bif_coalesce. tok_handler. Qed.
  Lemma tok_code L : tok L (bif_code rec). Proof. unfold bif_code. tok_handler. Qed.
  Lemma tok_count L : tok L (bif_count_ rec). Proof. unfold bif_count_. tok_handler. Qed.
  Lemma tok_each L : tok L (bif_each rec). Proof. unfold bif_each. tok_handler. Qed.
  Lemma tok_else L : tok L (bif_else rec). Proof. unfold bif_else. tok_handler. Qed.
  Lemma tok_eval L : tok L (bif_eval rec). Proof. unfold bif_eval. tok_handler. Qed.
  Lemma tok_exit L : tok L (bif_exit rec). Proof. unfold bif_exit. tok_handler. Qed.
  Lemma tok_fetch L : tok L (bif_fetch rec). Proof. unfold bif_fetch. tok_handler. Qed.
  Lemma tok_flg L : tok L (bif_flg rec). Proof. unfold bif_flg. tok_handler. Qed.
  Lemma tok_for L : tok L (bif_for rec). Proof. unfold bif_for. tok_handler. Qed.
  Lemma tok_hash L : tok L (bif_hash env rec). Proof. unfold bif_hash. tok_handler. Qed.
  Lemma tok_date L : tok L (bif_date env rec). Proof. unfold bif_date. tok_handler. Qed.
  Lemma tok_debug L : tok L (bif_debug env rec). Proof. unfold bif_debug. tok_handler. Qed.
  Lemma tok_join L : tok L (bif_join rec). Proof. unfold bif_join. tok_handler. Qed.
  Lemma tok_lang L : tok L bif_lang. Proof. unfold bif_lang. tok_handler. Qed.
  Lemma tok_bif_moveto L : tok L (bif_moveto env rec). Proof. unfold bif_moveto. tok_handler. Qed.
  Lemma tok_neutral L : tok L bif_neutral. Proof. unfold bif_neutral. tok_handler. Qed.
  Lemma tok_rand L : tok L (bif_rand env rec). Proof. unfold bif_rand. tok_handler. Qed.
  Lemma tok_redirect L : tok L (bif_redirect rec). Proof. unfold bif_redirect. tok_handler. Qed.
  Lemma tok_replace L : tok L (bif_replace rec). Proof. unfold bif_replace. tok_handler. Qed.
  Lemma tok_sum L : tok L (bif_sum env rec). Proof. unfold bif_sum. tok_handler. Qed.
  Lemma tok_trans L : tok L (bif_trans rec). Proof. unfold bif_trans. tok_handler. Qed.
  Lemma tok_unknown L : tok L bif_unknown. Proof. unfold bif_unknown. tok_handler. Qed.
  Lemma tok_declare L : tok L (bif_declare rec). Proof. unfold bif_declare. tok_handler. Qed.
  Lemma tok_data L : tok L (bif_data env rec). Proof. unfold bif_data. tok_handler. Qed.
  Lemma tok_locale L : tok L (bif_locale env rec). Proof. unfold bif_locale. tok_handler. Qed.
  Lemma tok_include L : tok L (bif_include env rec). Proof. unfold bif_include. tok_handler. Qed.
  Lemma tok_param L : tok L (bif_param rec). Proof. unfold bif_param. tok_handler. Qed.
  Lemma tok_snippet L : tok L (bif_snippet rec). Proof. unfold bif_snippet. tok_handler. Qed.
  Lemma tok_bind_some {A C} L (o : option A) msg (k : A -> M C) : (forall x, o = Some x -> tok L (k x)) ->
    tok L (bind (match o with Some x => ret x | None => err msg end) k).
  Proof. intros H. destruct o; [intros st HS; exact (H _ eq_refl st HS)|intros st HS; exact HS]. Qed.
  Lemma tok_exec L p x ev (f : trace -> json + bytes) a : a.(x_file) = x -> (ev = EvPython a \/ ev = EvPhp a) ->
    In (EvExists p true) L -> In (EvCanon p (Some x)) L -> (forall v, a.(x_venv) = Some v -> In (EvExists v true) L) ->
    tok L (ask f ev).
  Proof.
    intros E HE H1 H2 H3. apply tok_ask1. intros r b HL.
    destruct HE as [-> | ->]; cbn [permitted]; (split; [exists p; rewrite E; split; apply HL; assumption|intros v EV; apply HL, H3, EV]).
  Qed.
  Lemma tok_venv {C} L v (k : option bytes -> M C) :
    (forall r L', incl L L' -> (forall v', r = Some v' -> In (EvExists v' true) L') -> tok L' (k r)) ->
    tok L (bind (check_venv env v) k).
  Proof.
    intros HK. unfold check_venv, ask_exists. destruct (is_empty v).
    - intros st HS. apply (HK None L (incl_refl _)); [discriminate|exact HS].
    - intros st HS. unfold bind, getI, ask. cbv zeta. set (w := expand_hash (current_dir (inh st)) v).
      set (ex := e_exists env (strace (sh st)) w). set (st1 := mkSt _ _ _).
      assert (JS (EvExists w ex :: L) st1.(sh)) as H.
      { destruct HS as [HC HJ]. split; [exact HC|]. cbn. apply J_event; [intros; exact I|exact HJ]. }
      clearbody st1. destruct ex; [|eapply JS_weaken; [|exact H]; apply incl_tl, incl_refl].
      cbn [ret].
      assert (tok (EvExists w true :: L) (k (if is_empty w then None else Some w))) as HT.
      { apply HK; [apply incl_tl, incl_refl|]. intros v' E. destruct (is_empty w); [discriminate|]. injection E as <-. left. reflexivity. }
      specialize (HT st1 H). unfold ret. destruct (k _ st1); try exact I; (eapply JS_weaken; [|exact HT]; apply incl_tl, incl_refl).
  Qed.
  Lemma tok_obj L : tok L (bif_obj env rec).
  Proof.
    unfold bif_obj, set_out, ask_exists, ask_canon, ask_read, ask_python, ask_php.
    cbv zeta; repeat (first [
       match goal with
       | |- tok _ (bind (match ?o with Some c => ret c | None => err _ end) _) => is_var o; apply tok_bind_some; intros ? ->
       | |- tok _ (bind (check_venv _ _) _) => apply tok_venv; intros r L' HL HV
       | HL : incl _ ?L' |- tok ?L' (ask _ (EvPython _)) =>
           eapply tok_exec; [reflexivity|left; reflexivity|apply HL; right; left; reflexivity|apply HL; left; reflexivity|exact HV]
       | HL : incl _ ?L' |- tok ?L' (ask _ (EvPhp _)) =>
           eapply tok_exec; [reflexivity|right; reflexivity|apply HL; right; left; reflexivity|apply HL; left; reflexivity|exact HV]
       end
       | tok_lib | tok_step]; cbv zeta).
  Qed.

  Lemma cache_dir_ok s id d : s.(cfg) = c -> cache_dir_of s id = Some d -> cache_directory c d.
  Proof.
    intros E. unfold cache_dir_of. destruct (length id <? 3) eqn:EL; [discriminate|]. apply Nat.ltb_ge in EL.
    intro H. injection H as <-. rewrite E. exists (firstn 3 id). split; [apply firstn_length_le; exact EL|].
    destruct (cache_prefix c); reflexivity.
  Qed.
  Lemma tok_cache L : tok L (bif_cache env rec).
  Proof.
    unfold bif_cache, set_out, ask_exists, ask_read, ask_mkdir, ask_create, ask_write.
    cbv zeta; repeat (first [
      match goal with
      | |- tok _ (bind (lift_option _ ?o) _) =>
          let ED := fresh "ED" in destruct o as [dd|] eqn:ED; [|apply tok_panic];
          match goal with |- tok ?L (bind (lift_option _ (Some ?d)) ?k) => change (tok L (k d)); cbv beta end;
          match goal with H : cfg ?s = c, E : cache_dir_of ?s _ = Some _ |- _ => pose proof (cache_dir_ok _ _ _ H E) as HD end;
          revert HD; clear ED; generalize (e_sha256 env (cache_key env s s0 b1 (arg_or_empty x2 2) x4 (code b)
             match arg x2 3 with Some v => negb (beq v (B "false") || beq v (B "0") || is_empty v) | None => false end)); intros id HD
      | |- tok _ (bind (ask _ (EvExists (?d ++ _))) _) => fail 1
      | _ => first [tok_lib | tok_step]
      end ]; cbv zeta).
    assert (c.(cache_disable) = false) as HC.
    { unfold cache_bypass in Heqb2. rewrite <- H. destruct (cache_disable (cfg s)); [discriminate|reflexivity]. }
    set (f := dd ++ B "/" ++ id ++ B "-" ++ x4).
    assert (forall L, tok L
      (bind (if contains BIF_OPEN (code b)
             then bind (child_in_cache rec (code b) (mod_scope b) (in_cache b0)) (fun c0 => modB (bset_code c0)) else ret tt) (fun _ =>
       bind getB (fun b2 => bind (modB (bset_out (code b2))) (fun _ =>
       bind (ask (fun t => e_mkdir env t dd) (EvMkdir dd)) (fun md =>
       match md with
       | Some e => err (B "Failed to create cache directory " ++ dd ++ B ": " ++ e)
       | None => bind (ask (fun t => e_create env t f) (EvCreate f)) (fun cr =>
           match cr with
           | Some e => err (B "Failed to create file " ++ f ++ B ": " ++ e)
           | None => bind (ask (fun t => e_write env t f (code b2)) (EvWrite f (code b2))) (fun w =>
               match w with Some e => err (B "Failed to write to cache " ++ f ++ B ": " ++ e) | None => ret tt end)
           end) end)))))) as HM.
    { intro L1. apply tok_bind; [tok_handler|intros _]. apply tok_getB; intro b2. apply tok_bind; [apply tok_modB|intros _].
      apply tok_ask; [intros; split; [exact HC|exact HD]|intros md]. destruct md; [apply tok_err|].
      apply tok_ask.
      { intros a bb HL. cbn [permitted]. exists dd, (id ++ B "-" ++ x4). split; [exact HD|split; [reflexivity|]]. apply HL. left. reflexivity. }
      intros cr. destruct cr; [apply tok_err|].
      apply tok_ask; [|intros w; tok_handler]. intros a bb HL. apply HL. left. reflexivity. }
    apply tok_ask; [intros; exact I|intros ex]. destruct ex.
    - apply tok_bind; [apply tok_cache_expires; [exact HC|left; reflexivity]|intros ep]. destruct ep; cbn [negb andb]; [apply HM|].
      apply tok_ask; [intros a bb HL; apply HL; left; reflexivity|intros r]. destruct r; tok_handler.
    - apply tok_bind; [apply tok_ret|intros ep]. cbn [andb]. apply HM.
  Qed.

  Lemma tok_handlers L : Forall (fun kh => tok L (snd kh)) (handlers env rec).
  Proof.
    unfold handlers, bif_array, bif_bool, bif_defined, bif_filled, bif_same, bif_contains.
    repeat (apply Forall_cons; [cbn [snd]|]); [..|apply Forall_nil];
    first [apply tok_var | apply tok_allow | apply tok_cond | apply tok_cache | apply tok_coalesce | apply tok_code
      | apply tok_compare | apply tok_count | apply tok_data | apply tok_date | apply tok_declare | apply tok_each
      | apply tok_else | apply tok_eval | apply tok_exit | apply tok_fetch | apply tok_flg | apply tok_for | apply tok_hash
      | apply tok_include | apply tok_join | apply tok_lang | apply tok_locale | apply tok_bif_moveto | apply tok_neutral
      | apply tok_param | apply tok_rand | apply tok_redirect | apply tok_replace | apply tok_snippet | apply tok_sum
      | apply tok_trans | apply tok_obj | apply tok_debug].
  Qed.
  Lemma tok_dispatch L nm : tok L (dispatch env rec nm).
  Proof.
    unfold dispatch. destruct (lookup_in nm (handlers env rec)) as [E|(k & H & _)];
      [rewrite E; apply tok_unknown|]. exact (proj1 (Forall_forall _ _) (tok_handlers L) _ H).
  Qed.

  Lemma tok_bif L s i braw bonly : JS L s -> tokb L (bif_run env rec s i braw bonly).
  Proof.
    intro H. unfold bif_run. destruct (_ <? _)%N; [exact I|]. unfold bif_parse.
    destruct (split_once _ _) as [[nm rest]|].
    - destruct (_ && _); [exact H|]. destruct (scan_modifiers _ _ _ _ _) as [[nm' [[[f g] u] p]]|]; [|exact I].
      set (st := mkSt _ _ _). assert (JS L st.(sh)) as HS by exact H. clearbody st.
      pose proof (tok_dispatch L nm' st HS) as HD. unfold bif_result.
      destruct (dispatch env rec nm' st) as [x st1|e st1|p'|]; [exact HD| |exact I|exact I].
      destruct (show_error (sh st1)); [|exact I]. destruct HD as [H1 H2].
      cbn. split; [exact H1|]. cbn. eapply J_weaken; [apply incl_tl, incl_refl|]. apply J_event; [intros; exact I|exact H2].
    - destruct (negb _); [exact H|]. destruct (show_error _); [exact H|exact I].
  Qed.
  Lemma tok_loop L source bonly bl : forall s i prev acc, JS L s ->
    tokb L (blocks_loop env rec s i source prev acc bl bonly).
  Proof.
    induction bl as [|[a z] r IH]; intros s i prev acc H; cbn [blocks_loop]; [exact H|].
    destruct (exit s); [exact H|]. destruct (negb _ && negb _); [|apply IH; exact H].
    pose proof (tok_bif L s i (slice a z source) bonly H) as HB.
    destruct (bif_run env rec s i (slice a z source) bonly); [|exact I|exact I]. apply IH. exact HB.
  Qed.
End Trace.

Lemma tok_run env t0 c fuel : tok_rec t0 c (run_blocks env fuel).
Proof.
  induction fuel as [|n IH]; intros L s i src bl only H; [exact I|]. cbn [run_blocks].
  apply tok_loop; assumption.
Qed.
Lemma tok_top env t0 c L s i src only : JS t0 c L s -> tokb t0 c L (top_parse env s i src only).
Proof.
  intro H. unfold top_parse, parse, parse_fuel.
  pose proof (tok_block_parse t0 c _ (tok_run env t0 c (enough_fuel s)) L src only s
    (iset_block_count (block_count i + 1) i) H) as HB.
  destruct (block_parse _ s _ src only) as [o s' i'|p|]; [|exact I|exact I].
  cbn in *. destruct (drop_store s' i') as [x ->]. exact HB.
Qed.
Lemma tok_rounds env t0 c L i fuel : forall s o o' s', JS t0 c L s ->
  cache_rounds env fuel s i o = ROk o' s' -> JS t0 c L s'.
Proof.
  induction fuel as [|n IH]; intros s o o' s' H; cbn [cache_rounds]; destruct (contains CACHE_OPEN o); try discriminate;
    try (intro E; injection E as <- <-; exact H).
  pose proof (tok_top env t0 c L s i o (B "!cache") H) as HT.
  destruct (top_parse env s i o (B "!cache")) as [o1 s1 i1|p|]; try discriminate. apply IH. exact HT.
Qed.
