(** * An evaluation in another world that gives the same answers, and with a larger bif limit *)

From Verif Require Import Bytes Json Utils ConstantsGen State Engine Template Spec SpecEngine SpecReplay BytesFacts FrameProofs SimProofs.

Lemma replays_nil env w t : replays env w [] t.
Proof. intros l e b H. destruct l; discriminate. Qed.
Lemma replays_app env w a b t : replays env w (a ++ b) t <-> replays env w b t /\ replays env w a (b ++ t).
Proof.
  split.
  - intro H. split.
    + intros l e c ->. apply (H (a ++ l) e c). rewrite <- app_assoc. reflexivity.
    + intros l e c ->. rewrite app_assoc. apply (H l e (c ++ b)). rewrite <- app_assoc. reflexivity.
  - intros [H1 H2] l e c E. revert a E H2. induction l as [|x l IH]; intros [|y a] E H2.
    + apply (H1 [] e c E).
    + cbn in E. injection E as -> <-. rewrite <- app_assoc. apply (H2 [] e a). reflexivity.
    + cbn in E. apply (H1 (x :: l) e c E).
    + cbn in E. injection E as -> E. apply (IH a E). intros l' e' b' ->. apply (H2 (x :: l') e' b'). reflexivity.
Qed.
Lemma replays_one env w e t : replays env w [e] t <-> answers env w e t.
Proof.
  split; [intro H; exact (H [] e [] eq_refl)|]. intros H l e' b E. destruct l as [|x [|y l]]; [|discriminate|discriminate].
  cbn in E. injection E as <- <-. exact H.
Qed.

Section Replay.
  Variable env w : Env.
  Variable k : N.
  Notation env' := (in_world env w).
  Notation up := (raised k).
  Definition upt (st : St) : St := mkSt (up st.(sh)) st.(inh) st.(bf).

  (** from [t] to [t1]: the new events are answered by [env], and if [w] answers them too then [P] *)
  Definition over (t t1 : trace) (P : Prop) : Prop :=
    exists l, t1 = l ++ t /\ replays env env l t /\ (replays env w l t -> P).

  Lemma over_refl t (P : Prop) : P -> over t t P.
  Proof. intro H. exists []. split; [reflexivity|]. split; [apply replays_nil|auto]. Qed.
  Lemma over_trans t t1 t2 (P Q : Prop) : over t t1 P -> over t1 t2 Q -> over t t2 (P /\ Q).
  Proof.
    intros (l & -> & H1 & HP) (l2 & -> & H2 & HQ). exists (l2 ++ l). split; [apply app_assoc|]. split.
    - apply replays_app. split; assumption.
    - intro H. apply replays_app in H as [Ha Hb]. split; [apply HP; exact Ha|apply HQ; exact Hb].
  Qed.
  Lemma over_same t t1 (P : Prop) : over t t1 P -> w = env -> P.
  Proof. intros (l & _ & H1 & H2) W. apply H2. rewrite W. exact H1. Qed.
  Lemma over_impl t t1 (P Q : Prop) : (P -> Q) -> over t t1 P -> over t t1 Q.
  Proof. intros H (l & E & H1 & H2). exists l. split; [exact E|]. split; [exact H1|]. intro R. apply H, H2, R. Qed.

  Definition brel (r r' : BRes) (t : trace) : Prop :=
    match r with
    | BOk o s1 i1 => over t s1.(strace) (r' = BOk o (up s1) i1)
    | BPanic p => w = env -> p = PBifLimit \/ r' = BPanic p
    | BNoFuel => True
    end.
  Variable rec rec' : evaluator.
  Hypothesis Hrec : forall s i src bl only, brel (rec s i src bl only) (rec' (up s) i src bl only) s.(strace).

  Definition rsim {A} (m m' : M A) : Prop := forall st,
    match m st with
    | Done a st1 => over st.(sh).(strace) st1.(sh).(strace) (m' (upt st) = Done a (upt st1))
    | Fail e st1 => over st.(sh).(strace) st1.(sh).(strace) (m' (upt st) = Fail e (upt st1))
    | Panic p => w = env -> p = PBifLimit \/ m' (upt st) = Panic p
    | NoFuel => True
    end.

  Lemma rsim_ret {A} (x : A) : rsim (ret x) (ret x).
  Proof. intro st. apply over_refl. reflexivity. Qed.
  Lemma rsim_err {A} msg : rsim (@err A msg) (err msg).
  Proof. intro st. apply over_refl. reflexivity. Qed.
  Lemma rsim_panic {A} p : rsim (@panicM A p) (panicM p).
  Proof. intros st _. right. reflexivity. Qed.
  Lemma rsim_bind {A C} (m m' : M A) (f f' : A -> M C) : rsim m m' -> (forall x, rsim (f x) (f' x)) -> rsim (bind m f) (bind m' f').
  Proof.
    intros Hm Hf st. unfold bind. specialize (Hm st). destruct (m st) as [x st1|e st1|p|]; [| | |exact I].
    - specialize (Hf x st1). destruct (f x st1) as [y st2|e st2|p|]; [| | |exact I].
      + eapply over_impl; [|exact (over_trans _ _ _ _ _ Hm Hf)]. intros [-> ->]. reflexivity.
      + eapply over_impl; [|exact (over_trans _ _ _ _ _ Hm Hf)]. intros [-> ->]. reflexivity.
      + intro W. rewrite (over_same _ _ _ Hm W). exact (Hf W).
    - eapply over_impl; [|exact Hm]. intros ->. reflexivity.
    - intro W. destruct (Hm W) as [->| ->]; [left|right]; reflexivity.
  Qed.
  Lemma rsim_getB {C} (f f' : Bif -> M C) : (forall b, rsim (f b) (f' b)) -> rsim (bind getB f) (bind getB f').
  Proof. intros H st. exact (H _ st). Qed.
  Lemma rsim_getI {C} (f f' : Inherit -> M C) : (forall b, rsim (f b) (f' b)) -> rsim (bind getI f) (bind getI f').
  Proof. intros H st. exact (H _ st). Qed.
  Lemma rsim_getS {C} (f f' : Shared -> M C) : (forall s, rsim (f s) (f' (up s))) -> rsim (bind getS f) (bind getS f').
  Proof. intros H st. exact (H _ st). Qed.
  Lemma rsim_modB f : rsim (modB f) (modB f).
  Proof. intro st. apply over_refl. reflexivity. Qed.
  Lemma rsim_modI f : rsim (modI f) (modI f).
  Proof. intro st. apply over_refl. reflexivity. Qed.
  Lemma rsim_modS f : (forall s, up (f s) = f (up s)) -> (forall s, strace (f s) = strace s) -> rsim (modS f) (modS f).
  Proof.
    intros H T st. unfold modS. cbn. rewrite T. apply over_refl. unfold upt. cbn. rewrite H. reflexivity.
  Qed.
  Lemma rsim_ask {A} (q q' : trace -> A) ev : (forall t, answers env env (ev (q t)) t) -> (forall t, answers env w (ev (q t)) t -> q' t = q t) ->
    rsim (ask q ev) (ask q' ev).
  Proof.
    intros H1 H2 st. unfold ask. cbn. exists [ev (q (strace (sh st)))]. split; [reflexivity|]. split; [apply replays_one, H1|].
    intro R. apply replays_one, H2 in R. cbn. rewrite R. reflexivity.
  Qed.
  Lemma rsim_exists p : rsim (ask_exists env p) (ask_exists env' p). Proof. apply rsim_ask; cbn; auto. Qed.
  Lemma rsim_is_file p : rsim (ask_is_file env p) (ask_is_file env' p). Proof. apply rsim_ask; cbn; auto. Qed.
  Lemma rsim_canon p : rsim (ask_canon env p) (ask_canon env' p). Proof. apply rsim_ask; cbn; auto. Qed.
  Lemma rsim_read p : rsim (ask_read env p) (ask_read env' p). Proof. apply rsim_ask; cbn; [auto|intros t []; auto]. Qed.
  Lemma rsim_mkdir p : rsim (ask_mkdir env p) (ask_mkdir env' p). Proof. apply rsim_ask; cbn; auto. Qed.
  Lemma rsim_create p : rsim (ask_create env p) (ask_create env' p). Proof. apply rsim_ask; cbn; auto. Qed.
  Lemma rsim_write p c : rsim (ask_write env p c) (ask_write env' p c). Proof. apply rsim_ask; cbn; auto. Qed.
  Lemma rsim_mtime p : rsim (ask_mtime env p) (ask_mtime env' p). Proof. apply rsim_ask; cbn; auto. Qed.
  Lemma rsim_age p : rsim (ask_age env p) (ask_age env' p). Proof. apply rsim_ask; cbn; auto. Qed.
  Lemma rsim_now : rsim (ask_now env) (ask_now env'). Proof. apply rsim_ask; cbn; auto. Qed.
  Lemma rsim_rand_ a b : rsim (ask_rand env a b) (ask_rand env' a b). Proof. apply rsim_ask; cbn; auto. Qed.
  Lemma rsim_rand_bytes : rsim (ask_rand_bytes env) (ask_rand_bytes env'). Proof. apply rsim_ask; cbn; auto. Qed.
  Lemma rsim_python a : rsim (ask_python env a) (ask_python env' a). Proof. apply rsim_ask; cbn; auto. Qed.
  Lemma rsim_php a : rsim (ask_php env a) (ask_php env' a). Proof. apply rsim_ask; cbn; auto. Qed.
  (** reading, with the text of the error *)
  Lemma rsim_read_err {A} p (f : bytes -> M A) (g : bytes -> bytes) :
    (forall c, rsim (f c) (f c)) ->
    rsim (s <- getS ;; r <- ask_read env p ;; match r with Some c => f c | None => err (g (env.(e_read_err) s.(strace) p)) end)
         (s <- getS ;; r <- ask_read env' p ;; match r with Some c => f c | None => err (g (env'.(e_read_err) s.(strace) p)) end).
  Proof.
    intros HF st. unfold bind, getS, ask_read, ask. cbn [strace sh in_world e_read e_read_err].
    set (t := strace (sh st)). destruct (e_read env t p) as [c|] eqn:ER.
    - specialize (HF c (mkSt (add_event (EvRead p (Some c)) (sh st)) (inh st) (bf st))).
      assert (over t (EvRead p (Some c) :: t) (e_read w t p = Some c)) as O1.
      { exists [EvRead p (Some c)]. split; [reflexivity|]. split; [apply replays_one; cbn; split; [exact ER|discriminate]|].
        intro R. apply replays_one in R as [R _]. exact R. }
      destruct (f c _) as [a st1|e st1|q|]; [| | |exact I].
      + eapply over_impl; [|exact (over_trans _ _ _ _ _ O1 HF)]. intros [E HE]. cbn [upt sh strace raised]. fold t. rewrite E. exact HE.
      + eapply over_impl; [|exact (over_trans _ _ _ _ _ O1 HF)]. intros [E HE]. cbn [upt sh strace raised]. fold t. rewrite E. exact HE.
      + intro W. cbn [upt sh strace raised]. fold t. rewrite (over_same _ _ _ O1 W). exact (HF W).
    - exists [EvRead p None]. split; [reflexivity|]. split; [apply replays_one; cbn; split; [exact ER|reflexivity]|].
      intro R. apply replays_one in R as [R1 R2]. cbn [upt sh strace raised inh bf]. fold t. rewrite R1, (R2 eq_refl). reflexivity.
  Qed.

  Lemma rsim_lift {A} p (o : option A) : rsim (lift_option p o) (lift_option p o).
  Proof. destruct o; [apply rsim_ret|apply rsim_panic]. Qed.
  Lemma rsim_need l i m : rsim (need_arg l i m) (need_arg l i m).
  Proof. unfold need_arg. destruct (arg l i); [apply rsim_ret|apply rsim_err]. Qed.
  Lemma rsim_need_i32 l i m : rsim (need_i32 l i m) (need_i32 l i m).
  Proof. unfold need_i32. destruct (nth_error l i) as [v|]; [|apply rsim_err]. destruct (parse_i32 v); [apply rsim_ret|apply rsim_err]. Qed.
  Lemma rsim_put_data nm v : rsim (put_data nm v) (put_data nm v).
  Proof.
    intro st. unfold put_data. cbn [upt sh schema raised]. destruct (upd (B "data") (put nm v) (schema (sh st))); [|intros _; right; reflexivity]. apply over_refl. reflexivity.
  Qed.
  Lemma rsim_moveto_ a b : rsim (moveto env a b) (moveto env' a b).
  Proof.
    intro st. unfold moveto. cbn [upt sh schema raised in_world e_md5]. destruct (upd (B "__moveto") _ (schema (sh st))); [|intros _; right; reflexivity]. apply over_refl. reflexivity.
  Qed.
  Lemma rsim_upd_local f : rsim (upd_local f) (upd_local f).
  Proof.
    intro st. unfold upd_local, upd_indir. cbn [upt sh inh bf indir_store raised].
    destruct (oget (indir (inh st)) (indir_store (sh st))) as [v|].
    - destruct (f v); [|intros _; right; reflexivity]. apply over_refl. reflexivity.
    - destruct (f (JObj [])); [|intros _; right; reflexivity]. apply over_refl. reflexivity.
  Qed.
  Lemma create_up s i s1 i1 : create_block_schema s i = (s1, i1) -> create_block_schema (up s) i = (up s1, i1) /\ strace s1 = strace s.
  Proof.
    unfold create_block_schema. cbv zeta. cbn [indir_store raised]. destruct (beq _ _).
    - intro H. injection H as <- <-. split; reflexivity.
    - destruct (oget _ _); intro H; injection H as <- <-; split; reflexivity.
  Qed.
  Lemma rsim_create_schema : rsim create_schema create_schema.
  Proof.
    intro st. unfold create_schema. destruct (create_block_schema (sh st) (inh st)) as [s1 i1] eqn:E.
    destruct (create_up _ _ _ _ E) as [E1 E2]. cbn [sh]. rewrite E2. apply over_refl. cbn [upt sh inh bf]. rewrite E1. reflexivity.
  Qed.
  Lemma update_up s a b : update_indir (up s) a b = up (update_indir s a b) /\ strace (update_indir s a b) = strace s.
  Proof. unfold update_indir. cbn [indir_store raised]. destruct (oget a (indir_store s)); split; reflexivity. Qed.
  Lemma drop_up s i : drop_block (up s) i = up (drop_block s i) /\ strace (drop_block s i) = strace s.
  Proof. unfold drop_block. destruct (negb _ && beq _ _); split; reflexivity. Qed.

  Lemma rsim_with_child scope p p' : (forall s i, brel (p s i) (p' (up s) i) s.(strace)) -> rsim (with_child scope p) (with_child scope p').
  Proof.
    intros Hp st. unfold with_child. cbn [upt sh inh bf].
    set (ci := iset_block_count _ _).
    destruct (if scope then create_block_schema (sh st) (inh st) else (sh st, inh st)) as [s1 i1] eqn:E.
    assert ((if scope then create_block_schema (up (sh st)) (inh st) else (up (sh st), inh st)) = (up s1, i1) /\ strace s1 = strace (sh st)) as [E1 E2].
    { destruct scope; [apply create_up; exact E|]. injection E as <- <-. split; reflexivity. }
    rewrite E1. specialize (Hp s1 ci). destruct (p s1 ci) as [o s2 ci2|q|]; [|intro W; destruct (Hp W) as [->| ->]; [left|right]; reflexivity|exact I].
    cbn [brel] in Hp.
    set (s3 := if scope then update_indir s2 (indir ci2) (indir i1) else s2).
    assert ((if scope then update_indir (up s2) (indir ci2) (indir i1) else up s2) = up s3 /\ strace s3 = strace s2) as [E3 E4].
    { unfold s3. destruct scope; [apply update_up|split; reflexivity]. }
    destruct (drop_up s3 ci2) as [E5 E6]. cbn [sh]. rewrite E6, E4, <- E2. eapply over_impl; [|exact Hp].
    intros ->. rewrite E3, E5. reflexivity.
  Qed.
  Lemma brel_block s i src only : brel (block_parse rec s i src only) (block_parse rec' (up s) i src only) s.(strace).
  Proof.
    unfold block_parse. destruct (extract_blocks src); [apply Hrec|]. cbn [brel]. apply over_refl. reflexivity.
  Qed.
  Lemma rsim_child src scope : rsim (child rec src scope) (child rec' src scope).
  Proof.
    intro st. unfold child.
    exact (rsim_with_child scope (fun s i => block_parse rec s i src (only (bf st))) (fun s i => block_parse rec' s i src (only (bf st)))
             (fun s i => brel_block s i src _) st).
  Qed.
  Lemma rsim_with_rec scope c bl o : rsim (with_child scope (fun s i => rec s i c bl o)) (with_child scope (fun s i => rec' s i c bl o)).
  Proof. apply rsim_with_child. intros. apply Hrec. Qed.

  Ltac norm :=
    cbn [in_world e_md5 e_sha256 e_lower e_from_str e_to_string e_to_pretty e_fadd e_parent e_date e_cwd e_tmp
         raised raise_cfg schema indir_store bisf_count sflags exit has_error status_code status_text status_param redirect_js already_js
         cfg lang comments filter_all filter_bifs cache_prefix cache_dir cache_on_post cache_on_get cache_on_cookies cache_disable disable_js
         debug_expire debug_file working_dir];
    cbv zeta.
  Ltac norms :=
    repeat match goal with
    | |- context [data_of (raised ?k ?s)] => change (data_of (raised k s)) with (data_of s)
    | |- context [local_data_of (raised ?k ?s)] => change (local_data_of (raised k s)) with (local_data_of s)
    | |- context [get_indir (raised ?k ?s)] => change (get_indir (raised k s)) with (get_indir s)
    | |- context [get_data_of (raised ?k ?s)] => change (get_data_of (raised k s)) with (get_data_of s)
    | |- context [var_test ?t (raised ?k ?s)] => change (var_test t (raised k s)) with (var_test t s)
    | |- context [cache_bypass (raised ?k ?s)] => change (cache_bypass (raised k s)) with (cache_bypass s)
    | |- context [cache_dir_of (raised ?k ?s)] => change (cache_dir_of (raised k s)) with (cache_dir_of s)
    | |- context [cache_key ?e (raised ?k ?a) (raised ?k ?b)] => change (cache_key e (raised k a) (raised k b)) with (cache_key env a b)
    end; norm.

  Ltac rstep lib :=
    first
      [ lib
      | apply rsim_ret | apply rsim_err | apply rsim_panic
      | apply rsim_read_err; intro
      | apply rsim_exists | apply rsim_is_file | apply rsim_canon | apply rsim_read | apply rsim_mkdir | apply rsim_create
      | apply rsim_write | apply rsim_mtime | apply rsim_age | apply rsim_now | apply rsim_rand_ | apply rsim_rand_bytes
      | apply rsim_python | apply rsim_php
      | apply rsim_lift | apply rsim_need | apply rsim_need_i32 | apply rsim_put_data | apply rsim_moveto_ | apply rsim_upd_local
      | apply rsim_create_schema | apply rsim_child | apply rsim_with_rec
      | apply rsim_modB | apply rsim_modI | apply rsim_modS; [reflexivity|reflexivity]
      | apply rsim_getB; intros ? | apply rsim_getI; intros ? | apply rsim_getS; intros ?; norms
      | apply rsim_bind; [|intros ?]
      | match goal with
        | |- rsim (if ?x then _ else _) _ => destruct x
        | |- rsim (match ?x with _ => _ end) _ => destruct x
        end ].
  Ltac rall lib := norm; repeat (rstep lib; cbv zeta).

  Lemma rsim_get_data nm : rsim (get_data nm) (get_data nm). Proof. unfold get_data. rall fail. Qed.
  Lemma rsim_get_trans nm : rsim (get_trans nm) (get_trans nm). Proof. unfold get_trans. rall fail. Qed.
  Lemma rsim_no_flags : rsim no_flags no_flags. Proof. unfold no_flags. rall fail. Qed.
  Lemma rsim_check_flags l : rsim (check_flags l) (check_flags l). Proof. unfold check_flags. rall fail. Qed.
  Lemma rsim_reject t : rsim (reject t) (reject t). Proof. unfold reject. rall fail. Qed.
  Lemma rsim_echo : rsim echo_in_cache echo_in_cache. Proof. unfold echo_in_cache, set_out. rall fail. Qed.
  Lemma rsim_redirect_url : rsim redirect_url redirect_url. Proof. unfold redirect_url. rall fail. Qed.
  Lemma rsim_read_or_empty p : rsim (read_or_empty env p) (read_or_empty env' p). Proof. unfold read_or_empty. rall fail. Qed.
  Lemma rsim_expires p n : rsim (cache_file_expires env p n) (cache_file_expires env' p n). Proof. unfold cache_file_expires. rall fail. Qed.
  Lemma rsim_debug_enable : rsim (debug_enable env) (debug_enable env'). Proof. unfold debug_enable. rall fail. Qed.
  Lemma rsim_venv v : rsim (check_venv env v) (check_venv env' v). Proof. unfold check_venv. rall fail. Qed.
  Lemma rsim_merge_data j : rsim (merge_local_data j) (merge_local_data j). Proof. unfold merge_local_data. rall fail. Qed.
  Lemma rsim_merge_locale j : rsim (merge_local_locale j) (merge_local_locale j). Proof. unfold merge_local_locale. rall fail. Qed.
  Lemma rsim_parse_code scope : rsim (parse_code rec scope) (parse_code rec' scope). Proof. unfold parse_code. rall fail. Qed.
  Lemma rsim_extract p : rsim (extract_params_code rec p) (extract_params_code rec' p). Proof. unfold extract_params_code. rall fail. Qed.
  Lemma rsim_parts l : rsim (parse_parts rec l) (parse_parts rec' l).
  Proof. induction l as [|p r IH]; cbn [parse_parts]; [apply rsim_ret|]. rall ltac:(exact IH). Qed.
  Lemma rsim_args : rsim (extract_args rec) (extract_args rec'). Proof. unfold extract_args. rall ltac:(apply rsim_parts). Qed.
  Lemma rsim_resolve : rsim (resolve_file rec) (resolve_file rec'). Proof. unfold resolve_file. rall fail. Qed.
  Lemma rsim_child_in_cache src scope r : rsim (child_in_cache rec src scope r) (child_in_cache rec' src scope r).
  Proof. unfold child_in_cache. rall fail. Qed.
  Lemma rsim_parse_str v : rsim (parse_str_value rec v) (parse_str_value rec' v). Proof. unfold parse_str_value. rall fail. Qed.
  Lemma rsim_obj_values j : forall b, rsim (parse_obj_values rec j b) (parse_obj_values rec' j b).
  Proof.
    induction j as [| | | | |m Hm] using json_ind'; intro ir; cbn [parse_obj_values]; try apply rsim_ret.
    apply rsim_bind; [|intro; apply rsim_ret].
    induction Hm as [|[kk v] r Hv _ IH]; [apply rsim_ret|]. cbn [snd] in Hv.
    apply rsim_bind; [|intro; apply rsim_bind; [exact IH|intro; apply rsim_ret]].
    destruct (obj_file_key kk); [apply rsim_parse_str|].
    destruct (beq kk (B "params") || ir); [|apply rsim_ret].
    destruct v; try apply rsim_parse_str. apply Hv.
  Qed.
  Lemma rsim_each_loop kn vn l bl : rsim (each_loop rec kn vn l bl) (each_loop rec' kn vn l bl).
  Proof.
    induction l as [|[kk v] r IH]; cbn [each_loop]; [apply rsim_ret|]. apply rsim_bind; [|intro; exact IH]. unfold each_iter. rall fail.
  Qed.
  Lemma rsim_for_loop v l bl : rsim (for_loop rec v l bl) (for_loop rec' v l bl).
  Proof.
    induction l as [|z r IH]; cbn [for_loop]; [apply rsim_ret|]. apply rsim_bind; [|intro; exact IH]. unfold for_iter, set_data. rall fail.
  Qed.

  Ltac lib :=
    first [ apply rsim_parse_code | apply rsim_extract | apply rsim_args | apply rsim_resolve | apply rsim_child_in_cache
          | apply rsim_obj_values | apply rsim_each_loop | apply rsim_for_loop | apply rsim_get_data | apply rsim_get_trans
          | apply rsim_no_flags | apply rsim_check_flags | apply rsim_reject | apply rsim_echo | apply rsim_redirect_url
          | apply rsim_read_or_empty | apply rsim_expires | apply rsim_debug_enable | apply rsim_venv | apply rsim_merge_data
          | apply rsim_merge_locale ].
  Ltac rh := unfold set_out, set_data; rall lib.

  Lemma rsim_var : rsim (bif_var rec) (bif_var rec'). Proof. unfold bif_var. rh. Qed.
  Lemma rsim_allow : rsim (bif_allow env rec) (bif_allow env' rec').
  Proof. unfold bif_allow. change (allow_word env') with (allow_word env). rh. Qed.
  Lemma rsim_cond t : rsim (bif_cond rec t) (bif_cond rec' t). Proof. unfold bif_cond. rh. Qed.
  Lemma rsim_compare t : rsim (bif_compare rec t) (bif_compare rec' t). Proof. unfold bif_compare. rh. Qed.
  Lemma rsim_coalesce : rsim (bif_coalesce rec) (bif_coalesce rec'). Proof. unfold bif_coalesce. rh. Qed.
  Lemma rsim_code : rsim (bif_code rec) (bif_code rec'). Proof. unfold bif_code. rh. Qed.
  Lemma rsim_count : rsim (bif_count_ rec) (bif_count_ rec'). Proof. unfold bif_count_. rh. Qed.
  Lemma rsim_declare : rsim (bif_declare rec) (bif_declare rec'). Proof. unfold bif_declare. rh. Qed.
  Lemma rsim_each : rsim (bif_each rec) (bif_each rec'). Proof. unfold bif_each. rh. Qed.
  Lemma rsim_else : rsim (bif_else rec) (bif_else rec'). Proof. unfold bif_else. rh. Qed.
  Lemma rsim_eval : rsim (bif_eval rec) (bif_eval rec'). Proof. unfold bif_eval. rh. Qed.
  Lemma rsim_exit : rsim (bif_exit rec) (bif_exit rec'). Proof. unfold bif_exit. rh. Qed.
  Lemma rsim_fetch : rsim (bif_fetch rec) (bif_fetch rec'). Proof. unfold bif_fetch. rh. Qed.
  Lemma rsim_flg : rsim (bif_flg rec) (bif_flg rec'). Proof. unfold bif_flg. rh. Qed.
  Lemma rsim_for : rsim (bif_for rec) (bif_for rec'). Proof. unfold bif_for. rh. Qed.
  Lemma rsim_hash : rsim (bif_hash env rec) (bif_hash env' rec'). Proof. unfold bif_hash. rh. Qed.
  Lemma rsim_include : rsim (bif_include env rec) (bif_include env' rec'). Proof. unfold bif_include. rh. Qed.
  Lemma rsim_data : rsim (bif_data env rec) (bif_data env' rec'). Proof. unfold bif_data. rh. Qed.
  Lemma rsim_locale : rsim (bif_locale env rec) (bif_locale env' rec'). Proof. unfold bif_locale. rh. Qed.
  Lemma rsim_date : rsim (bif_date env rec) (bif_date env' rec'). Proof. unfold bif_date. rh. Qed.
  Lemma rsim_debug : rsim (bif_debug env rec) (bif_debug env' rec'). Proof. unfold bif_debug. rh. Qed.
  Lemma rsim_join : rsim (bif_join rec) (bif_join rec'). Proof. unfold bif_join. rh. Qed.
  Lemma rsim_lang : rsim bif_lang bif_lang. Proof. unfold bif_lang. rh. Qed.
  Lemma rsim_moveto : rsim (bif_moveto env rec) (bif_moveto env' rec'). Proof. unfold bif_moveto. rh. Qed.
  Lemma rsim_neutral : rsim bif_neutral bif_neutral. Proof. unfold bif_neutral. rh. Qed.
  Lemma rsim_param : rsim (bif_param rec) (bif_param rec'). Proof. unfold bif_param. rh. Qed.
  Lemma rsim_rand : rsim (bif_rand env rec) (bif_rand env' rec'). Proof. unfold bif_rand. rh. Qed.
  Lemma rsim_redirect : rsim (bif_redirect rec) (bif_redirect rec'). Proof. unfold bif_redirect. rh. Qed.
  Lemma rsim_replace : rsim (bif_replace rec) (bif_replace rec'). Proof. unfold bif_replace. rh. Qed.
  Lemma rsim_snippet : rsim (bif_snippet rec) (bif_snippet rec'). Proof. unfold bif_snippet. rh. Qed.
  Lemma rsim_sum : rsim (bif_sum env rec) (bif_sum env' rec'). Proof. unfold bif_sum. rh. Qed.
  Lemma rsim_trans : rsim (bif_trans rec) (bif_trans rec'). Proof. unfold bif_trans. rh. Qed.
  Lemma rsim_unknown : rsim bif_unknown bif_unknown. Proof. unfold bif_unknown. rh. Qed.
  Lemma rsim_cache : rsim (bif_cache env rec) (bif_cache env' rec'). Proof. unfold bif_cache. rh. Qed.
  Lemma rsim_obj : rsim (bif_obj env rec) (bif_obj env' rec'). Proof. unfold bif_obj. rh. Qed.

  Lemma rsim_dispatch nm : rsim (dispatch env rec nm) (dispatch env' rec' nm).
  Proof.
    assert (Forall2 (fun a b => fst a = fst b /\ rsim (snd a) (snd b)) (handlers env rec) (handlers env' rec')) as H.
    { unfold handlers, bif_array, bif_bool, bif_defined, bif_filled, bif_same, bif_contains.
      repeat (apply Forall2_cons; [cbn [fst snd]; split; [reflexivity|]|]); [..|apply Forall2_nil].
      - apply rsim_var.
      - apply rsim_allow.
      - apply rsim_cond.
      - apply rsim_cond.
      - apply rsim_cache.
      - apply rsim_coalesce.
      - apply rsim_code.
      - apply rsim_compare.
      - apply rsim_count.
      - apply rsim_data.
      - apply rsim_date.
      - apply rsim_declare.
      - apply rsim_cond.
      - apply rsim_each.
      - apply rsim_else.
      - apply rsim_eval.
      - apply rsim_exit.
      - apply rsim_fetch.
      - apply rsim_cond.
      - apply rsim_flg.
      - apply rsim_for.
      - apply rsim_hash.
      - apply rsim_include.
      - apply rsim_join.
      - apply rsim_lang.
      - apply rsim_locale.
      - apply rsim_moveto.
      - apply rsim_neutral.
      - apply rsim_param.
      - apply rsim_rand.
      - apply rsim_redirect.
      - apply rsim_replace.
      - apply rsim_compare.
      - apply rsim_snippet.
      - apply rsim_snippet.
      - apply rsim_sum.
      - apply rsim_trans.
      - apply rsim_obj.
      - apply rsim_debug. }
    unfold dispatch. induction H as [|[a h] [a' h'] r r' [E H] _ IH]; cbn [lookup_handler]; [apply rsim_unknown|].
    cbn [fst snd] in *. subst a'. destruct (beq nm a); [exact H|exact IH].
  Qed.

  Lemma brel_result (r r' : Res unit) t :
    match r with
    | Done a st1 => over t st1.(sh).(strace) (r' = Done a (upt st1))
    | Fail e st1 => over t st1.(sh).(strace) (r' = Fail e (upt st1))
    | Panic p => w = env -> p = PBifLimit \/ r' = Panic p
    | NoFuel => True
    end -> brel (bif_result env r) (bif_result env' r') t.
  Proof.
    destruct r as [a st1|e st1|p|]; cbn [bif_result]; [| | |intros; exact I].
    - intro H. unfold bif_finish. cbn [brel]. eapply over_impl; [|exact H]. intros ->. reflexivity.
    - intro H. destruct (show_error (sh st1)) as [b|] eqn:ES;
        [|intro W; right; rewrite (over_same _ _ _ H W); cbn [bif_result]; change (show_error (sh (upt st1))) with (show_error (sh st1)); rewrite ES; reflexivity]. unfold bif_finish. cbn [brel sh].
      set (n := e_local_now env (strace (sh st1))).
      assert (over (strace (sh st1)) (strace (push_error (error_line n e) (add_event (EvLocalNow n) (sh st1)))) (e_local_now w (strace (sh st1)) = n)) as O.
      { exists [EvLocalNow n]. split; [reflexivity|]. split; [apply replays_one; reflexivity|]. intro R. apply replays_one in R. exact R. }
      eapply over_impl; [|exact (over_trans _ _ _ _ _ H O)]. intros [-> E]. cbn [bif_result].
      change (show_error (sh (upt st1))) with (show_error (sh st1)). rewrite ES. unfold bif_finish. cbn [upt sh inh bf strace raised in_world e_local_now].
      rewrite E. reflexivity.
    - intros H W. destruct (H W) as [->| ->]; [left|right]; reflexivity.
  Qed.

  Lemma brel_bif s i braw bonly : brel (bif_run env rec s i braw bonly) (bif_run env' rec' (up s) i braw bonly) s.(strace).
  Proof.
    unfold bif_run. cbn [raised bisf_count cfg raise_cfg bisf_max]. destruct (bisf_max (cfg s) <? bisf_count s + 1)%N eqn:EL; [intros _; left; reflexivity|].
    apply N.ltb_ge in EL. assert ((bisf_max (cfg s) + k <? bisf_count s + 1)%N = false) as -> by (apply N.ltb_ge; lia).
    set (s1 := set_bisf_count (bisf_count s + 1) s). change (set_bisf_count (bisf_count s + 1) (up s)) with (up s1).
    change (strace s) with (strace s1). clearbody s1. set (i1 := iset_bif_count _ _). clearbody i1. clear EL s i. unfold bif_parse.
    destruct (split_once (B ";") _) as [[nm rest]|].
    - destruct (negb (is_empty bonly) && negb (contains bonly nm) && negb (in_only i1)); [apply over_refl; reflexivity|].
      destruct (scan_modifiers nm false false false false) as [[nm' [[[f g] u] p]]|]; [|intros _; right; reflexivity].
      set (b := bset_mods f g u p _). apply brel_result.
      pose proof (rsim_dispatch nm' (mkSt s1 (iset_in_only true i1) b)) as H. exact H.
    - destruct (negb (is_empty bonly)); [apply over_refl; reflexivity|]. change (show_error (up s1)) with (show_error s1).
      destruct (show_error s1); [|intros _; right; reflexivity]. apply over_refl. reflexivity.
  Qed.

  Lemma brel_loop source bonly bl : forall s i prev acc,
    brel (blocks_loop env rec s i source prev acc bl bonly) (blocks_loop env' rec' (up s) i source prev acc bl bonly) s.(strace).
  Proof.
    induction bl as [|[a z] r IH]; intros s i prev acc; cbn [blocks_loop raised exit]; [apply over_refl; reflexivity|].
    fold (raised k s). destruct (exit s); [apply over_refl; reflexivity|].
    destruct (negb _ && negb _); [|apply IH].
    pose proof (brel_bif s i (slice a z source) bonly) as H.
    destruct (bif_run env rec s i (slice a z source) bonly) as [o s1 i1|p|];
      [|intro W; destruct (H W) as [->| ->]; [left|right]; reflexivity|exact I]. cbn [brel] in H.
    pose proof (IH s1 i1 z ((acc ++ slice prev a source) ++ o)) as H2.
    destruct (blocks_loop env rec s1 i1 source z ((acc ++ slice prev a source) ++ o) r bonly) as [o2 s2 i2|p|];
      [|intro W; rewrite (over_same _ _ _ H W); exact (H2 W)|exact I]. cbn [brel] in *.
    eapply over_impl; [|exact (over_trans _ _ _ _ _ H H2)]. intros [-> E]. exact E.
  Qed.
End Replay.

Lemma brel_blocks env w k n : forall n', n <= n' -> forall s i src bl only,
  brel env w k (run_blocks env n s i src bl only) (run_blocks (in_world env w) n' (raised k s) i src bl only) s.(strace).
Proof.
  induction n as [|n IH]; intros n' L s i src bl only; [exact I|]. destruct n' as [|n']; [lia|]. cbn [run_blocks].
  apply brel_loop. intros. apply IH. lia.
Qed.
Lemma brel_parse env w k s i src only : brel env w k (parse env s i src only) (parse (in_world env w) (raised k s) i src only) s.(strace).
Proof.
  unfold parse, parse_fuel. apply brel_block. intros. apply brel_blocks. unfold enough_fuel. cbn [raised cfg raise_cfg bisf_max bisf_count]. lia.
Qed.
Lemma brel_top env w k s i src only : brel env w k (top_parse env s i src only) (top_parse (in_world env w) (raised k s) i src only) s.(strace).
Proof.
  unfold top_parse. pose proof (brel_parse env w k s (iset_block_count (block_count i + 1) i) src only) as H.
  destruct (parse env s _ src only) as [o s1 i1|p|]; [|intro W; destruct (H W) as [->| ->]; [left|right]; reflexivity|exact I].
  cbn [brel] in *. destruct (drop_up k s1 i1) as [E1 E2]. rewrite E2.
  eapply over_impl; [|exact H]. intros ->. rewrite E1. reflexivity.
Qed.
Lemma rounds_replay env w k i fuel : forall s o o1 s1, cache_rounds env fuel s i o = ROk o1 s1 ->
  over env w s.(strace) s1.(strace) (cache_rounds (in_world env w) fuel (raised k s) i o = ROk o1 (raised k s1)).
Proof.
  induction fuel as [|n IH]; intros s o o1 s1; cbn [cache_rounds]; destruct (contains CACHE_OPEN o); try discriminate.
  - intro H. injection H as <- <-. apply over_refl. reflexivity.
  - pose proof (brel_top env w k s i o (B "!cache")) as H. destruct (top_parse env s i o (B "!cache")) as [o2 s2 i2|p|]; try discriminate.
    intro H2. cbn [brel] in H. eapply over_impl; [|exact (over_trans _ _ _ _ _ _ _ H (IH _ _ _ _ H2))]. intros [-> E]. exact E.
  - intro H. injection H as <- <-. apply over_refl. reflexivity.
Qed.
