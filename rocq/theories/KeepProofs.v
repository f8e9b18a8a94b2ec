(** * What no handler changes: the identity of the bif and of its block *)

From Verif Require Import Bytes Json Utils ConstantsGen State Engine Template Spec SpecEngine BytesFacts FrameProofs.

Definition bkey (b : Bif) := (b.(raw), b.(name), b.(only), (b.(mod_filter), b.(mod_negate), b.(mod_upline), b.(mod_scope))).
Definition ikey (i : Inherit) := (i.(ialias), i.(current_file), i.(block_count), (i.(bif_count), i.(in_only), i.(last_bif_out))).
Definition grows (a b : list bytes) : Prop := exists l, b = a ++ l.
(** no file that has been read is forgotten *)
Definition remembers (i j : Inherit) : Prop :=
  grows i.(include_files) j.(include_files) /\ grows i.(data_files) j.(data_files) /\ grows i.(locale_files) j.(locale_files).
Definition kept (a b : St) : Prop := bkey b.(bf) = bkey a.(bf) /\ ikey b.(inh) = ikey a.(inh) /\ remembers a.(inh) b.(inh).

Lemma grows_refl a : grows a a. Proof. exists []. rewrite app_nil_r. reflexivity. Qed.
Lemma grows_more a x : grows a (a ++ x). Proof. exists x. reflexivity. Qed.
Lemma grows_trans a b c : grows a b -> grows b c -> grows a c.
Proof. intros [x ->] [y ->]. exists (x ++ y). rewrite app_assoc. reflexivity. Qed.
Lemma remembers_refl i : remembers i i. Proof. repeat split; apply grows_refl. Qed.
Lemma remembers_same i j : include_files j = include_files i -> data_files j = data_files i -> locale_files j = locale_files i ->
  remembers i j.
Proof. intros E1 E2 E3. unfold remembers. rewrite E1, E2, E3. repeat split; apply grows_refl. Qed.
Lemma remembers_trans i j k : remembers i j -> remembers j k -> remembers i k.
Proof. intros (A & C & D) (A' & C' & D'). split; [|split]; eapply grows_trans; eassumption. Qed.
Ltac kk := split; [reflexivity|split; [reflexivity|apply remembers_same; reflexivity]].

Section Keep.
  Variable env : Env.
  Variable rec : Shared -> Inherit -> bytes -> list (nat * nat) -> bytes -> BRes.

  Definition keeps {A} (m : M A) : Prop :=
    forall st, match m st with Done _ st' | Fail _ st' => kept st st' | _ => True end.

  Lemma kept_refl st : kept st st. Proof. kk. Qed.
  Lemma kept_trans a b c : kept a b -> kept b c -> kept a c.
  Proof. intros (H1 & H2 & H5) (H3 & H4 & H6). split; [congruence|split; [congruence|eapply remembers_trans; eassumption]]. Qed.

  Lemma kp_ret {A} (x : A) : keeps (ret x). Proof. intro st. apply kept_refl. Qed.
  Lemma kp_bind {A C} (m : M A) (k : A -> M C) : keeps m -> (forall x, keeps (k x)) -> keeps (bind m k).
  Proof.
    intros Hm Hk st. unfold bind. specialize (Hm st). destruct (m st) as [x st1|e st1|p|]; try exact Hm.
    specialize (Hk x st1). destruct (k x st1); try exact Hk; eapply kept_trans; eassumption.
  Qed.
  Lemma kp_getB : keeps getB. Proof. intro st. apply kept_refl. Qed.
  Lemma kp_getI : keeps getI. Proof. intro st. apply kept_refl. Qed.
  Lemma kp_getS : keeps getS. Proof. intro st. apply kept_refl. Qed.
  Lemma kp_modB f : (forall b, bkey (f b) = bkey b) -> keeps (modB f).
  Proof. intros H st. split; [apply H|split; [reflexivity|apply remembers_refl]]. Qed.
  Lemma kp_modI f : (forall i, ikey (f i) = ikey i) -> (forall i, remembers i (f i)) -> keeps (modI f).
  Proof. intros H H2 st. split; [reflexivity|split; [apply H|apply H2]]. Qed.
  Lemma kp_modS f : keeps (modS f). Proof. intro st. kk. Qed.
  Lemma kp_err {A} msg : keeps (@err A msg). Proof. intro st. apply kept_refl. Qed.
  Lemma kp_panic {A} p : keeps (@panicM A p). Proof. intro st. exact I. Qed.
  Lemma kp_lift {A} p (o : option A) : keeps (lift_option p o).
  Proof. destruct o; [apply kp_ret|apply kp_panic]. Qed.
  Lemma kp_ask {A} (f : trace -> A) ev : keeps (ask f ev). Proof. intro st. kk. Qed.
  Lemma kp_need_arg l k msg : keeps (need_arg l k msg).
  Proof. unfold need_arg. destruct (arg l k); [apply kp_ret|apply kp_err]. Qed.
  Lemma kp_need_i32 l k msg : keeps (need_i32 l k msg).
  Proof.
    unfold need_i32. destruct (nth_error l k) as [b|]; [|apply kp_err].
    destruct (parse_i32 b); [apply kp_ret|apply kp_err].
  Qed.
  Lemma kp_put_data nm v : keeps (put_data nm v).
  Proof. intro st. unfold put_data. destruct (upd _ _ _); [kk|exact I]. Qed.
  Lemma kp_moveto to v : keeps (moveto env to v).
  Proof. intro st. unfold moveto. destruct (upd _ _ _); [kk|exact I]. Qed.
  Lemma kp_create : keeps create_schema.
  Proof. intro st. kk. Qed.
  Lemma kp_upd_local f : keeps (upd_local f).
  Proof. intro st. unfold upd_local. destruct (upd_indir _ _ _); [kk|exact I]. Qed.
  Lemma kp_with_child scope p : keeps (with_child scope p).
  Proof.
    intro st. unfold with_child. destruct scope.
    - unfold create_block_schema. destruct (p _ _); [kk|exact I|exact I].
    - destruct (p _ _); [kk|exact I|exact I].
  Qed.
  Lemma kp_child src scope : keeps (child rec src scope).
  Proof. intro st. unfold child. apply kp_with_child. Qed.

  Ltac ok_step :=
    match goal with
    | |- keeps (create_schema) => apply kp_create
    | |- keeps (upd_local _) => apply kp_upd_local
    | |- keeps (modB _) => apply kp_modB; reflexivity
    | |- keeps (modI _) => apply kp_modI; [reflexivity|intro; first [apply remembers_same; reflexivity | split; [|split]; first [apply grows_refl|apply grows_more]]]
    | |- keeps (modS _) => apply kp_modS
    | |- keeps (ret _) => apply kp_ret
    | |- keeps (err _) => apply kp_err
    | |- keeps (ask _ _) => apply kp_ask
    | |- keeps (need_arg _ _ _) => apply kp_need_arg
    | |- keeps (need_i32 _ _ _) => apply kp_need_i32
    | |- keeps (put_data _ _) => apply kp_put_data
    | |- keeps (moveto _ _ _) => apply kp_moveto
    | |- keeps (lift_option _ _) => apply kp_lift
    | |- keeps (panicM _) => apply kp_panic
    | |- keeps (child _ _ _) => apply kp_child
    | |- keeps getB => apply kp_getB
    | |- keeps getI => apply kp_getI
    | |- keeps getS => apply kp_getS
    | |- keeps (bind _ _) => apply kp_bind; [|intros ?]
    | |- keeps (if ?x then _ else _) => destruct x
    | |- keeps (match ?x with _ => _ end) => destruct x
    end.
  Ltac ok_all := cbv zeta; repeat (ok_step; cbv zeta).

  Lemma kp_parse_code scope : keeps (parse_code rec scope).
  Proof. unfold parse_code. ok_all. Qed.

  Lemma kp_extract p : keeps (extract_params_code rec p).
  Proof. unfold extract_params_code. ok_all. Qed.

  Lemma kp_parts l : keeps (parse_parts rec l).
  Proof. induction l as [|p r IH]; cbn [parse_parts]; ok_all. exact IH. Qed.

  Lemma kp_args : keeps (extract_args rec).
  Proof. unfold extract_args. ok_all. apply kp_parts. Qed.

  Lemma kp_get_data nm : keeps (get_data nm).
  Proof. unfold get_data. ok_all. Qed.
  Lemma kp_get_trans nm : keeps (get_trans nm).
  Proof. unfold get_trans. ok_all. Qed.
  Lemma kp_no_flags : keeps no_flags.
  Proof. unfold no_flags. ok_all. Qed.
  Lemma kp_check_flags l : keeps (check_flags l).
  Proof. unfold check_flags. ok_all. Qed.
  Lemma kp_reject t : keeps (reject t).
  Proof. unfold reject. ok_all. Qed.
  Lemma kp_echo : keeps echo_in_cache.
  Proof. unfold echo_in_cache, set_out. ok_all. Qed.

  Lemma kp_resolve : keeps (resolve_file rec).
  Proof. unfold resolve_file. ok_all. Qed.
  Lemma kp_read p : keeps (read_or_empty env p).
  Proof. unfold read_or_empty, ask_read. ok_all. Qed.
  Lemma kp_debug_enable : keeps (debug_enable env).
  Proof. unfold debug_enable, ask_exists, ask_is_file, ask_age. ok_all. Qed.
  Lemma kp_check_venv v : keeps (check_venv env v).
  Proof. unfold check_venv, ask_exists. ok_all. Qed.
  Lemma kp_redirect_url : keeps redirect_url.
  Proof. unfold redirect_url. ok_all. Qed.
  Lemma kp_cache_expires p e : keeps (cache_file_expires env p e).
  Proof. unfold cache_file_expires, ask_now, ask_mtime. ok_all. Qed.
  Lemma kp_child_in_cache src scope r : keeps (child_in_cache rec src scope r).
  Proof. unfold child_in_cache. ok_all. Qed.
  Lemma kp_parse_str v : keeps (parse_str_value rec v).
  Proof. unfold parse_str_value. ok_all. Qed.

  Lemma kp_obj_values j : forall b, keeps (parse_obj_values rec j b).
  Proof.
    induction j as [| | | | |m Hm] using json_ind'; intro ir; cbn [parse_obj_values]; try apply kp_ret.
    apply kp_bind; [|intro; apply kp_ret].
    induction Hm as [|[k v] r Hv _ IH]; [apply kp_ret|].
    apply kp_bind; [|intro; apply kp_bind; [exact IH|intro; apply kp_ret]].
    cbn [snd] in Hv.
    destruct (obj_file_key k); [apply kp_parse_str|].
    destruct (beq k (B "params") || ir); [|apply kp_ret].
    destruct v; try apply kp_parse_str. apply Hv.
  Qed.

  Lemma kp_with_rec scope c bl o : 
    keeps (with_child scope (fun s i => rec s i c bl o)).
  Proof. apply kp_with_child. Qed.

  Lemma kp_each_loop kn vn l bl : keeps (each_loop rec kn vn l bl).
  Proof.
    induction l as [|[k v] r IH]; cbn [each_loop]; [apply kp_ret|]. apply kp_bind; [|intro; exact IH].
    unfold each_iter. ok_all. apply kp_with_rec.
  Qed.
  Lemma kp_for_loop v l bl : keeps (for_loop rec v l bl).
  Proof.
    induction l as [|z r IH]; cbn [for_loop]; [apply kp_ret|]. apply kp_bind; [|intro; exact IH].
    unfold for_iter, set_data. ok_all. apply kp_with_rec.
  Qed.

  Ltac ok_lib :=
    match goal with
    | |- keeps (parse_code _ _) => apply kp_parse_code
    | |- keeps (child_in_cache _ _ _ _) => apply kp_child_in_cache
    | |- keeps (with_child _ _) => apply kp_with_rec
    | |- keeps (extract_params_code _ _) => apply kp_extract
    | |- keeps (extract_args _) => apply kp_args
    | |- keeps (get_data _) => apply kp_get_data
    | |- keeps (get_trans _) => apply kp_get_trans
    | |- keeps (no_flags) => apply kp_no_flags
    | |- keeps (check_flags _) => apply kp_check_flags
    | |- keeps (reject _) => apply kp_reject
    | |- keeps (echo_in_cache) => apply kp_echo
    | |- keeps (resolve_file _) => apply kp_resolve
    | |- keeps (read_or_empty _ _) => apply kp_read
    | |- keeps (debug_enable _) => apply kp_debug_enable
    | |- keeps (check_venv _ _) => apply kp_check_venv
    | |- keeps (redirect_url) => apply kp_redirect_url
    | |- keeps (cache_file_expires _ _ _) => apply kp_cache_expires
    | |- keeps (parse_obj_values _ _ _) => apply kp_obj_values
    | |- keeps (each_loop _ _ _ _ _) => apply kp_each_loop
    | |- keeps (for_loop _ _ _ _) => apply kp_for_loop
    end.
  Ltac ok_handler :=
    unfold set_out, set_data, ask_exists, ask_canon, ask_read, ask_mkdir, ask_create, ask_write,
      ask_now, ask_rand, ask_rand_bytes, ask_python, ask_php;
    cbv zeta; repeat (first [ok_lib | ok_step]; cbv zeta).

  Lemma kp_var : keeps (bif_var rec). Proof. unfold bif_var. ok_handler. Qed.
  Lemma kp_allow : keeps (bif_allow env rec). Proof. unfold bif_allow. ok_handler. Qed.
  Lemma kp_cond t : keeps (bif_cond rec t). Proof. unfold bif_cond. ok_handler. Qed.
  Lemma kp_compare t : keeps (bif_compare rec t). Proof. unfold bif_compare. ok_handler. Qed.
  Lemma kp_coalesce : keeps (bif_coalesce rec). Proof. unfold bif_coalesce. ok_handler. Qed.
  Lemma kp_code : keeps (bif_code rec). Proof. unfold bif_code. ok_handler. Qed.
  Lemma kp_count : keeps (bif_count_ rec). Proof. unfold bif_count_. ok_handler. Qed.
  Lemma kp_each : keeps (bif_each rec). Proof. unfold bif_each. ok_handler. Qed.
  Lemma kp_else : keeps (bif_else rec). Proof. unfold bif_else. ok_handler. Qed.
  Lemma kp_eval : keeps (bif_eval rec). Proof. unfold bif_eval. ok_handler. Qed.
  Lemma kp_exit : keeps (bif_exit rec). Proof. unfold bif_exit. ok_handler. Qed.
  Lemma kp_fetch : keeps (bif_fetch rec). Proof. unfold bif_fetch. ok_handler. Qed.
  Lemma kp_flg : keeps (bif_flg rec). Proof. unfold bif_flg. ok_handler. Qed.
  Lemma kp_for : keeps (bif_for rec). Proof. unfold bif_for. ok_handler. Qed.
  Lemma kp_hash : keeps (bif_hash env rec). Proof. unfold bif_hash. ok_handler. Qed.
  Lemma kp_date : keeps (bif_date env rec). Proof. unfold bif_date. ok_handler. Qed.
  Lemma kp_debug : keeps (bif_debug env rec). Proof. unfold bif_debug. ok_handler. Qed.
  Lemma kp_join : keeps (bif_join rec). Proof. unfold bif_join. ok_handler. Qed.
  Lemma kp_lang : keeps bif_lang. Proof. unfold bif_lang. ok_handler. Qed.
  Lemma kp_bif_moveto : keeps (bif_moveto env rec). Proof. unfold bif_moveto. ok_handler. Qed.
  Lemma kp_neutral : keeps bif_neutral. Proof. unfold bif_neutral. ok_handler. Qed.
  Lemma kp_rand : keeps (bif_rand env rec). Proof. unfold bif_rand. ok_handler. Qed.
  Lemma kp_redirect : keeps (bif_redirect rec). Proof. unfold bif_redirect. ok_handler. Qed.
  Lemma kp_replace : keeps (bif_replace rec). Proof. unfold bif_replace. ok_handler. Qed.
  Lemma kp_sum : keeps (bif_sum env rec). Proof. unfold bif_sum. ok_handler. Qed.
  Lemma kp_trans : keeps (bif_trans rec). Proof. unfold bif_trans. ok_handler. Qed.
  Lemma kp_unknown : keeps bif_unknown. Proof. unfold bif_unknown. ok_handler. Qed.
  Lemma kp_obj : keeps (bif_obj env rec). Proof. unfold bif_obj. ok_handler. Qed.


  Lemma kp_cache : keeps (bif_cache env rec). Proof. unfold bif_cache. ok_handler. Qed.
  Lemma kp_declare : keeps (bif_declare rec). Proof. unfold bif_declare. ok_handler. Qed.
  Lemma kp_merge_data j : keeps (merge_local_data j). Proof. unfold merge_local_data. ok_handler. Qed.
  Lemma kp_merge_locale j : keeps (merge_local_locale j). Proof. unfold merge_local_locale. ok_handler. Qed.
  Lemma kp_data : keeps (bif_data env rec).
  Proof. unfold bif_data. ok_handler; apply kp_merge_data. Qed.
  Lemma kp_locale : keeps (bif_locale env rec).
  Proof. unfold bif_locale. ok_handler; apply kp_merge_locale. Qed.
  Lemma kp_include : keeps (bif_include env rec). Proof. unfold bif_include. ok_handler. Qed.
  Lemma kp_param : keeps (bif_param rec). Proof. unfold bif_param. ok_handler. Qed.
  Lemma kp_snippet : keeps (bif_snippet rec). Proof. unfold bif_snippet. ok_handler. Qed.

  Lemma kp_dispatch nm : keeps (dispatch env rec nm).
  Proof.
    unfold dispatch, handlers, lookup_handler, bif_array, bif_bool, bif_defined, bif_filled, bif_same, bif_contains.
    repeat match goal with
    | |- keeps (if ?x then _ else _) => destruct x
    end;
    first [apply kp_var|apply kp_allow|apply kp_cond|apply kp_cache|apply kp_coalesce|apply kp_code|apply kp_compare
      |apply kp_count|apply kp_data|apply kp_date|apply kp_declare|apply kp_each|apply kp_else|apply kp_eval|apply kp_exit
      |apply kp_fetch|apply kp_flg|apply kp_for|apply kp_hash|apply kp_include|apply kp_join|apply kp_lang|apply kp_locale
      |apply kp_bif_moveto|apply kp_neutral|apply kp_param|apply kp_rand|apply kp_redirect|apply kp_replace|apply kp_snippet
      |apply kp_sum|apply kp_trans|apply kp_obj|apply kp_debug|apply kp_unknown].
  Qed.
End Keep.
