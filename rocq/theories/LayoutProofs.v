(** * The source text of a bif matters only through its parts

    Two evaluations of a bif whose texts have the same modifiers, parameters and code run in step; only the quoted
    source in an error line is different. *)

From Verif Require Import Bytes Json Utils ConstantsGen State Engine Template Spec SpecEngine SpecLayout BytesFacts BlockProofs FrameProofs FrameRun TemplateProofs WordProofs EvalProofs HandlerProofs PropertiesObj.

(** two trimmed sources with the same parts *)
Definition same_src (a b : bytes) : Prop :=
  contains BIF_CODE a = true /\ contains BIF_CODE b = true /\
  exists p q, get_code_position a = Some p /\ get_code_position b = Some q /\
    trim (firstn p a) = trim (firstn q b) /\ trim (skipn (p + 2) a) = trim (skipn (q + 2) b).

Definition twin (r : bytes) (x : option bytes) (b : Bif) : Bif :=
  mkBif r (match x with Some y => y | None => b.(src) end) b.(name) b.(alias) b.(code) b.(params) b.(bflags)
    b.(mod_filter) b.(mod_negate) b.(mod_upline) b.(mod_scope) b.(file_path) b.(dir) b.(out) b.(only).
Definition tw r x (st : St) : St := mkSt st.(sh) st.(inh) (twin r x st.(bf)).

Section Twin.
  Variable env : Env.
  Variable rec : Shared -> Inherit -> bytes -> list (nat * nat) -> bytes -> BRes.
  Variable r0 r : bytes.
  Variable x : option bytes.

  Definition holds (c : option bool) (st : St) : Prop :=
    st.(bf).(raw) = r0 /\ match x with Some y => same_src st.(bf).(src) y | None => True end
    /\ match c with Some v => st.(inh).(in_cache) = v | None => True end.

  Definition tsim (c c' : option bool) {A} (m : M A) : Prop :=
    forall st, holds c st ->
      match m st with
      | Done a st1 => m (tw r x st) = Done a (tw r x st1) /\ holds c' st1
      | Fail e st1 => e = mkErr e.(er_msg) st1.(inh).(current_file) e.(er_name) r0
                      /\ m (tw r x st) = Fail (mkErr e.(er_msg) e.(er_file) e.(er_name) r) (tw r x st1)
      | Panic p => m (tw r x st) = Panic p
      | NoFuel => m (tw r x st) = NoFuel
      end.

  Lemma holds_weak c st : holds c st -> holds None st.
  Proof. intros (H & H1 & _). repeat split; assumption. Qed.
  Lemma tsim_pre c c' {A} (m : M A) : tsim None c' m -> tsim c c' m.
  Proof. intros H st HS. apply H. eapply holds_weak. exact HS. Qed.
  Lemma tsim_post c c' {A} (m : M A) : tsim c c' m -> tsim c None m.
  Proof.
    intros H st HS. specialize (H st HS). destruct (m st); try assumption. destruct H as [E HS1]. split; [exact E|].
    eapply holds_weak. exact HS1.
  Qed.

  Lemma tsim_bind c c1 c' {A C} (m : M A) (k : A -> M C) : tsim c c1 m -> (forall a, tsim c1 c' (k a)) -> tsim c c' (bind m k).
  Proof.
    intros Hm Hk st HS. unfold bind. specialize (Hm st HS). destruct (m st) as [a st1|e st1|p|].
    - destruct Hm as [E HS1]. rewrite E. apply Hk. exact HS1.
    - destruct Hm as [E1 E]. rewrite E. split; [exact E1|reflexivity].
    - rewrite Hm. reflexivity.
    - rewrite Hm. reflexivity.
  Qed.
  Lemma tsim_getB c c' {C} (k : Bif -> M C) :
    (forall b, k (twin r x b) = k b) -> (forall b, tsim c c' (k b)) -> tsim c c' (bind getB k).
  Proof. intros E H st HS. unfold bind, getB. cbn [bf tw]. rewrite E. apply H. exact HS. Qed.
  Lemma tsim_getI c c' {C} (k : Inherit -> M C) :
    (forall i, match c with Some v => in_cache i = v | None => True end -> tsim c c' (k i)) -> tsim c c' (bind getI k).
  Proof. intros H st HS. unfold bind, getI. cbn [inh tw]. apply H; [apply HS|exact HS]. Qed.
  Lemma tsim_getS c c' {C} (k : Shared -> M C) : (forall s, tsim c c' (k s)) -> tsim c c' (bind getS k).
  Proof. intros H st HS. unfold bind, getS. cbn [sh tw]. apply H. exact HS. Qed.
  Lemma tsim_ret c {A} (a : A) : tsim c c (ret a).
  Proof. intros st HS. split; [reflexivity|exact HS]. Qed.
  Lemma tsim_err c c' {A} msg : tsim c c' (@err A msg).
  Proof. intros st (H & _). unfold err. cbn. rewrite H. split; reflexivity. Qed.
  Lemma tsim_panic c c' {A} p : tsim c c' (@panicM A p).
  Proof. intros st HS. reflexivity. Qed.
  Lemma tsim_modB c f : (forall b, raw (f b) = raw b) -> (forall b, src (f b) = src b) ->
    (forall b, f (twin r x b) = twin r x (f b)) -> tsim c c (modB f).
  Proof.
    intros Hr Hs Ht st (H1 & H2 & H3). unfold modB, tw. cbn. rewrite Ht. split; [reflexivity|].
    unfold holds. cbn. rewrite Hr, Hs. repeat split; assumption.
  Qed.
  Lemma tsim_modI c f : (forall i, in_cache (f i) = in_cache i) -> tsim c c (modI f).
  Proof. intros Hi st (H1 & H2 & H3). split; [reflexivity|]. unfold holds. cbn. rewrite Hi. repeat split; assumption. Qed.
  Lemma tsim_modIc c v : tsim c (Some v) (modI (iset_in_cache v)).
  Proof. intros st (H1 & H2 & H3). split; [reflexivity|]. unfold holds. cbn. repeat split; assumption. Qed.
  Lemma tsim_modS c f : tsim c c (modS f).
  Proof. intros st HS. split; [reflexivity|exact HS]. Qed.
  Lemma tsim_ask c {A} (q : trace -> A) ev : tsim c c (ask q ev).
  Proof. intros st HS. split; [reflexivity|exact HS]. Qed.

  Lemma create_in_cache s i : in_cache (snd (create_block_schema s i)) = in_cache i.
  Proof. unfold create_block_schema. destruct (beq _ _); reflexivity. Qed.
  Lemma tsim_create c : tsim c c create_schema.
  Proof.
    intros st (H1 & H2 & H3). unfold create_schema. cbn [tw sh inh bf].
    pose proof (create_in_cache (sh st) (inh st)) as E. destruct (create_block_schema (sh st) (inh st)) as [s i]. cbn in E.
    split; [reflexivity|]. unfold holds. cbn. rewrite E. repeat split; assumption.
  Qed.
  Lemma tsim_upd_local c f : tsim c c (upd_local f).
  Proof. intros st HS. unfold upd_local. cbn [tw sh inh bf]. destruct (upd_indir _ _ _); [|reflexivity]. split; [reflexivity|exact HS]. Qed.
  Lemma tsim_put_data c nm v : tsim c c (put_data nm v).
  Proof. intros st HS. unfold put_data. cbn [tw sh inh bf]. destruct (upd _ _ _); [|reflexivity]. split; [reflexivity|exact HS]. Qed.
  Lemma tsim_moveto c to cd : tsim c c (moveto env to cd).
  Proof. intros st HS. unfold moveto. cbn [tw sh inh bf]. destruct (upd _ _ _); [|reflexivity]. split; [reflexivity|exact HS]. Qed.

  Lemma tsim_with_child c scope p : tsim c c (with_child scope p).
  Proof.
    intros st (H1 & H2 & H3). unfold with_child. cbn [tw sh inh bf twin alias file_path dir].
    set (ci := iset_block_count _ _).
    assert (in_cache (snd (if scope then create_block_schema (sh st) (inh st) else (sh st, inh st))) = in_cache (inh st)) as E.
    { destruct scope; [apply create_in_cache|reflexivity]. }
    destruct (if scope then create_block_schema (sh st) (inh st) else (sh st, inh st)) as [s1 i1]. cbn in E.
    destruct (p s1 ci) as [o s2 ci2|q|]; [|reflexivity|reflexivity]. split; [reflexivity|].
    unfold holds. cbn. rewrite E. repeat split; assumption.
  Qed.
  Lemma tsim_child c s scope : tsim c c (child rec s scope).
  Proof. intros st HS. unfold child. cbn [tw bf twin only]. apply (tsim_with_child c scope (fun s0 i => block_parse rec s0 i s (only (bf st))) st HS). Qed.

  Ltac lift_case := match goal with |- tsim _ _ (lift_option _ ?o) => destruct o; [apply tsim_ret|apply tsim_panic] end.
  Ltac step lib :=
    first
      [ lib
      | match goal with
        | |- tsim _ _ (ret _) => apply tsim_ret
        | |- tsim _ _ (err _) => apply tsim_err
        | |- tsim _ _ (panicM _) => apply tsim_panic
        | |- tsim _ _ (modS _) => apply tsim_modS
        | |- tsim _ _ (ask _ _) => apply tsim_ask
        | |- tsim _ _ create_schema => apply tsim_create
        | |- tsim _ _ (upd_local _) => apply tsim_upd_local
        | |- tsim _ _ (put_data _ _) => apply tsim_put_data
        | |- tsim _ _ (moveto _ _ _) => apply tsim_moveto
        | |- tsim _ _ (child _ _ _) => apply tsim_child
        | |- tsim _ _ (with_child _ _) => apply tsim_with_child
        | |- tsim _ _ (modB _) => apply tsim_modB; intro; first [reflexivity | solve [match goal with H : x = None |- _ => unfold twin; rewrite H; reflexivity end]]
        | |- tsim _ _ (modI _) => apply tsim_modI; intro; reflexivity
        | |- tsim _ _ (lift_option _ _) => lift_case
        | |- tsim _ _ (bind getB _) => apply tsim_getB; [intro; first [reflexivity | solve [match goal with H : x = None |- _ => unfold twin; rewrite H; reflexivity end]]|intro]
        | |- tsim _ _ (bind getI _) => apply tsim_getI; intros ? ?
        | |- tsim _ _ (bind getS _) => apply tsim_getS; intro
        | |- tsim _ _ (bind _ _) => eapply tsim_bind; [|intro]
        | |- tsim _ _ (if ?z then _ else _) => destruct z
        | |- tsim _ _ (match ?z with _ => _ end) => destruct z
        | |- tsim _ _ (let '(_, _) := ?z in _) => destruct z
        end ].
  Ltac all lib := cbv zeta; repeat (step lib; cbv zeta).

  Lemma tsim_parse_code c sc : tsim c c (parse_code rec sc).
  Proof. unfold parse_code. all fail. Qed.
  Lemma tsim_parts c l : tsim c c (parse_parts rec l).
  Proof. induction l as [|p t IH]; cbn [parse_parts]; [apply tsim_ret|]. all ltac:(exact IH). Qed.
  Lemma tsim_args c : tsim c c (extract_args rec).
  Proof. unfold extract_args. all ltac:(apply tsim_parts). Qed.
  Lemma tsim_get_data c nm : tsim c c (get_data nm).
  Proof. unfold get_data. all fail. Qed.
  Lemma tsim_get_trans c nm : tsim c c (get_trans nm).
  Proof. unfold get_trans. all fail. Qed.
  Lemma tsim_need_arg c l i m : tsim c c (need_arg l i m).
  Proof. unfold need_arg. all fail. Qed.
  Lemma tsim_need_i32 c l i m : tsim c c (need_i32 l i m).
  Proof. unfold need_i32. all fail. Qed.
  Lemma tsim_no_flags c : tsim c c no_flags.
  Proof. unfold no_flags. all fail. Qed.
  Lemma tsim_check_flags c l : tsim c c (check_flags l).
  Proof. unfold check_flags. all fail. Qed.
  Lemma tsim_reject c t : (forall b, t (twin r x b) = t b) -> tsim c c (reject t).
  Proof. intro H. unfold reject. apply tsim_getB; [intro; rewrite H; reflexivity|intro]. all fail. Qed.
  Lemma tsim_resolve c : tsim c c (resolve_file rec).
  Proof. unfold resolve_file. all fail. Qed.
  Lemma tsim_read c p : tsim c c (read_or_empty env p).
  Proof. unfold read_or_empty, ask_read. all fail. Qed.

  Definition cut : M bool := fun st =>
    match get_code_position (src (bf st)) with
    | Some p => Done true (mkSt (sh st) (inh st) (bset_code (trim (skipn (p + 2) (src (bf st)))) (bset_params (trim (firstn p (src (bf st)))) (bf st))))
    | None => Done false (mkSt (sh st) (inh st) (bset_code (trim (src (bf st))) (bset_params [] (bf st))))
    end.
  Lemma extract_cut p st : extract_params_code rec p st
    = bind cut (fun a => b <- getB ;;
        (if p && contains BIF_OPEN b.(params) then
           modS (set_sflags []) ;;;
           p <- child rec b.(params) false ;;
           modB (bset_params p) ;;;
           s <- getS ;;
           modB (bset_flags s.(sflags))
         else ret tt) ;;;
        ret a) st.
  Proof.
    transitivity (match cut st with
      | Done a st' => (b <- getB ;;
        (if p && contains BIF_OPEN b.(params) then
           modS (set_sflags []) ;;;
           p <- child rec b.(params) false ;;
           modB (bset_params p) ;;;
           s <- getS ;;
           modB (bset_flags s.(sflags))
         else ret tt) ;;;
        ret a) st'
      | Fail e st' => Fail e st' | Panic q => Panic q | NoFuel => NoFuel end); [|reflexivity].
    unfold extract_params_code, cut. unfold bind at 1, getB at 1. cbv zeta.
    destruct (get_code_position (src (bf st))); reflexivity.
  Qed.
  Lemma tsim_cut c : tsim c c cut.
  Proof.
    intros st HS. unfold cut. cbn [tw bf]. destruct HS as (H1 & H2 & H3). unfold holds, tw, twin. cbn [src].
    destruct x as [y|].
    - destruct H2 as (C1 & C2 & p1 & p2 & E1 & E2 & ET & EC). rewrite E1, E2.
      cbn. rewrite ET, EC. split; [reflexivity|]. repeat split; try assumption. exists p1, p2. auto.
    - destruct (get_code_position (src (bf st))); cbn; (split; [reflexivity|repeat split; assumption]).
  Qed.
  Lemma tsim_extract c p : tsim c c (extract_params_code rec p).
  Proof.
    intros st HS. rewrite !extract_cut. revert st HS. change (tsim c c (bind cut (fun a => b <- getB ;;
        (if p && contains BIF_OPEN b.(params) then
           modS (set_sflags []) ;;;
           p <- child rec b.(params) false ;;
           modB (bset_params p) ;;;
           s <- getS ;;
           modB (bset_flags s.(sflags))
         else ret tt) ;;;
        ret a))). eapply tsim_bind; [apply tsim_cut|intro]. all fail.
  Qed.
  Lemma tsim_parse_str c v : tsim c c (parse_str_value rec v).
  Proof. unfold parse_str_value. all fail. Qed.
  Lemma tsim_obj_values c j : forall b, tsim c c (parse_obj_values rec j b).
  Proof.
    induction j as [| | | | |m Hm] using json_ind'; intro ir; cbn [parse_obj_values]; try apply tsim_ret.
    eapply tsim_bind; [|intro; apply tsim_ret].
    induction Hm as [|[k v] t Hv _ IH]; [apply tsim_ret|]. cbn [snd] in Hv.
    eapply tsim_bind; [|intro; eapply tsim_bind; [exact IH|intro; apply tsim_ret]].
    destruct (obj_file_key k); [apply tsim_parse_str|].
    destruct (beq k (B "params") || ir); [|apply tsim_ret].
    destruct v; try apply tsim_parse_str. apply Hv.
  Qed.
  Lemma tsim_each_loop c kn vn l bl : tsim c c (each_loop rec kn vn l bl).
  Proof. induction l as [|[k v] t IH]; cbn [each_loop]; [apply tsim_ret|]. unfold each_iter. all ltac:(exact IH). Qed.
  Lemma tsim_for_loop c v l bl : tsim c c (for_loop rec v l bl).
  Proof. induction l as [|z t IH]; cbn [for_loop]; [apply tsim_ret|]. unfold for_iter, set_data. all ltac:(exact IH). Qed.
  Lemma tsim_expires c p n : tsim c c (cache_file_expires env p n).
  Proof. unfold cache_file_expires, ask_now, ask_mtime. all fail. Qed.
  Lemma tsim_debug_enable c : tsim c c (debug_enable env).
  Proof. unfold debug_enable, ask_exists, ask_is_file, ask_age. all fail. Qed.
  Lemma tsim_check_venv c v : tsim c c (check_venv env v).
  Proof. unfold check_venv, ask_exists. all fail. Qed.
  Lemma tsim_redirect_url c : tsim c c redirect_url.
  Proof. unfold redirect_url. all fail. Qed.
  (** outside a cache block nothing of the source is copied *)
  Lemma tsim_echo : tsim (Some false) (Some false) echo_in_cache.
  Proof.
    intros st (H1 & H2 & H3). unfold echo_in_cache, bind, getI, getB, set_out, modB. cbn [tw bf inh sh]. rewrite H3.
    split; [reflexivity|]. unfold holds. cbn. repeat split; assumption.
  Qed.
  Lemma tsim_child_in_cache c s sc v : tsim c (Some v) (child_in_cache rec s sc v).
  Proof.
    unfold child_in_cache. eapply tsim_bind; [apply tsim_modIc|intro]. eapply tsim_bind; [apply tsim_child|intro].
    eapply tsim_bind; [apply tsim_modIc|intro]. apply tsim_ret.
  Qed.

  Ltac lib := idtac;
    match goal with
    | |- tsim _ _ (parse_code _ _) => apply tsim_parse_code
    | |- tsim _ _ (extract_params_code _ _) => apply tsim_extract
    | |- tsim _ _ (extract_args _) => apply tsim_args
    | |- tsim _ _ (get_data _) => apply tsim_get_data
    | |- tsim _ _ (get_trans _) => apply tsim_get_trans
    | |- tsim _ _ (need_arg _ _ _) => apply tsim_need_arg
    | |- tsim _ _ (need_i32 _ _ _) => apply tsim_need_i32
    | |- tsim _ _ no_flags => apply tsim_no_flags
    | |- tsim _ _ (check_flags _) => apply tsim_check_flags
    | |- tsim _ _ (reject _) => apply tsim_reject; intro; reflexivity
    | |- tsim _ _ (resolve_file _) => apply tsim_resolve
    | |- tsim _ _ (read_or_empty _ _) => apply tsim_read
    | |- tsim _ _ (parse_obj_values _ _ _) => apply tsim_obj_values
    | |- tsim _ _ (each_loop _ _ _ _ _) => apply tsim_each_loop
    | |- tsim _ _ (for_loop _ _ _ _) => apply tsim_for_loop
    | |- tsim _ _ (cache_file_expires _ _ _) => apply tsim_expires
    | |- tsim _ _ (debug_enable _) => apply tsim_debug_enable
    | |- tsim _ _ (check_venv _ _) => apply tsim_check_venv
    | |- tsim _ _ redirect_url => apply tsim_redirect_url
    | |- tsim _ _ echo_in_cache => apply tsim_echo
    | |- tsim _ _ (child_in_cache _ _ _ _) => apply tsim_child_in_cache
    end.
  Ltac handler := unfold set_out, set_data, ask_exists, ask_canon, ask_read, ask_mkdir, ask_create, ask_write,
      ask_now, ask_rand, ask_rand_bytes, ask_python, ask_php, merge_local_data, merge_local_locale; all lib.

  (** the bifs with parameters and code *)
  Lemma tsim_allow c : tsim c c (bif_allow env rec). Proof. unfold bif_allow. handler. Qed.
  Lemma tsim_cond c t : tsim c c (bif_cond rec t). Proof. unfold bif_cond. handler. Qed.
  Lemma tsim_compare c t : tsim c c (bif_compare rec t). Proof. unfold bif_compare. handler. Qed.
  Lemma tsim_code c : tsim c c (bif_code rec). Proof. unfold bif_code. handler. Qed.
  Lemma tsim_count c : tsim c c (bif_count_ rec). Proof. unfold bif_count_. handler. Qed.
  Lemma tsim_declare c : tsim c c (bif_declare rec). Proof. unfold bif_declare. handler. Qed.
  Lemma tsim_each c : tsim c c (bif_each rec). Proof. unfold bif_each. handler. Qed.
  Lemma tsim_else c : tsim c c (bif_else rec). Proof. unfold bif_else. handler. Qed.
  Lemma tsim_eval c : tsim c c (bif_eval rec). Proof. unfold bif_eval. handler. Qed.
  Lemma tsim_exit : tsim (Some false) (Some false) (bif_exit rec). Proof. unfold bif_exit. handler. Qed.
  Lemma tsim_fetch c : tsim c c (bif_fetch rec). Proof. unfold bif_fetch. handler. Qed.
  Lemma tsim_flg c : tsim c c (bif_flg rec). Proof. unfold bif_flg. handler. Qed.
  Lemma tsim_for c : tsim c c (bif_for rec). Proof. unfold bif_for. handler. Qed.
  Lemma tsim_include c : tsim c c (bif_include env rec). Proof. unfold bif_include. handler. Qed.
  Lemma tsim_data c : tsim c c (bif_data env rec). Proof. unfold bif_data. handler. Qed.
  Lemma tsim_locale c : tsim c c (bif_locale env rec). Proof. unfold bif_locale. handler. Qed.
  Lemma tsim_debug c : tsim c c (bif_debug env rec). Proof. unfold bif_debug. handler. Qed.
  Lemma tsim_lang c : tsim c c bif_lang. Proof. unfold bif_lang. handler. Qed.
  Lemma tsim_moveto_ : tsim (Some false) (Some false) (bif_moveto env rec). Proof. unfold bif_moveto. handler. Qed.
  Lemma tsim_param c : tsim c c (bif_param rec). Proof. unfold bif_param. handler. Qed.
  Lemma tsim_redirect : tsim (Some false) (Some false) (bif_redirect rec). Proof. unfold bif_redirect. handler. Qed.
  Lemma tsim_replace c : tsim c c (bif_replace rec). Proof. unfold bif_replace. handler. Qed.
  Lemma tsim_snippet c : tsim c c (bif_snippet rec). Proof. unfold bif_snippet. handler. Qed.
  Lemma tsim_unknown c : tsim c c bif_unknown. Proof. unfold bif_unknown. handler. Qed.


  Lemma tsim_getBI v c' {C} (k : Bif -> Inherit -> M C) :
    (forall b i, in_cache i = v -> k (twin r x b) i = k b i) -> (forall b i, in_cache i = v -> tsim (Some v) c' (k b i)) ->
    tsim (Some v) c' (bind getB (fun b => bind getI (k b))).
  Proof.
    intros E H st HS. unfold bind, getB, getI. cbn [bf inh tw].
    pose proof HS as (_ & _ & HC). rewrite (E _ _ HC). apply (H _ _ HC). exact HS.
  Qed.
  Lemma tsim_modI_any f : tsim None None (modI f).
  Proof. intros st (H1 & H2 & H3). split; [reflexivity|]. unfold holds. cbn. repeat split; assumption. Qed.
  Lemma tsim_cache : tsim (Some false) None (bif_cache env rec).
  Proof.
    unfold bif_cache. eapply tsim_bind; [lib|intro]. eapply tsim_bind; [lib|intro]. apply tsim_getBI.
    { intros b i E. rewrite E. reflexivity. }
    intros b i E. rewrite E. apply tsim_pre. unfold child_in_cache, set_out, ask_exists, ask_read, ask_mkdir, ask_create, ask_write.
    all ltac:(idtac; match goal with |- tsim _ _ (modI _) => apply tsim_modI_any | _ => lib end).
  Qed.

  (** [obj] looks for the separator in the source first *)
  Lemma tsim_getBs c c' {C} (k : Bif -> M C) :
    (forall b, match x with Some y => same_src (src b) y | None => True end -> k (twin r x b) = k b /\ tsim c c' (k b)) ->
    tsim c c' (bind getB k).
  Proof.
    intros H st HS. unfold bind, getB. cbn [bf tw]. pose proof HS as (_ & H2 & _).
    destruct (H (bf st) H2) as [E HT]. rewrite E. apply HT. exact HS.
  Qed.
  Lemma tsim_modB_None c f : x = None -> (forall b, raw (f b) = raw b) -> (forall b, f (twin r None b) = twin r None (f b)) ->
    tsim c c (modB f).
  Proof.
    intros E Hr Ht st (H1 & H2 & H3). unfold modB, tw, holds. cbn [bf sh inh]. rewrite E, Ht, Hr. split; [reflexivity|].
    repeat split; assumption.
  Qed.
  Lemma tsim_obj c : tsim c c (bif_obj env rec).
  Proof.
    unfold bif_obj. eapply tsim_bind; [lib|intro]. apply tsim_getBs. intros b HB.
    assert (x = None \/ contains BIF_CODE (src b) = true /\ contains BIF_CODE (src (twin r x b)) = true) as HC.
    { destruct x as [y|]; [right|left; reflexivity]. destruct HB as (H1 & H2 & _). split; [exact H1|exact H2]. }
    destruct HC as [EX|[E1 E2]].
    - split; [unfold twin; rewrite EX; reflexivity|]. unfold set_out, ask_exists, ask_canon, ask_read, ask_python, ask_php.
      all ltac:(idtac; match goal with |- tsim _ _ (modB _) => apply tsim_modB_None; [exact EX|intro; reflexivity|intro; reflexivity] | _ => lib end).
    - rewrite E1, E2. split; [reflexivity|]. cbn [negb]. handler.
  Qed.

  (** the bifs that read their source directly *)
  Section Direct.
    Hypothesis HX : x = None.
    Lemma tsim_modB_src c v : tsim c c (modB (bset_src v)).
    Proof.
      intros st (H1 & H2 & H3). unfold modB, tw, twin, holds. cbn. rewrite HX. split; [reflexivity|]. repeat split; assumption.
    Qed.
    Ltac direct := unfold set_out, ask_rand, ask_rand_bytes, ask_now;
      all ltac:(idtac; match goal with |- tsim _ _ (modB (bset_src _)) => apply tsim_modB_src | _ => lib end).
    Lemma tsim_var c : tsim c c (bif_var rec). Proof. unfold bif_var. direct. Qed.
    Lemma tsim_coalesce c : tsim c c (bif_coalesce rec). Proof. unfold bif_coalesce. direct. Qed.
    Lemma tsim_hash c : tsim c c (bif_hash env rec). Proof. unfold bif_hash. direct. Qed.
    Lemma tsim_date c : tsim c c (bif_date env rec). Proof. unfold bif_date. direct. Qed.
    Lemma tsim_join c : tsim c c (bif_join rec). Proof. unfold bif_join. direct. Qed.
    Lemma tsim_rand c : tsim c c (bif_rand env rec). Proof. unfold bif_rand. direct. Qed.
    Lemma tsim_sum c : tsim c c (bif_sum env rec). Proof. unfold bif_sum. direct. Qed.
    Lemma tsim_trans c : tsim c c (bif_trans rec). Proof. unfold bif_trans. direct. Qed.
  End Direct.

  Lemma tsim_dispatch nm : nm <> B "neutral" -> (x = None \/ ~ In nm whole_body) -> tsim (Some false) None (dispatch env rec nm).
  Proof.
    intros HN HX.
    assert (Forall (fun h => fst h <> B "neutral" -> (x = None \/ ~ In (fst h) whole_body) -> tsim (Some false) None (snd h)) (handlers env rec)) as H.
    { unfold handlers, bif_array, bif_bool, bif_defined, bif_filled, bif_same, bif_contains.
      clear HN HX.
      Ltac hd := intros _ _; eapply tsim_post.
      Ltac dr := let H := fresh in intros _ H; assert (x = None) by (destruct H as [H|H]; [exact H|exfalso; apply H; cbn; tauto]); eapply tsim_post.
      repeat (apply Forall_cons; [cbn [fst snd]|]); [..|apply Forall_nil].
      - dr; apply tsim_var; assumption.
      - hd; apply tsim_allow.
      - hd; apply tsim_cond.
      - hd; apply tsim_cond.
      - hd; apply tsim_cache.
      - dr; apply tsim_coalesce; assumption.
      - hd; apply tsim_code.
      - hd; apply tsim_compare.
      - hd; apply tsim_count.
      - hd; apply tsim_data.
      - dr; apply tsim_date; assumption.
      - hd; apply tsim_declare.
      - hd; apply tsim_cond.
      - hd; apply tsim_each.
      - hd; apply tsim_else.
      - hd; apply tsim_eval.
      - hd; apply tsim_exit.
      - hd; apply tsim_fetch.
      - hd; apply tsim_cond.
      - hd; apply tsim_flg.
      - hd; apply tsim_for.
      - dr; apply tsim_hash; assumption.
      - hd; apply tsim_include.
      - dr; apply tsim_join; assumption.
      - hd; apply tsim_lang.
      - hd; apply tsim_locale.
      - hd; apply tsim_moveto_.
      - intro N. contradiction N. reflexivity.
      - hd; apply tsim_param.
      - dr; apply tsim_rand; assumption.
      - hd; apply tsim_redirect.
      - hd; apply tsim_replace.
      - hd; apply tsim_compare.
      - hd; apply tsim_snippet.
      - hd; apply tsim_snippet.
      - dr; apply tsim_sum; assumption.
      - dr; apply tsim_trans; assumption.
      - hd; apply tsim_obj.
      - hd; apply tsim_debug. }
    unfold dispatch. induction H as [|[k h] t H _ IH]; cbn [lookup_handler]; [eapply tsim_post, tsim_unknown|].
    cbn [fst snd] in H. destruct (beq nm k) eqn:E; [|exact IH]. apply beq_eq in E. subst k. apply H; assumption.
  Qed.
End Twin.

(** the results of two evaluations in step *)
Lemma twin_result env rec nm r0 r x st : nm <> B "neutral" -> (x = None \/ ~ In nm whole_body) -> holds r0 x (Some false) st ->
  same_but_quote env r0 r (bif_result env (dispatch env rec nm st)) (bif_result env (dispatch env rec nm (tw r x st))).
Proof.
  intros HN HX HS. pose proof (tsim_dispatch env rec r0 r x nm HN HX st HS) as H.
  destruct (dispatch env rec nm st) as [a st1|e st1|p|].
  - destruct H as [-> _]. left. destruct st1 as [s i b]. reflexivity.
  - destruct H as [E ->]. unfold bif_result. cbn [tw sh]. destruct (show_error (sh st1)); [|left; reflexivity].
    right. exists e.(er_msg), e.(er_name). unfold bif_finish. cbn [bf sh inh tw twin out mod_upline]. do 4 eexists. split.
    + unfold with_error. rewrite E at 1. cbn [er_msg er_name]. reflexivity.
    + unfold with_error. assert (er_file e = current_file (inh st1)) as -> by (rewrite E; reflexivity). reflexivity.
  - rewrite H. left. reflexivity.
  - rewrite H. left. reflexivity.
Qed.

(** ** White space around the parameters and the code *)
Lemma trim_start_one w r : white w -> trim_start (w ++ r) = trim_start r.
Proof.
  intro H. destruct (white_cases w H) as [(a & -> & E)|[(a & b & -> & E)|(a & b & c & -> & E)]]; cbn [app trim_start].
  - rewrite E. reflexivity.
  - destruct (ws1 a) eqn:E1; [|rewrite E; reflexivity].
    exfalso. unfold ws1, ws2 in *. destruct (N.eqb_spec (N_of_ascii a) 194) as [E'|]; [|discriminate]. rewrite E' in E1. discriminate.
  - destruct (ws1 a) eqn:E1; [|destruct (ws2 a b) eqn:E2; [|rewrite E; reflexivity]]; exfalso; unfold ws1, ws2, ws3 in *.
    + destruct (N.eqb_spec (N_of_ascii a) 225) as [E'|]; [rewrite E' in E1; discriminate|].
      destruct (N.eqb_spec (N_of_ascii a) 226) as [E'|]; [rewrite E' in E1; discriminate|].
      destruct (N.eqb_spec (N_of_ascii a) 227) as [E'|]; [rewrite E' in E1; discriminate|]. cbn in E. discriminate.
    + destruct (N.eqb_spec (N_of_ascii a) 194) as [E'|]; [|discriminate]. rewrite E' in E. discriminate.
Qed.
Lemma trim_start_all w r : all_white w -> trim_start (w ++ r) = trim_start r.
Proof.
  intros (l & -> & H). induction H as [|c l Hc _ IH]; [reflexivity|]. cbn [concat]. rewrite <- app_assoc, trim_start_one by exact Hc. exact IH.
Qed.
Lemma ws3_no_ws1 a b c : ws3 a b c = true -> ws1 c = false.
Proof.
  unfold ws3, ws1. destruct (N_of_ascii c) as [|p]; [intros; reflexivity|]. intro H.
  destruct (((9 <=? N.pos p) && (N.pos p <=? 13) || (N.pos p =? 32))%N) eqn:E; [|reflexivity]. exfalso.
  apply orb_true_iff in E as [E|E].
  - apply andb_true_iff in E as [_ E]. apply N.leb_le in E.
    assert ((N.pos p =? 128)%N = false) as H1 by (apply N.eqb_neq; lia). assert ((128 <=? N.pos p)%N = false) as H2 by (apply N.leb_gt; lia).
    assert ((N.pos p =? 168)%N = false) as H3 by (apply N.eqb_neq; lia). assert ((N.pos p =? 169)%N = false) as H4 by (apply N.eqb_neq; lia).
    assert ((N.pos p =? 175)%N = false) as H5 by (apply N.eqb_neq; lia). assert ((N.pos p =? 159)%N = false) as H6 by (apply N.eqb_neq; lia).
    rewrite H1, H2, H3, H4, H5, H6 in H. cbn [orb andb] in H. rewrite !andb_false_r in H. discriminate.
  - apply N.eqb_eq in E. rewrite E in H. cbn in H. rewrite !andb_false_r in H. discriminate.
Qed.
Lemma ws2_no_ws1 a b : ws2 a b = true -> ws1 b = false.
Proof.
  unfold ws2, ws1. intro H. apply andb_true_iff in H as [_ H]. apply orb_true_iff in H as [H|H]; apply N.eqb_eq in H; rewrite H; reflexivity.
Qed.
Lemma ws3_no_ws2 a b c : ws3 a b c = true -> ws2 b c = false.
Proof.
  unfold ws3, ws2. intro H. destruct (N.eqb_spec (N_of_ascii b) 194) as [E|]; [|reflexivity]. rewrite E in H.
  cbn in H. rewrite !andb_false_r in H. discriminate.
Qed.
Lemma trim_rev_one w r : white w -> trim_rev (rev w ++ r) = trim_rev r.
Proof.
  intro H. destruct (white_cases w H) as [(a & -> & E)|[(a & b & -> & E)|(a & b & c & -> & E)]]; cbn [app rev trim_rev].
  - rewrite E. reflexivity.
  - rewrite (ws2_no_ws1 _ _ E), E. reflexivity.
  - rewrite (ws3_no_ws1 _ _ _ E), (ws3_no_ws2 _ _ _ E), E. reflexivity.
Qed.
Lemma trim_end_all s w : all_white w -> trim_end (s ++ w) = trim_end s.
Proof.
  unfold trim_end. rewrite rev_app_distr. intros (l & -> & H). f_equal. revert s. induction H as [|c l Hc _ IH]; intro s; [reflexivity|].
  cbn [concat]. rewrite rev_app_distr, <- app_assoc. rewrite <- (rev_involutive (rev c ++ rev s)), rev_app_distr, !rev_involutive.
  rewrite (IH (s ++ c)), rev_app_distr. apply trim_rev_one. exact Hc.
Qed.
Lemma trim_start_keep t q : t <> [] -> (forall w r, white w -> t <> w ++ r) -> all_white q -> trim_start (t ++ q) = t ++ q.
Proof.
  intros NE H (l & -> & HL). apply trim_start_id. intros d r Hd E. destruct HL as [|c l Hc _].
  - cbn in E. rewrite app_nil_r in E. exact (H d r Hd E).
  - cbn [concat] in E. destruct (white_no_straddle c d t (concat l) r Hc Hd NE E) as (z & Ez). exact (H d z Hd Ez).
Qed.
Lemma trimmed_trim s t : trimmed s t -> trim s = t.
Proof.
  intros ((p & q & -> & Hp & Hq) & H1 & H2). unfold trim. rewrite trim_start_all by exact Hp.
  destruct (list_eq_dec Ascii.ascii_dec t []) as [->|NE].
  - cbn [app]. rewrite <- (app_nil_r q), trim_start_all by exact Hq. reflexivity.
  - rewrite trim_start_keep by assumption. rewrite trim_end_all by exact Hq. unfold trim_end. rewrite trim_rev_id; [apply rev_involutive|].
    intros w r Hw E. apply (H2 w (rev r) Hw). rewrite <- (rev_involutive t), E, rev_app_distr, rev_involutive. reflexivity.
Qed.
Lemma trim_spaces w1 p w2 : all_white w1 -> all_white w2 -> trim (w1 ++ p ++ w2) = trim p.
Proof.
  intros H1 H2. apply trimmed_trim. destruct (trim_trimmed p) as ((a & b & E & Ha & Hb) & Hs & He). split; [|split; assumption].
  exists (w1 ++ a), (b ++ w2). rewrite E at 1. rewrite <- !app_assoc. split; [reflexivity|].
  split; apply all_white_app; assumption.
Qed.

Lemma white_plain w : all_white w -> Forall (fun c => c <> "{"%char /\ c <> ":"%char /\ c <> "}"%char /\ c <> ">"%char) w.
Proof.
  intros (l & -> & H). induction H as [|c l (n & Hn & ->) _ IH]; [constructor|]. cbn [concat]. apply Forall_app. split; [|exact IH].
  assert (Forall (fun k => forallb (fun c => negb (aeqb c "{" || aeqb c ":" || aeqb c "}" || aeqb c ">")) (utf8 k) = true) white_points) as HF
    by (repeat constructor).
  rewrite Forall_forall in HF. specialize (HF n Hn). rewrite forallb_forall in HF. apply Forall_forall. intros c Hc.
  specialize (HF c Hc). apply negb_true_iff in HF. repeat match goal with H : _ || _ = false |- _ => apply orb_false_iff in H as [? ?] end.
  repeat split; intro E; subst c; discriminate.
Qed.


Ltac neq := repeat match goal with H : ?a <> ?b |- context [aeqb ?a ?b] => rewrite (proj2 (aeqb_neq a b) H) end.
(** bytes with no role in the search are passed over *)
Lemma pos_skip lv i c r : c <> "{"%char -> c <> ":"%char -> c <> ">"%char -> code_pos lv i (c :: r) = code_pos lv (i + 1) r.
Proof.
  intros N1 N2 N3. destruct r as [|d r]; [reflexivity|]. cbn [code_pos]. unfold c_lbrace, c_colon, c_gt. neq. reflexivity.
Qed.
Lemma pos_white lv i w r : all_white w -> code_pos lv i (w ++ r) = code_pos lv (i + length w) r.
Proof.
  intro H. apply white_plain in H. revert i. induction H as [|c w (N1 & N2 & N3 & N4) _ IH]; intro i; [cbn; rewrite Nat.add_0_r; reflexivity|].
  cbn [app length]. rewrite pos_skip by assumption. rewrite IH. f_equal. lia.
Qed.
Lemma cp_sep lv i z : code_pos lv i (B ">>" ++ z) = if (lv =? 0)%Z then Some i else code_pos lv (i + 2) z.
Proof. reflexivity. Qed.
Lemma pos_ge_n n : forall s lv i p, length s <= n -> code_pos lv i s = Some p -> i <= p.
Proof.
  intros s lv i p L H. destruct (code_pos_at_n _ _ _ _ _ L H) as (u & v & _ & E). lia.
Qed.
Lemma pos_params_n n : forall p lv i, length p <= n -> code_pos lv i (p ++ B ">>") = Some (i + length p) -> forall w z, all_white w ->
  code_pos lv i (p ++ w ++ B ">>" ++ z) = Some (i + length p + length w).
Proof.
  induction n as [|n IH]; intros p lv i L H w z HW.
  - destruct p; [|cbn in L; lia]. cbn [app length] in *. rewrite pos_white by exact HW.
    change (code_pos lv i (B ">>")) with (if (lv =? 0)%Z then Some i else code_pos lv (i + 2) []) in H. rewrite cp_sep.
    destruct (lv =? 0)%Z; [f_equal; lia|discriminate].
  - destruct p as [|a [|b p]].
    + apply (IH []); [cbn; lia|exact H|exact HW].
    + cbn [app length] in *.
      assert (a <> ">"%char) as NG.
      { intros ->. change (code_pos lv i (">"%char :: B ">>")) with (if (lv =? 0)%Z then Some i else code_pos lv (i + 2) [">"%char]) in H.
        destruct (lv =? 0)%Z; [injection H; lia|discriminate]. }
      assert (code_pos lv i (a :: B ">>") = code_pos lv (i + 1) (B ">>")) as E.
      { cbn [B list_ascii_of_string code_pos]. unfold c_lbrace, c_colon, c_gt, c_rbrace. neq.
        change (aeqb ">" ":") with false. change (aeqb ">" "}") with false. rewrite !andb_false_r. reflexivity. }
      rewrite E in H. pose proof (IH [] lv (i + 1) ltac:(cbn; lia) ltac:(cbn [app length]; rewrite Nat.add_0_r; exact H) w z HW) as H'.
      cbn [app length] in H'. rewrite Nat.add_0_r in H'. rewrite <- H'. clear H' H E.
      pose proof (white_plain w HW) as HP. destruct w as [|d w].
      * cbn [app B list_ascii_of_string code_pos]. unfold c_lbrace, c_colon, c_gt, c_rbrace. neq.
        change (aeqb ">" ":") with false. change (aeqb ">" "}") with false. rewrite !andb_false_r. reflexivity.
      * inversion HP as [|? ? (N1 & N2 & N3 & N4) _]; subst. cbn [app]. cbn [code_pos]. unfold c_lbrace, c_colon, c_gt, c_rbrace. neq.
        rewrite !andb_false_r. reflexivity.
    + cbn [app length] in *. rewrite cp_step in H. rewrite cp_step.
      destruct (aeqb a c_lbrace && aeqb b c_colon).
      { rewrite (IH p _ (i + 2)); [f_equal; lia|lia|rewrite H; f_equal; lia|exact HW]. }
      destruct (aeqb a c_colon && aeqb b c_rbrace).
      { rewrite (IH p _ (i + 2)); [f_equal; lia|lia|rewrite H; f_equal; lia|exact HW]. }
      destruct (aeqb a c_gt && aeqb b c_gt).
      { destruct (lv =? 0)%Z; [injection H; lia|]. rewrite (IH p _ (i + 2)); [f_equal; lia|lia|rewrite H; f_equal; lia|exact HW]. }
      pose proof (IH (b :: p) lv (i + 1) ltac:(cbn; lia)) as IHb. cbn [app length] in IHb. rewrite IHb; [f_equal; lia|rewrite H; f_equal; lia|exact HW].
Qed.

(** the parts of a body, whatever its white space *)
Lemma trim_start_gt a z : trim_start (a ++ ">"%char :: z) = trim_start a ++ ">"%char :: z.
Proof.
  destruct (trim_start_white_n _ a (le_n _)) as (p & E & Hp). set (t := trim_start a) in *.
  assert (forall w r, white w -> t <> w ++ r) as HT by (apply (trim_start_not_white_n _ a (le_n _))).
  rewrite E, <- app_assoc, trim_start_all by exact Hp. apply trim_start_id. intros w r Hw EW. destruct (white_no_gt w Hw) as [N _].
  destruct (Nat.le_gt_cases (length w) (length t)) as [L|L].
  - apply (HT w (skipn (length w) t) Hw). rewrite <- (firstn_skipn (length w) t) at 1. f_equal.
    assert (firstn (length w) (t ++ ">"%char :: z) = w) as F by (rewrite EW, firstn_app, Nat.sub_diag, firstn_O, app_nil_r; apply firstn_all).
    rewrite firstn_app in F. replace (length w - length t) with 0 in F by lia. rewrite firstn_O, app_nil_r in F. exact F.
  - apply N. assert (nth_error (t ++ ">"%char :: z) (length t) = Some ">"%char) as F by (rewrite nth_error_app2, Nat.sub_diag by lia; reflexivity).
    rewrite EW, nth_error_app1 in F by exact L. eapply nth_error_In. exact F.
Qed.
Lemma trim_end_white s : exists q, s = trim_end s ++ q /\ all_white q.
Proof.
  destruct (trim_rev_white_n _ (rev s) (le_n _)) as (q & E & Hq). exists q. split; [|exact Hq]. unfold trim_end.
  rewrite <- (rev_involutive s) at 1. rewrite E at 1. rewrite rev_app_distr, rev_involutive. reflexivity.
Qed.
Lemma trim_end_not_white s w r : white w -> trim_end s <> r ++ w.
Proof.
  intros Hw E. apply (trim_rev_not_white_n _ (rev s) (le_n _) w (rev r) Hw). unfold trim_end in E.
  rewrite <- (rev_involutive (trim_rev (rev s))), E, rev_app_distr. reflexivity.
Qed.
Lemma trim_end_gt a z : trim_end (a ++ ">"%char :: z) = a ++ ">"%char :: trim_end z.
Proof.
  destruct (trim_end_white z) as (q & E & Hq). rewrite E at 1. rewrite app_comm_cons, app_assoc, trim_end_all by exact Hq.
  set (t := trim_end z) in *. assert (forall w r, white w -> t <> r ++ w) as HT by (intros; apply trim_end_not_white; assumption).
  unfold trim_end. rewrite trim_rev_id; [apply rev_involutive|]. intros w r Hw EW. destruct (white_no_gt w Hw) as [N NE].
  assert (a ++ ">"%char :: t = rev r ++ w) as E2 by (rewrite <- (rev_involutive (a ++ ">"%char :: t)), EW, rev_app_distr, rev_involutive; reflexivity).
  clear EW E Hq. revert t HT E2. intros t HT E2.
  destruct (Nat.le_gt_cases (length w) (length t)) as [L|L].
  - apply (HT w (firstn (length t - length w) t) Hw). rewrite <- (firstn_skipn (length t - length w) t) at 1. f_equal.
    assert (skipn (length (rev r)) (a ++ ">"%char :: t) = w) as F by (rewrite E2, skipn_app, skipn_all, Nat.sub_diag; reflexivity).
    assert (length (a ++ ">"%char :: t) = length (rev r ++ w)) as EL by (rewrite E2; reflexivity). rewrite !app_length in EL. cbn [length] in EL.
    rewrite skipn_app in F. rewrite (skipn_all2 a) in F by lia. cbn [app] in F.
    replace (length (rev r) - length a) with (S (length t - length w)) in F by lia. exact F.
  - apply N. assert (length (a ++ ">"%char :: t) = length (rev r ++ w)) as EL by (rewrite E2; reflexivity). rewrite !app_length in EL. cbn [length] in EL.
    assert (nth_error (a ++ ">"%char :: t) (length a) = Some ">"%char) as F by (rewrite nth_error_app2, Nat.sub_diag by lia; reflexivity).
    rewrite E2, nth_error_app2 in F by lia. eapply nth_error_In. exact F.
Qed.
Lemma trim_separated a z : trim (a ++ B ">>" ++ z) = trim_start a ++ B ">>" ++ trim_end z.
Proof.
  unfold trim. cbn [B list_ascii_of_string app]. rewrite trim_start_gt.
  change (trim_start a ++ ">"%char :: ">"%char :: z) with (trim_start a ++ [">"%char] ++ ">"%char :: z). rewrite app_assoc, trim_end_gt, <- app_assoc. reflexivity.
Qed.

Lemma layout_parts w1 p w2 w3 c w4 : all_white w1 -> all_white w2 -> all_white w3 -> all_white w4 ->
  get_code_position (p ++ B ">>") = Some (length p) ->
  exists k, let s := trim (w1 ++ p ++ w2 ++ B ">>" ++ w3 ++ c ++ w4) in
    contains BIF_CODE s = true /\ get_code_position s = Some k /\ trim (firstn k s) = trim p /\ trim (skipn (k + 2) s) = trim c.
Proof.
  intros H1 H2 H3 H4 HP.
  assert (code_pos 0 0 (p ++ B ">>") = Some (length p)) as HC.
  { unfold get_code_position in HP. destruct (negb (contains BIF_CODE (p ++ B ">>"))); [discriminate|exact HP]. }
  set (A := w1 ++ p ++ w2). set (C := w3 ++ c ++ w4).
  assert (w1 ++ p ++ w2 ++ B ">>" ++ C = A ++ B ">>" ++ C) as -> by (unfold A; rewrite <- !app_assoc; reflexivity).
  rewrite trim_separated. set (A' := trim_start A). set (C' := trim_end C). exists (length A'). cbv zeta.
  assert (contains BIF_CODE (A' ++ B ">>" ++ C') = true) as HB by (apply contains_iff; exists A', C'; reflexivity).
  split; [exact HB|].
  destruct (trim_start_white_n _ A (le_n _)) as (u & EU & HU). fold A' in EU.
  assert (code_pos 0 0 (A ++ B ">>" ++ C') = Some (length A)) as HA.
  { unfold A. rewrite <- !app_assoc, pos_white by exact H1. cbn [Nat.add].
    rewrite (pos_params_n _ p 0 (length w1) (le_n _)); [rewrite !app_length; f_equal; lia| |exact H2].
    rewrite <- (Nat.add_0_l (length w1)), <- pos_white by exact H1.
    assert (forall n s lv i j, length s <= n -> code_pos lv (i + j) s = option_map (Nat.add j) (code_pos lv i s)) as SH.
    { clear. induction n as [|n IH]; intros s lv i j L.
      - destruct s; [reflexivity|cbn in L; lia].
      - destruct s as [|a [|b s]]; [reflexivity|reflexivity|]. cbn [length] in L. rewrite !cp_step.
        destruct (aeqb a c_lbrace && aeqb b c_colon). { replace (i + j + 2) with (i + 2 + j) by lia. apply IH. lia. }
        destruct (aeqb a c_colon && aeqb b c_rbrace). { replace (i + j + 2) with (i + 2 + j) by lia. apply IH. lia. }
        destruct (aeqb a c_gt && aeqb b c_gt).
        { destruct (lv =? 0)%Z; [cbn; f_equal; lia|]. replace (i + j + 2) with (i + 2 + j) by lia. apply IH. lia. }
        replace (i + j + 1) with (i + 1 + j) by lia. apply (IH (b :: s)). cbn. lia. }
    rewrite pos_white by exact H1. rewrite (SH _ (p ++ B ">>") 0%Z 0 (length w1) (le_n _)), HC. cbn. f_equal. }
  assert (get_code_position (A' ++ B ">>" ++ C') = Some (length A')) as HG.
  { unfold get_code_position. rewrite HB. cbn [negb]. rewrite EU, <- app_assoc, pos_white in HA by exact HU. cbn [Nat.add] in HA.
    rewrite app_length in HA.
    assert (forall n s lv i j k, length s <= n -> code_pos lv (j + i) s = Some (j + k) -> code_pos lv i s = Some k) as SH.
    { clear. induction n as [|n IH]; intros s lv i j k L.
      - destruct s; [discriminate|cbn in L; lia].
      - destruct s as [|a [|b s]]; [discriminate|discriminate|]. cbn [length] in L. rewrite !cp_step.
        destruct (aeqb a c_lbrace && aeqb b c_colon). { rewrite <- Nat.add_assoc. apply IH. lia. }
        destruct (aeqb a c_colon && aeqb b c_rbrace). { rewrite <- Nat.add_assoc. apply IH. lia. }
        destruct (aeqb a c_gt && aeqb b c_gt).
        { destruct (lv =? 0)%Z; [intro E; injection E; intro; f_equal; lia|]. rewrite <- Nat.add_assoc. apply IH. lia. }
        rewrite <- Nat.add_assoc. apply (IH (b :: s)). cbn. lia. }
    apply (SH _ _ 0%Z 0 (length u) (length A') (le_n _)). rewrite Nat.add_0_r. exact HA. }
  split; [exact HG|]. split.
  - rewrite firstn_app, Nat.sub_diag, firstn_O, app_nil_r, firstn_all.
    rewrite <- (trim_spaces w1 p w2 H1 H2). fold A. rewrite EU at 1. rewrite <- (app_nil_r (u ++ A')), <- app_assoc.
    symmetry. apply (trim_spaces u A' []); [exact HU|apply all_white_nil].
  - rewrite app_assoc, skipn_app. rewrite (skipn_all2 (A' ++ B ">>")) by (rewrite app_length; cbn; lia).
    replace (length A' + 2 - length (A' ++ B ">>")) with 0 by (rewrite app_length; cbn; lia). cbn [skipn app].
    rewrite <- (trim_spaces w3 c w4 H3 H4). fold C. destruct (trim_end_white C) as (q & EQ & HQ). fold C' in EQ. rewrite EQ at 1.
    symmetry. apply (trim_spaces [] C' q); [apply all_white_nil|exact HQ].
Qed.
