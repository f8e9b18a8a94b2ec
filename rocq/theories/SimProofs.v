(** * A bif depends on the evaluator of nested blocks only through the calls it makes

    If two evaluators agree on all the states in which a bif calls them, the bif gives the same
    result with both. *)

From Verif Require Import Bytes Json Utils ConstantsGen State Engine Template Spec SpecEngine BytesFacts FrameProofs FrameRun.

Notation evaluator := (Shared -> Inherit -> bytes -> list (nat * nat) -> bytes -> BRes).

Section Sim.
  Variable env : Env.
  Variable Inv : Shared -> bytes -> N -> Prop.
  Variable R : N -> Shared -> Shared -> Prop.
  Variable PP : panic -> Prop.
  Hypothesis F : frame env Inv R PP.
  Variable n : nat.
  Variable rec rec2 : evaluator.
  Hypothesis Hrec : ok_rec Inv R PP n rec.
  Variable q : mode.
  Variable st0 : St.
  Notation c0 := (block_count (inh st0)).
  Hypothesis Hagree : forall s i src bl only,
    Inv s i.(indir) i.(block_count) -> room n s -> i.(block_count) = (c0 + 1)%N ->
    R (lvl q c0) st0.(sh) s -> (q = mStrict -> i.(indir) = st0.(inh).(indir)) ->
    rec s i src bl only = rec2 s i src bl only.

  Notation ok := (ok Inv R PP n q).
  Notation good := (good Inv R q).

  Definition sim {A} (m m' : M A) : Prop :=
    forall st, Inv st.(sh) st.(inh).(indir) st.(inh).(block_count) -> room n st.(sh) -> pre q st ->
      good st0 st -> m st = m' st.

  Lemma sim_refl {A} (m : M A) : sim m m.
  Proof. intros st _ _ _ _. reflexivity. Qed.

  Lemma sim_bind {A C} (m m' : M A) (k k' : A -> M C) : ok m -> sim m m' -> (forall x, sim (k x) (k' x)) ->
    sim (bind m k) (bind m' k').
  Proof.
    intros Hm Sm Sk st HI HF HP HG. unfold bind. rewrite <- (Sm st HI HF HP HG).
    specialize (Hm st HI HF HP). destruct (m st) as [x st1|e st1|p|]; try reflexivity.
    destruct Hm as [G P1].
    assert (good st0 st1) as G1 by (eapply good_trans; eassumption).
    destruct G as (I1 & R1 & B1 & S1).
    apply Sk; [rewrite B1; exact I1| |exact P1|exact G1].
    destruct (f_R_base _ _ _ _ F _ _ _ R1) as [E L]. unfold room in *. rewrite E. lia.
  Qed.

  Lemma sim_getB {C} (k k' : Bif -> M C) :
    (forall b, (q = mStrict -> b.(mod_scope) = false) -> sim (k b) (k' b)) -> sim (bind getB k) (bind getB k').
  Proof.
    intros H st HI HF HP HG. unfold bind, getB. apply H; try assumption. intro Q. rewrite Q in HP. exact HP.
  Qed.

  Lemma sim_getI {C} (k k' : Inherit -> M C) :
    (forall b, sim (k b) (k' b)) -> sim (bind getI k) (bind getI k').
  Proof. intros H st HI HF HP HG. unfold bind, getI. apply H; assumption. Qed.
  Lemma sim_getS {C} (k k' : Shared -> M C) :
    (forall b, sim (k b) (k' b)) -> sim (bind getS k) (bind getS k').
  Proof. intros H st HI HF HP HG. unfold bind, getS. apply H; assumption. Qed.

  Lemma sim_with_child scope p p' : (q = mStrict -> scope = false) ->
    (forall s i, Inv s i.(indir) i.(block_count) -> room n s -> i.(block_count) = (c0 + 1)%N ->
       R (lvl q c0) st0.(sh) s -> (q = mStrict -> i.(indir) = st0.(inh).(indir)) -> p s i = p' s i) ->
    sim (with_child scope p) (with_child scope p').
  Proof.
    intros HS Hp st HI HF HP HG. unfold with_child.
    set (ci0 := iset_alias (alias (bf st)) (inh st)).
    set (ci1 := if is_empty (file_path (bf st)) then ci0 else iset_current_file (file_path (bf st)) ci0).
    set (ci2 := if is_empty (dir (bf st)) then ci1 else iset_current_dir (dir (bf st)) ci1).
    assert (indir ci2 = indir (inh st) /\ block_count ci2 = block_count (inh st)) as [EI EC].
    { unfold ci2, ci1, ci0. destruct (is_empty (dir (bf st))), (is_empty (file_path (bf st))); split; reflexivity. }
    set (ci := iset_block_count (block_count ci2 + 1) ci2).
    assert (indir ci = indir (inh st) /\ block_count ci = (block_count (inh st) + 1)%N) as [EI' EC'].
    { unfold ci. cbn. rewrite EC. split; [exact EI|reflexivity]. }
    destruct HG as (I0 & R0 & B0 & S0).
    destruct scope.
    - assert (q <> mStrict) as Q by (intro E; specialize (HS E); discriminate).
      destruct (f_H_create _ _ _ _ F _ _ HI) as (HI1 & HI0 & HR1).
      destruct (create_block_schema (sh st) (inh st)) as [s1 i1]. cbn [fst] in *.
      rewrite Hp; [reflexivity|..].
      + rewrite EI', EC'. apply (f_H_enter _ _ _ _ F). exact HI0.
      + destruct (f_R_base _ _ _ _ F _ _ _ HR1) as [E L]. unfold room in *. rewrite E. lia.
      + rewrite EC', B0. reflexivity.
      + eapply (f_R_trans _ _ _ _ F); [exact R0|]. rewrite B0 in HR1. destruct q; [congruence|exact HR1|exact HR1].
      + intro E. contradiction.
    - rewrite Hp; [reflexivity|..].
      + rewrite EI', EC'. apply (f_H_enter _ _ _ _ F). exact HI.
      + exact HF.
      + rewrite EC', B0. reflexivity.
      + exact R0.
      + intro E. rewrite EI'. apply S0. exact E.
  Qed.

  Lemma sim_child src scope : (q = mStrict -> scope = false) -> sim (child rec src scope) (child rec2 src scope).
  Proof.
    intros HS st HI HF HP HG. unfold child.
    apply (sim_with_child scope (fun s i => block_parse rec s i src (only (bf st)))
             (fun s i => block_parse rec2 s i src (only (bf st)))); auto.
    intros s i I1 F1 B1 R1 S1. unfold block_parse. destruct (extract_blocks src); [|reflexivity].
    apply Hagree; assumption.
  Qed.

  Lemma sim_with_rec scope c bl o : (q = mStrict -> scope = false) ->
    sim (with_child scope (fun s i => rec s i c bl o)) (with_child scope (fun s i => rec2 s i c bl o)).
  Proof. intro HS. apply sim_with_child; [exact HS|]. intros. apply Hagree; assumption. Qed.

  Lemma sim_bind_l {A C} (m m' : M A) (k : A -> M C) : sim m m' -> sim (bind m k) (bind m' k).
  Proof. intros Sm st HI HF HP HG. unfold bind. rewrite (Sm st HI HF HP HG). reflexivity. Qed.

  Ltac oa l := eapply l; eassumption.
  Ltac pp := first [exact (f_PP_comments _ _ _ _ F) | exact (f_PP_canon _ _ _ _ F) | exact (f_PP_objt _ _ _ _ F)
                    | exact (f_PP_count _ _ _ _ F) | exact (f_PP_expire _ _ _ _ F) | exact (f_PP_date _ _ _ _ F)].
  Ltac scope_ok := solve [eassumption | intro; reflexivity | intro; congruence].
  Ltac ok_step :=
    match goal with
    | |- FrameProofs.ok _ _ _ _ _ (modB _) => eapply ok_modB; [eassumption|reflexivity]
    | |- FrameProofs.ok _ _ _ _ _ (modI _) => eapply ok_modI; [eassumption|intro; split; reflexivity]
    | |- FrameProofs.ok _ _ _ _ _ (modS _) => eapply ok_modS; [eassumption|constructor]
    | |- FrameProofs.ok _ _ _ _ _ (ret _) => oa ok_ret
    | |- FrameProofs.ok _ _ _ _ _ (err _) => oa ok_err
    | |- FrameProofs.ok _ _ _ _ _ (ask _ _) => oa ok_ask
    | |- FrameProofs.ok _ _ _ _ _ (need_arg _ _ _) => oa ok_need_arg
    | |- FrameProofs.ok _ _ _ _ _ (need_i32 _ _ _) => oa ok_need_i32
    | |- FrameProofs.ok _ _ _ _ _ (put_data _ _) => oa ok_put_data
    | |- FrameProofs.ok _ _ _ _ _ (moveto _ _ _) => oa ok_moveto
    | |- FrameProofs.ok _ _ _ _ _ (lift_option _ _) => eapply ok_lift; [eassumption|pp]
    | |- FrameProofs.ok _ _ _ _ _ (panicM _) => eapply ok_panic; pp
    | |- FrameProofs.ok _ _ _ _ _ (child _ _ _) => eapply ok_child; [eassumption|eassumption|scope_ok]
    | |- FrameProofs.ok _ _ _ _ _ (parse_code _ _) => eapply ok_parse_code; [eassumption|eassumption|scope_ok]
    | |- FrameProofs.ok _ _ _ _ _ (child_in_cache _ _ _ _) => eapply ok_child_in_cache; [eassumption|eassumption|scope_ok]
    | |- FrameProofs.ok _ _ _ _ _ (with_child _ _) => eapply ok_with_rec; [eassumption|eassumption|scope_ok]
    | |- FrameProofs.ok _ _ _ _ _ (extract_params_code _ _) => oa ok_extract
    | |- FrameProofs.ok _ _ _ _ _ (extract_args _) => oa ok_args
    | |- FrameProofs.ok _ _ _ _ _ (get_data _) => oa ok_get_data
    | |- FrameProofs.ok _ _ _ _ _ (get_trans _) => oa ok_get_trans
    | |- FrameProofs.ok _ _ _ _ _ (no_flags) => oa ok_no_flags
    | |- FrameProofs.ok _ _ _ _ _ (check_flags _) => oa ok_check_flags
    | |- FrameProofs.ok _ _ _ _ _ (reject _) => oa ok_reject
    | |- FrameProofs.ok _ _ _ _ _ (echo_in_cache) => oa ok_echo
    | |- FrameProofs.ok _ _ _ _ _ (resolve_file _) => oa ok_resolve
    | |- FrameProofs.ok _ _ _ _ _ (read_or_empty _ _) => oa ok_read
    | |- FrameProofs.ok _ _ _ _ _ (debug_enable _) => oa ok_debug_enable
    | |- FrameProofs.ok _ _ _ _ _ (check_venv _ _) => oa ok_check_venv
    | |- FrameProofs.ok _ _ _ _ _ (redirect_url) => oa ok_redirect_url
    | |- FrameProofs.ok _ _ _ _ _ (cache_file_expires _ _ _) => oa ok_cache_expires
    | |- FrameProofs.ok _ _ _ _ _ (parse_obj_values _ _ _) => oa ok_obj_values
    | |- FrameProofs.ok _ _ _ _ _ (each_loop _ _ _ _ _) => oa ok_each_loop
    | |- FrameProofs.ok _ _ _ _ _ (for_loop _ _ _ _) => oa ok_for_loop
    | |- FrameProofs.ok _ _ _ _ _ (parse_parts _ _) => oa ok_parts
    | |- FrameProofs.ok _ _ _ _ _ (parse_str_value _ _) => oa ok_parse_str
    | |- FrameProofs.ok _ _ _ _ _ (bind getB _) => eapply ok_getB; intros ? ?
    | |- FrameProofs.ok _ _ _ _ _ (bind getI _) => eapply ok_getI; intros ?
    | |- FrameProofs.ok _ _ _ _ _ (bind getS _) => eapply ok_getS; intros ?
    | |- FrameProofs.ok _ _ _ _ _ (bind _ _) => eapply ok_bind; [eassumption| |intros ?]
    | |- FrameProofs.ok _ _ _ _ _ (if ?x then _ else _) => destruct x
    | |- FrameProofs.ok _ _ _ _ _ (match ?x with _ => _ end) => destruct x
    end.
  Ltac ok_now := cbv zeta; repeat (ok_step; cbv zeta).

  Ltac sim_step lib :=
    first
      [ match goal with |- sim ?a ?a => exact (sim_refl a) end
      | lib
      | apply sim_child; scope_ok
      | apply sim_with_rec; scope_ok
      | apply sim_getB; intros ? ?
      | apply sim_getI; intros ?
      | apply sim_getS; intros ?
      | match goal with |- sim (bind _ ?k) (bind _ ?k) => apply sim_bind_l end
      | apply sim_bind; [ok_now| |intros ?]
      | match goal with
        | |- sim (if ?x then _ else _) _ => destruct x
        | |- sim (match ?x with _ => _ end) _ => destruct x
        end ].
  Ltac sim_all lib := cbv zeta; repeat (sim_step lib; cbv zeta).

  Lemma sim_parse_code scope : (q = mStrict -> scope = false) -> sim (parse_code rec scope) (parse_code rec2 scope).
  Proof. intro HS. unfold parse_code. sim_all fail. Qed.
  Lemma sim_extract p : sim (extract_params_code rec p) (extract_params_code rec2 p).
  Proof. unfold extract_params_code. sim_all fail. Qed.
  Lemma sim_parts l : sim (parse_parts rec l) (parse_parts rec2 l).
  Proof. induction l as [|p r IH]; cbn [parse_parts]; [apply sim_refl|]. sim_all ltac:(exact IH). Qed.
  Lemma sim_args : sim (extract_args rec) (extract_args rec2).
  Proof. unfold extract_args. sim_all ltac:(apply sim_parts). Qed.
  Lemma sim_resolve : sim (resolve_file rec) (resolve_file rec2).
  Proof. unfold resolve_file. sim_all fail. Qed.
  Lemma sim_child_in_cache src scope r : (q = mStrict -> scope = false) ->
    sim (child_in_cache rec src scope r) (child_in_cache rec2 src scope r).
  Proof. intro HS. unfold child_in_cache. sim_all fail. Qed.
  Lemma sim_parse_str v : sim (parse_str_value rec v) (parse_str_value rec2 v).
  Proof. unfold parse_str_value. sim_all fail. Qed.

  Lemma sim_obj_values j : forall b, sim (parse_obj_values rec j b) (parse_obj_values rec2 j b).
  Proof.
    induction j as [| | | | |m Hm] using json_ind'; intro ir; cbn [parse_obj_values]; try apply sim_refl.
    apply sim_bind_l.
    induction Hm as [|[k v] r Hv _ IH]; [apply sim_refl|]. cbn [snd] in Hv.
    apply sim_bind; [ok_now|..|intro; apply sim_bind_l; exact IH].
    destruct (obj_file_key k); [apply sim_parse_str|].
    destruct (beq k (B "params") || ir); [|apply sim_refl].
    destruct v; try apply sim_parse_str. apply Hv.
  Qed.

  Lemma sim_each_loop kn vn l bl : sim (each_loop rec kn vn l bl) (each_loop rec2 kn vn l bl).
  Proof.
    induction l as [|[k v] r IH]; cbn [each_loop]; [apply sim_refl|].
    apply sim_bind; [unfold each_iter; ok_now| |intro; exact IH].
    unfold each_iter. sim_all fail.
  Qed.
  Lemma sim_for_loop v l bl : sim (for_loop rec v l bl) (for_loop rec2 v l bl).
  Proof.
    induction l as [|z r IH]; cbn [for_loop]; [apply sim_refl|].
    apply sim_bind; [unfold for_iter, set_data; ok_now| |intro; exact IH].
    unfold for_iter, set_data. sim_all fail.
  Qed.

  Ltac lib :=
    first [ apply sim_parse_code; scope_ok | apply sim_extract | apply sim_args | apply sim_resolve
          | apply sim_child_in_cache; scope_ok | apply sim_obj_values | apply sim_each_loop | apply sim_for_loop ].
  Ltac sim_handler :=
    unfold set_out, set_data, ask_exists, ask_canon, ask_read, ask_mkdir, ask_create, ask_write,
      ask_now, ask_rand, ask_rand_bytes, ask_python, ask_php;
    sim_all lib.

  Lemma sim_var : sim (bif_var rec) (bif_var rec2). Proof. unfold bif_var. sim_handler. Qed.
  Lemma sim_allow : sim (bif_allow env rec) (bif_allow env rec2). Proof. unfold bif_allow. sim_handler. Qed.
  Lemma sim_cond t : sim (bif_cond rec t) (bif_cond rec2 t). Proof. unfold bif_cond. sim_handler. Qed.
  Lemma sim_compare t : sim (bif_compare rec t) (bif_compare rec2 t). Proof. unfold bif_compare. sim_handler. Qed.
  Lemma sim_coalesce : sim (bif_coalesce rec) (bif_coalesce rec2). Proof. unfold bif_coalesce. sim_handler. Qed.
  Lemma sim_code : sim (bif_code rec) (bif_code rec2). Proof. unfold bif_code. sim_handler. Qed.
  Lemma sim_count : sim (bif_count_ rec) (bif_count_ rec2). Proof. unfold bif_count_. sim_handler. Qed.
  Lemma sim_each : sim (bif_each rec) (bif_each rec2). Proof. unfold bif_each. sim_handler. Qed.
  Lemma sim_else : sim (bif_else rec) (bif_else rec2). Proof. unfold bif_else. sim_handler. Qed.
  Lemma sim_eval : sim (bif_eval rec) (bif_eval rec2). Proof. unfold bif_eval. sim_handler. Qed.
  Lemma sim_exit : sim (bif_exit rec) (bif_exit rec2). Proof. unfold bif_exit. sim_handler. Qed.
  Lemma sim_fetch : sim (bif_fetch rec) (bif_fetch rec2). Proof. unfold bif_fetch. sim_handler. Qed.
  Lemma sim_flg : sim (bif_flg rec) (bif_flg rec2). Proof. unfold bif_flg. sim_handler. Qed.
  Lemma sim_for : sim (bif_for rec) (bif_for rec2). Proof. unfold bif_for. sim_handler. Qed.
  Lemma sim_hash : sim (bif_hash env rec) (bif_hash env rec2). Proof. unfold bif_hash. sim_handler. Qed.
  Lemma sim_date : sim (bif_date env rec) (bif_date env rec2). Proof. unfold bif_date. sim_handler. Qed.
  Lemma sim_debug : sim (bif_debug env rec) (bif_debug env rec2). Proof. unfold bif_debug. sim_handler. Qed.
  Lemma sim_join : sim (bif_join rec) (bif_join rec2). Proof. unfold bif_join. sim_handler. Qed.
  Lemma sim_moveto : sim (bif_moveto env rec) (bif_moveto env rec2). Proof. unfold bif_moveto. sim_handler. Qed.
  Lemma sim_rand : sim (bif_rand env rec) (bif_rand env rec2). Proof. unfold bif_rand. sim_handler. Qed.
  Lemma sim_redirect : sim (bif_redirect rec) (bif_redirect rec2). Proof. unfold bif_redirect. sim_handler. Qed.
  Lemma sim_replace : sim (bif_replace rec) (bif_replace rec2). Proof. unfold bif_replace. sim_handler. Qed.
  Lemma sim_sum : sim (bif_sum env rec) (bif_sum env rec2). Proof. unfold bif_sum. sim_handler. Qed.
  Lemma sim_trans : sim (bif_trans rec) (bif_trans rec2). Proof. unfold bif_trans. sim_handler. Qed.
  Lemma sim_obj : sim (bif_obj env rec) (bif_obj env rec2). Proof. unfold bif_obj. sim_handler. Qed.

  Lemma sim_hash_slice {A} (s : Shared) k (f g : bytes -> M A) : (forall x, sim (f x) (g x)) ->
    sim (bind (lift_option PHashSlice (cache_dir_of s (e_sha256 env k))) f)
        (bind (lift_option PHashSlice (cache_dir_of s (e_sha256 env k))) g).
  Proof.
    intro H. apply sim_bind; [|apply sim_refl|exact H]. unfold cache_dir_of.
    destruct (length (e_sha256 env k) <? 3) eqn:E; cbn [lift_option]; [|oa ok_ret].
    eapply ok_panic, (f_PP_hash _ _ _ _ F). exists k. apply Nat.ltb_lt. exact E.
  Qed.
  Lemma sim_cache : sim (bif_cache env rec) (bif_cache env rec2).
  Proof.
    unfold bif_cache, set_out, ask_exists, ask_read, ask_mkdir, ask_create, ask_write.
    sim_all ltac:(first [apply sim_hash_slice; intro | lib]).
  Qed.

  (** the bifs that define something *)
  Section Definers.
    Hypothesis Q : q = mFree.
    Lemma okF_create : ok create_schema.
    Proof. rewrite Q. oa ok_create. Qed.
    Ltac sim_def := unfold set_out, set_data, ask_exists, ask_canon, ask_read;
      sim_all ltac:(first [match goal with |- FrameProofs.ok _ _ _ _ _ create_schema => apply okF_create end | lib]).
    Lemma sim_declare : sim (bif_declare rec) (bif_declare rec2).
    Proof. unfold bif_declare. sim_def. Qed.
    Lemma sim_data : sim (bif_data env rec) (bif_data env rec2). Proof. unfold bif_data. sim_def. Qed.
    Lemma sim_locale : sim (bif_locale env rec) (bif_locale env rec2). Proof. unfold bif_locale. sim_def. Qed.
    Lemma sim_include : sim (bif_include env rec) (bif_include env rec2). Proof. unfold bif_include. sim_def. Qed.
    Lemma sim_param : sim (bif_param rec) (bif_param rec2). Proof. unfold bif_param. sim_def. Qed.
    Lemma sim_snippet : sim (bif_snippet rec) (bif_snippet rec2). Proof. unfold bif_snippet. sim_def. Qed.
  End Definers.
End Sim.

Section SimRun.
  Variable env : Env.
  Variable Inv : Shared -> bytes -> N -> Prop.
  Variable R : N -> Shared -> Shared -> Prop.
  Variable PP : panic -> Prop.
  Hypothesis F : frame env Inv R PP.
  Variable n : nat.
  Variable rec rec2 : evaluator.
  Hypothesis Hrec : ok_rec Inv R PP n rec.

  (** the two evaluators agree on the states in which a bif of the block [s, i] may call them *)
  Definition agree (q : mode) (s : Shared) (i : Inherit) : Prop :=
    forall s' i' src bl only,
      Inv s' i'.(indir) i'.(block_count) -> room n s' -> i'.(block_count) = (i.(block_count) + 1)%N ->
      R (lvl q i.(block_count)) s s' -> (q = mStrict -> i'.(indir) = i.(indir)) ->
      rec s' i' src bl only = rec2 s' i' src bl only.

  Lemma sim_dispatch q st0 nm : agree q st0.(sh) st0.(inh) -> (q = mFree \/ (q = mStrict /\ ~ In nm definers)) ->
    sim Inv R n q st0 (dispatch env rec nm) (dispatch env rec2 nm).
  Proof.
    intros HA HQ.
    assert (Forall2 (fun a b => fst a = fst b /\ ((q = mFree \/ (q = mStrict /\ ~ In (fst a) definers)) ->
              sim Inv R n q st0 (snd a) (snd b))) (handlers env rec) (handlers env rec2)) as H.
    { unfold handlers, bif_array, bif_bool, bif_defined, bif_filled, bif_same, bif_contains.
      repeat (apply Forall2_cons; [cbn [fst snd]; split; [reflexivity|intro HQ']|]); [..|apply Forall2_nil].
      - eapply sim_var; eassumption.
      - eapply sim_allow; eassumption.
      - eapply sim_cond; eassumption.
      - eapply sim_cond; eassumption.
      - eapply sim_cache; eassumption.
      - eapply sim_coalesce; eassumption.
      - eapply sim_code; eassumption.
      - eapply sim_compare; eassumption.
      - eapply sim_count; eassumption.
      - eapply sim_data; first [eassumption | destruct HQ' as [E|[_ N]]; [exact E|destruct N; cbn; tauto]].
      - eapply sim_date; eassumption.
      - eapply sim_declare; first [eassumption | destruct HQ' as [E|[_ N]]; [exact E|destruct N; cbn; tauto]].
      - eapply sim_cond; eassumption.
      - eapply sim_each; eassumption.
      - eapply sim_else; eassumption.
      - eapply sim_eval; eassumption.
      - eapply sim_exit; eassumption.
      - eapply sim_fetch; eassumption.
      - eapply sim_cond; eassumption.
      - eapply sim_flg; eassumption.
      - eapply sim_for; eassumption.
      - eapply sim_hash; eassumption.
      - eapply sim_include; first [eassumption | destruct HQ' as [E|[_ N]]; [exact E|destruct N; cbn; tauto]].
      - eapply sim_join; eassumption.
      - apply sim_refl.
      - eapply sim_locale; first [eassumption | destruct HQ' as [E|[_ N]]; [exact E|destruct N; cbn; tauto]].
      - eapply sim_moveto; eassumption.
      - apply sim_refl.
      - eapply sim_param; first [eassumption | destruct HQ' as [E|[_ N]]; [exact E|destruct N; cbn; tauto]].
      - eapply sim_rand; eassumption.
      - eapply sim_redirect; eassumption.
      - eapply sim_replace; eassumption.
      - eapply sim_compare; eassumption.
      - eapply sim_snippet; first [eassumption | destruct HQ' as [E|[_ N]]; [exact E|destruct N; cbn; tauto]].
      - eapply sim_snippet; first [eassumption | destruct HQ' as [E|[_ N]]; [exact E|destruct N; cbn; tauto]].
      - eapply sim_sum; eassumption.
      - eapply sim_trans; eassumption.
      - eapply sim_obj; eassumption.
      - eapply sim_debug; eassumption. }
    unfold dispatch. induction H as [|[k h] [k' h'] r r' [E H] _ IH]; cbn [lookup_handler]; [apply sim_refl|].
    cbn [fst snd] in *. subst k'. destruct (beq nm k) eqn:E; [|exact IH].
    apply beq_eq in E. subst k. apply H. exact HQ.
  Qed.

  Lemma bif_parse_agree q s i braw bonly : q = mFree \/ (q = mStrict /\ closed_bif braw) ->
    Inv s i.(indir) i.(block_count) -> room n s -> agree q s i ->
    bif_parse env rec s i braw bonly = bif_parse env rec2 s i braw bonly.
  Proof.
    intros HQ HI HF HA. unfold bif_parse.
    destruct (split_once (B ";") (strip_prefix_suffix braw BIF_OPEN BIF_CLOSE)) as [[nm rest]|] eqn:ES; [|reflexivity].
    destruct (negb (is_empty bonly) && negb (contains bonly nm) && negb (in_only i)); [reflexivity|].
    destruct (scan_modifiers nm false false false false) as [[nm' [[[f g] u] p]]|] eqn:EM; [|reflexivity].
    set (b := bset_mods f g u p _).
    assert (dispatch env rec nm' (mkSt s (iset_in_only true i) b) = dispatch env rec2 nm' (mkSt s (iset_in_only true i) b)) as ->;
      [|reflexivity].
    apply (sim_dispatch q (mkSt s (iset_in_only true i) b) nm').
    - exact HA.
    - destruct HQ as [->|[-> HC]]; [left; reflexivity|right; split; [reflexivity|apply (HC _ _ _ _ _ _ _ ES EM)]].
    - exact HI.
    - exact HF.
    - destruct HQ as [->|[-> HC]]; [exact I|apply (HC _ _ _ _ _ _ _ ES EM)].
    - apply (good_refl _ _ _ _ F). exact HI.
  Qed.

  Lemma bif_run_agree q s i braw bonly : q = mFree \/ (q = mStrict /\ closed_bif braw) -> s.(exit) = false ->
    Inv s i.(indir) i.(block_count) -> room (S n) s -> agree q s i ->
    bif_run env rec s i braw bonly = bif_run env rec2 s i braw bonly.
  Proof.
    intros HQ HE HI HF HA. unfold bif_run. destruct (bisf_max (cfg s) <? bisf_count s + 1)%N eqn:E; [reflexivity|].
    apply N.ltb_ge in E.
    destruct (f_H_count _ _ _ _ F s _ _ HE E HI) as [I1 _].
    assert (Inv s (indir i) (lvl q (block_count i))) as HIl.
    { destruct q; cbn [lvl]; [apply (f_H_enter _ _ _ _ F)|..]; exact HI. }
    destruct (f_H_count _ _ _ _ F s _ _ HE E HIl) as [_ R1].
    assert (room n (set_bisf_count (bisf_count s + 1) s)) as HF' by (unfold room in *; cbn; lia).
    apply (bif_parse_agree q); auto.
    intros s' i' src bl o I2 F2 B2 R2 S2. apply HA; auto. eapply (f_R_trans _ _ _ _ F); eassumption.
  Qed.

  Lemma blocks_loop_agree source bonly bl : forall s i prev acc,
    Inv s i.(indir) i.(block_count) -> room (S n) s -> agree mFree s i ->
    blocks_loop env rec s i source prev acc bl bonly = blocks_loop env rec2 s i source prev acc bl bonly.
  Proof.
    induction bl as [|[a z] r IH]; intros s i prev acc HI HF HA; cbn [blocks_loop]; [reflexivity|].
    destruct (exit s) eqn:EX; [reflexivity|].
    destruct (negb _ && negb _); [|apply IH; assumption].
    pose proof (bif_run_agree mFree s i (slice a z source) bonly (or_introl eq_refl) EX HI HF HA) as E. rewrite <- E.
    pose proof (okb_bif env Inv R PP F n rec Hrec mFree s i (slice a z source) bonly (or_introl eq_refl) EX HI HF) as H.
    destruct (bif_run env rec s i (slice a z source) bonly) as [o s' i'|p|]; [|reflexivity|reflexivity].
    cbn in H. destruct H as (I1 & R1 & B1 & _). apply IH.
    - rewrite B1. exact I1.
    - destruct (f_R_base _ _ _ _ F _ _ _ R1) as [Ec L]. unfold room in *. rewrite Ec. lia.
    - intros s2 i2 src bl2 o2 I2 F2 B2 R2 _. apply HA; auto; [congruence| |discriminate].
      cbn [lvl] in *. rewrite B1 in R2. eapply (f_R_trans _ _ _ _ F); eassumption.
  Qed.
End SimRun.
