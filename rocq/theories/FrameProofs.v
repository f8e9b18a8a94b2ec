(** * Engine-wide preservation: a relation closed under the primitive effects of the engine is
      preserved by every evaluation *)

From Verif Require Import Bytes Json Utils ConstantsGen State Engine Template Spec SpecEngine BytesFacts.

(** the block schema that belongs to the blocks of level [c] *)
Definition own_id (c : N) : bytes := if (c <? 1)%N then B "block_1" else block_id c.

(** the updates of the local schema made by the bifs that define something *)
Inductive local_def : (json -> option json) -> Prop :=
| ld_declare k v : local_def (upd (B "declare") (put k (JStr v)))
| ld_params k v : local_def (upd (B "params") (put k (JStr v)))
| ld_data d : local_def (upd (B "data") (fun old => Some (merge_schema_owned old d)))
| ld_locale d : local_def (upd (B "locale") (fun old => Some (merge_schema_owned old d))).
Inductive local_snip : (json -> option json) -> Prop :=
| ls_snip k v : local_snip (upd (B "snippets") (put k (JStr v)))
| ls_dir k v : local_snip (upd (B "snippets_set_dir") (put k (JStr v))).

(** the scripts that lead to another page *)
Inductive leading : bytes -> Prop :=
| le_reload_top : leading REDIR_JS_RELOAD_TOP
| le_reload_self : leading REDIR_JS_RELOAD_SELF
| le_redirect_top u : leading (replace (B "{}") u REDIR_JS_REDIRECT_TOP)
| le_redirect_self u : leading (replace (B "{}") u REDIR_JS_REDIRECT_SELF).
(** effects that touch neither the schema nor the local schemas nor the bif count *)
Inductive benign : (Shared -> Shared) -> Prop :=
| bn_event e : benign (add_event e)
| bn_sflags v : benign (set_sflags v)
| bn_exit v : benign (set_exit v)
| bn_status c p : benign (set_status c (status_text_of c) p)
| bn_redirect v : leading v -> benign (set_redirect_js v)
| bn_already : benign (set_already_js true).

Definition room (n : nat) (s : Shared) : Prop := N.to_nat (s.(cfg).(bisf_max) - s.(bisf_count)) < n.

(** [mStrict]: no scope modifier, the bif does not define anything; [mOwn]: a block schema has
    just been created for this level. *)
Inductive mode := mStrict | mFree | mOwn.


(** The hypotheses of the preservation theorem: [Inv s d c] is the invariant of the shared state
    seen from a block of level [c] whose local schema is [d]; [R c] relates the states before and
    after an evaluation at level [c]; [PP] are the panics that may happen. *)
Record frame (env : Env) (Inv : Shared -> bytes -> N -> Prop) (R : N -> Shared -> Shared -> Prop)
       (PP : panic -> Prop) : Prop := mkFrame {
  f_R_refl : forall c s, R c s s;
  f_R_trans : forall c s1 s2 s3, R c s1 s2 -> R c s2 s3 -> R c s1 s3;
  f_R_level : forall c s s', R (c + 1)%N s s' -> R c s s';
  f_R_base : forall c s s', R c s s' -> s'.(cfg) = s.(cfg) /\ (s.(bisf_count) <= s'.(bisf_count))%N;
  f_H_benign : forall f s d c, benign f -> Inv s d c -> Inv (f s) d c /\ R c s (f s);
  f_H_count : forall s d c, s.(exit) = false -> (s.(bisf_count) + 1 <= s.(cfg).(bisf_max))%N -> Inv s d c ->
    Inv (set_bisf_count (s.(bisf_count) + 1) s) d c /\ R c s (set_bisf_count (s.(bisf_count) + 1) s);
  f_H_error : forall l s d c, Inv s d c ->
    Inv (push_error (one_line l) s) d c /\ R c s (push_error (one_line l) s);
  f_H_data : forall nm v s d c, Inv s d c ->
    match upd (B "data") (put nm v) s.(schema) with
    | Some j => Inv (set_schema j s) d c /\ R c s (set_schema j s)
    | None => PP PIndex
    end;
  f_H_moveto : forall h to v s d c, Inv s d c ->
    match upd (B "__moveto") (put h (JObj [(to, JStr v)])) s.(schema) with
    | Some j => Inv (set_schema j s) d c /\ R c s (set_schema j s)
    | None => PP PIndex
    end;
  f_H_create : forall s i, Inv s i.(indir) i.(block_count) ->
    Inv (fst (create_block_schema s i)) (own_id i.(block_count)) i.(block_count) /\
    Inv (fst (create_block_schema s i)) i.(indir) i.(block_count) /\
    R i.(block_count) s (fst (create_block_schema s i));
  f_H_def : forall f s c, local_def f -> Inv s (own_id c) c ->
    match upd_indir (own_id c) f s with
    | Some s' => Inv s' (own_id c) c /\ R c s s'
    | None => PP PIndex
    end;
  f_H_snip : forall f s d c, local_snip f -> Inv s d c ->
    match upd_indir d f s with
    | Some s' => Inv s' d c /\ R c s s'
    | None => PP PIndex
    end;
  f_H_enter : forall s d c, Inv s d c -> Inv s d (c + 1)%N;
  f_H_leave : forall s d c s2 i2, Inv s d c -> R (c + 1)%N s s2 ->
    Inv s2 i2.(indir) (c + 1)%N -> i2.(block_count) = (c + 1)%N ->
    Inv (drop_block s2 i2) d c /\ R (c + 1)%N s (drop_block s2 i2);
  f_H_leave_scope : forall s c s2 i2, Inv s (own_id c) c -> R (c + 1)%N s s2 ->
    Inv s2 i2.(indir) (c + 1)%N -> i2.(block_count) = (c + 1)%N ->
    Inv (drop_block (update_indir s2 i2.(indir) (own_id c)) i2) (own_id c) c /\
    R c s (drop_block (update_indir s2 i2.(indir) (own_id c)) i2);
  f_H_show : forall s d c, Inv s d c -> show_error s = None -> PP PShow;
  f_PP_limit : PP PBifLimit;
  f_PP_name : PP PBifName;
  f_PP_comments : PP PRemoveComments;
  f_PP_canon : PP PCanonicalize;
  f_PP_objt : PP PObjTemplate;
  f_PP_count : PP PCountOverflow;
  f_PP_expire : PP PExpireOverflow;
  f_PP_date : PP PDate;
  f_PP_hash : (exists k, length (env.(e_sha256) k) < 3) -> PP PHashSlice }.

Section Frame.
  Variable env : Env.
  Variable Inv : Shared -> bytes -> N -> Prop.
  Variable R : N -> Shared -> Shared -> Prop.
  Variable PP : panic -> Prop.
  Hypothesis F : frame env Inv R PP.
  Let R_refl := f_R_refl _ _ _ _ F.
  Let R_trans := f_R_trans _ _ _ _ F.
  Let R_level := f_R_level _ _ _ _ F.
  Let R_base := f_R_base _ _ _ _ F.
  Let H_benign := f_H_benign _ _ _ _ F.
  Let H_count := f_H_count _ _ _ _ F.
  Let H_error := f_H_error _ _ _ _ F.
  Let H_data := f_H_data _ _ _ _ F.
  Let H_moveto := f_H_moveto _ _ _ _ F.
  Let H_create := f_H_create _ _ _ _ F.
  Let H_def := f_H_def _ _ _ _ F.
  Let H_snip := f_H_snip _ _ _ _ F.
  Let H_enter := f_H_enter _ _ _ _ F.
  Let H_leave := f_H_leave _ _ _ _ F.
  Let H_leave_scope := f_H_leave_scope _ _ _ _ F.
  Let H_show := f_H_show _ _ _ _ F.
  Let PP_limit := f_PP_limit _ _ _ _ F.
  Let PP_name := f_PP_name _ _ _ _ F.
  Let PP_comments := f_PP_comments _ _ _ _ F.
  Let PP_canon := f_PP_canon _ _ _ _ F.
  Let PP_objt := f_PP_objt _ _ _ _ F.
  Let PP_count := f_PP_count _ _ _ _ F.
  Let PP_expire := f_PP_expire _ _ _ _ F.
  Let PP_date := f_PP_date _ _ _ _ F.
  Let PP_hash := f_PP_hash _ _ _ _ F.

  Definition okb (n : nat) (s : Shared) (i : Inherit) (r : BRes) : Prop :=
    match r with
    | BOk _ s' i' => Inv s' i'.(indir) i.(block_count) /\ R i.(block_count) s s' /\
                     i'.(block_count) = i.(block_count)
    | BPanic p => PP p
    | BNoFuel => False
    end.

  Definition ok_rec (n : nat) (rec : Shared -> Inherit -> bytes -> list (nat * nat) -> bytes -> BRes) : Prop :=
    forall s i src bl only, Inv s i.(indir) i.(block_count) -> room n s -> okb n s i (rec s i src bl only).

  Variable n : nat.
  Variable rec : Shared -> Inherit -> bytes -> list (nat * nat) -> bytes -> BRes.
  Hypothesis Hrec : ok_rec n rec.

  Definition pre (q : mode) (st : St) : Prop :=
    match q with
    | mStrict => st.(bf).(mod_scope) = false
    | mFree => True
    | mOwn => st.(inh).(indir) = own_id st.(inh).(block_count)
    end.
  Definition lvl (q : mode) (c : N) : N := match q with mStrict => (c + 1)%N | _ => c end.

  Definition good (q : mode) (st st' : St) : Prop :=
    Inv st'.(sh) st'.(inh).(indir) st.(inh).(block_count) /\
    R (lvl q st.(inh).(block_count)) st.(sh) st'.(sh) /\
    st'.(inh).(block_count) = st.(inh).(block_count) /\
    (q = mStrict -> st'.(inh).(indir) = st.(inh).(indir)).

  Definition ok {A} (q : mode) (m : M A) : Prop :=
    forall st, Inv st.(sh) st.(inh).(indir) st.(inh).(block_count) -> room n st.(sh) -> pre q st ->
    match m st with
    | Done _ st' => good q st st' /\ pre q st'
    | Fail _ st' => good q st st'
    | Panic p => PP p
    | NoFuel => False
    end.

  Lemma room_mono s s' c : R c s s' -> room n s -> room n s'.
  Proof. intros H. apply R_base in H as [E L]. unfold room. rewrite E. lia. Qed.

  Lemma good_refl q st : Inv st.(sh) st.(inh).(indir) st.(inh).(block_count) -> good q st st.
  Proof. intro H. repeat split; auto. Qed.

  Lemma good_trans q a b c : good q a b -> good q b c -> good q a c.
  Proof.
    intros (I1 & R1 & B1 & S1) (I2 & R2 & B2 & S2). rewrite B1 in I2, R2, B2.
    split; [exact I2|]. split; [eapply R_trans; eassumption|]. split; [exact B2|].
    intro E. rewrite S2, S1 by exact E. reflexivity.
  Qed.

  Lemma ok_ret {A} q (x : A) : ok q (ret x).
  Proof. intros st H _ P. split; [apply good_refl; exact H|exact P]. Qed.

  Lemma ok_bind {A C} q (m : M A) (k : A -> M C) : ok q m -> (forall x, ok q (k x)) -> ok q (bind m k).
  Proof.
    intros Hm Hk st HI HF HP. unfold bind. specialize (Hm st HI HF HP).
    destruct (m st) as [x st1|e st1|p|]; [|exact Hm|exact Hm|exact Hm].
    destruct Hm as [G P1]. specialize (Hk x st1).
    destruct G as (I1 & R1 & B1 & S1).
    assert (good q st st1) as G by (repeat split; assumption).
    rewrite B1 in Hk. specialize (Hk I1 (room_mono _ _ _ R1 HF) P1).
    destruct (k x st1) as [y st2|e st2|p|]; [| |exact Hk|exact Hk].
    - destruct Hk as [G2 P2]. split; [|exact P2]. eapply good_trans; [exact G|]. exact G2.
    - eapply good_trans; [exact G|]. exact Hk.
  Qed.

  Lemma ok_getB {C} q (k : Bif -> M C) :
    (forall b, (q = mStrict -> b.(mod_scope) = false) -> ok q (k b)) -> ok q (bind getB k).
  Proof.
    intros Hk st HI HF HP. unfold bind, getB. apply Hk; try assumption.
    intros ->. exact HP.
  Qed.

  Lemma ok_getI {C} q (k : Inherit -> M C) : (forall i, ok q (k i)) -> ok q (bind getI k).
  Proof. intros Hk st HI HF HP. unfold bind, getI. apply Hk; assumption. Qed.

  Lemma ok_getS {C} q (k : Shared -> M C) : (forall s, ok q (k s)) -> ok q (bind getS k).
  Proof. intros Hk st HI HF HP. unfold bind, getS. apply Hk; assumption. Qed.

  Lemma ok_modB q (f : Bif -> Bif) : (forall b, (f b).(mod_scope) = b.(mod_scope)) -> ok q (modB f).
  Proof.
    intros Hf st HI HF HP. cbn. split; [repeat split; cbn; auto|].
    destruct q; cbn in *; [rewrite Hf; exact HP|exact I|exact HP].
  Qed.

  Lemma ok_modI q (f : Inherit -> Inherit) :
    (forall i, (f i).(indir) = i.(indir) /\ (f i).(block_count) = i.(block_count)) -> ok q (modI f).
  Proof.
    intros Hf st HI HF HP. unfold modI. destruct (Hf st.(inh)) as [E1 E2].
    split; [unfold good; cbn [sh inh]; rewrite ?E1, ?E2; repeat split; auto|].
    destruct q; cbn [pre inh bf] in *; [exact HP|exact I|rewrite E1, E2; exact HP].
  Qed.

  Lemma ok_modS q f : benign f -> ok q (modS f).
  Proof.
    intros Hf st HI HF HP. unfold modS.
    assert (Inv st.(sh) st.(inh).(indir) (lvl q st.(inh).(block_count))) as HI2
      by (destruct q; cbn [lvl]; [apply H_enter|..]; exact HI).
    destruct (H_benign f _ _ _ Hf HI2) as [_ HR].
    destruct (H_benign f st.(sh) _ _ Hf HI) as [HI' _].
    split; [repeat split; auto|]. destruct q; exact HP.
  Qed.

  Lemma ok_err {A} q msg : ok q (@err A msg).
  Proof. intros st HI HF HP. cbn. apply good_refl. exact HI. Qed.

  Lemma ok_panic {A} q p : PP p -> ok q (@panicM A p).
  Proof. intros H st _ _ _. exact H. Qed.

  Lemma ok_lift {A} q p (o : option A) : PP p -> ok q (lift_option p o).
  Proof. intro H. destruct o; [apply ok_ret|apply ok_panic; exact H]. Qed.

  Lemma ok_ask {A} q (f : trace -> A) ev : ok q (ask f ev).
  Proof.
    intros st HI HF HP. unfold ask.
    pose proof (ok_modS q (add_event (ev (f (strace (sh st))))) (bn_event _) st HI HF HP) as H.
    exact H.
  Qed.

  Lemma ok_need_arg q l k msg : ok q (need_arg l k msg).
  Proof. unfold need_arg. destruct (arg l k); [apply ok_ret|apply ok_err]. Qed.

  Lemma ok_need_i32 q l k msg : ok q (need_i32 l k msg).
  Proof.
    unfold need_i32. destruct (nth_error l k) as [b|]; [|apply ok_err].
    destruct (parse_i32 b); [apply ok_ret|apply ok_err].
  Qed.

  Lemma ok_put_data q nm v : ok q (put_data nm v).
  Proof.
    intros st HI HF HP. unfold put_data.
    pose proof (H_data nm v st.(sh) _ _ HI) as H1.
    assert (Inv st.(sh) st.(inh).(indir) (lvl q st.(inh).(block_count))) as HI2
      by (destruct q; cbn [lvl]; [apply H_enter|..]; exact HI).
    pose proof (H_data nm v st.(sh) _ _ HI2) as H2.
    destruct (upd (B "data") (put nm v) (schema (sh st))); [|exact H1].
    split; [split; [exact (proj1 H1)|split; [exact (proj2 H2)|split; auto]]|]. destruct q; exact HP.
  Qed.

  Lemma ok_moveto q to v : ok q (moveto env to v).
  Proof.
    intros st HI HF HP. unfold moveto. set (h := e_md5 env _).
    pose proof (H_moveto h to v st.(sh) _ _ HI) as H1.
    assert (Inv st.(sh) st.(inh).(indir) (lvl q st.(inh).(block_count))) as HI2
      by (destruct q; cbn [lvl]; [apply H_enter|..]; exact HI).
    pose proof (H_moveto h to v st.(sh) _ _ HI2) as H2.
    destruct (upd (B "__moveto") (put h (JObj [(to, JStr v)])) (schema (sh st))); [|exact H1].
    split; [split; [exact (proj1 H1)|split; [exact (proj2 H2)|split; auto]]|]. destruct q; exact HP.
  Qed.

  Lemma create_own s i : snd (create_block_schema s i) = iset_indir (own_id i.(block_count)) i.
  Proof. unfold create_block_schema, own_id. reflexivity. Qed.

  Lemma ok_create_own : forall st, Inv st.(sh) st.(inh).(indir) st.(inh).(block_count) -> room n st.(sh) ->
    match create_schema st with
    | Done _ st' => good mFree st st' /\ pre mOwn st'
    | _ => False
    end.
  Proof.
    intros st HI HF. unfold create_schema. destruct (H_create _ _ HI) as (H1 & _ & H2).
    pose proof (create_own st.(sh) st.(inh)) as E.
    destruct (create_block_schema (sh st) (inh st)) as [s' i']. cbn [fst snd] in *. subst i'.
    split; [repeat split; auto; discriminate|]. reflexivity.
  Qed.

  Lemma ok_create_then {C} (k : M C) : ok mOwn k -> ok mFree (bind create_schema (fun _ => k)).
  Proof.
    intros Hk st HI HF HP. unfold bind. pose proof (ok_create_own st HI HF) as H.
    destruct (create_schema st) as [x st1|e st1|p|]; try contradiction.
    destruct H as [(I1 & R1 & B1 & S1) P1]. specialize (Hk st1). rewrite B1 in Hk.
    specialize (Hk I1 (room_mono _ _ _ R1 HF) P1).
    destruct (k st1) as [y st2|e st2|p|]; [| |exact Hk|exact Hk].
    - destruct Hk as [(I2 & R2 & B2 & S2) P2]. split; [|exact I].
      rewrite B1 in I2, R2, B2. split; [exact I2|]. split; [eapply R_trans; eassumption|]. split; [exact B2|discriminate].
    - destruct Hk as (I2 & R2 & B2 & S2).
      rewrite B1 in I2, R2, B2. split; [exact I2|]. split; [eapply R_trans; eassumption|]. split; [exact B2|discriminate].
  Qed.

  Lemma ok_create : ok mFree create_schema.
  Proof.
    intros st HI HF HP. pose proof (ok_create_own st HI HF) as H.
    destruct (create_schema st); try contradiction. split; [apply H|exact I].
  Qed.

  Lemma ok_def f : local_def f -> ok mOwn (upd_local f).
  Proof.
    intros Hf st HI HF HP. unfold upd_local. cbn in HP. rewrite HP in *.
    pose proof (H_def f st.(sh) _ Hf HI) as H.
    destruct (upd_indir (own_id (block_count (inh st))) f (sh st)); [|exact H].
    destruct H as [H1 H2]. split; [|exact HP]. unfold good. cbn [sh inh]. rewrite HP.
    repeat split; auto.
  Qed.

  Lemma ok_snip q f : q <> mStrict -> local_snip f -> ok q (upd_local f).
  Proof.
    intros Q Hf st HI HF HP. unfold upd_local.
    pose proof (H_snip f st.(sh) _ _ Hf HI) as H.
    destruct (upd_indir (indir (inh st)) f (sh st)); [|exact H].
    destruct H as [H1 H2]. split; [|destruct q; exact HP]. unfold good. cbn [sh inh].
    split; [exact H1|]. split; [destruct q; [congruence|exact H2|exact H2]|]. split; auto.
  Qed.

  (** nested blocks *)
  Definition ok_block (p : Shared -> Inherit -> BRes) : Prop :=
    forall s i, Inv s i.(indir) i.(block_count) -> room n s -> okb n s i (p s i).

  Lemma ok_block_parse src only : ok_block (fun s i => block_parse rec s i src only).
  Proof.
    intros s i HI HF. unfold block_parse. destruct (extract_blocks src) as [bl|p].
    - apply Hrec; assumption.
    - unfold okb, handle_unmatched.
      destruct (H_benign _ _ _ _ (bn_status (B "500") (B "Unmatched block at position " ++ dec_nat p)) HI) as [H1 H2].
      split; [exact H1|]. split; [exact H2|reflexivity].
  Qed.

  Lemma ok_with_child q scope p : ok_block p -> (q = mStrict -> scope = false) -> ok q (with_child scope p).
  Proof.
    intros Hp HS st HI HF HP. unfold with_child.
    set (ci0 := iset_alias (alias (bf st)) (inh st)).
    set (ci1 := if is_empty (file_path (bf st)) then ci0 else iset_current_file (file_path (bf st)) ci0).
    set (ci2 := if is_empty (dir (bf st)) then ci1 else iset_current_dir (dir (bf st)) ci1).
    assert (indir ci2 = indir (inh st) /\ block_count ci2 = block_count (inh st)) as [EI EC].
    { unfold ci2, ci1, ci0. destruct (is_empty (dir (bf st))), (is_empty (file_path (bf st))); split; reflexivity. }
    destruct scope.
    - pose proof (create_own st.(sh) st.(inh)) as EO.
      destruct (H_create _ _ HI) as (HI1 & HI0 & HR1).
      destruct (create_block_schema (sh st) (inh st)) as [s1 i1]. cbn [fst snd] in *. subst i1.
      set (c := block_count (inh st)) in *.
      set (ci := iset_block_count (block_count ci2 + 1) ci2).
      assert (indir ci = indir (inh st) /\ block_count ci = (c + 1)%N) as [EI' EC'].
      { unfold ci. cbn. rewrite EC. split; [exact EI|reflexivity]. }
      assert (Inv s1 (indir ci) (block_count ci)) as HIc by (rewrite EI', EC'; apply H_enter; exact HI0).
      specialize (Hp s1 ci HIc (room_mono _ _ _ HR1 HF)). unfold okb in Hp.
      destruct (p s1 ci) as [o s2 ci3|q'|]; [|exact Hp|exact Hp].
      destruct Hp as (HI2 & HR2 & EC3). rewrite EC' in HI2, HR2, EC3.
      destruct (H_leave_scope s1 c s2 ci3 HI1 HR2 HI2 EC3) as [HI3 HR3].
      cbn [indir iset_indir]. assert (q <> mStrict) as Q by (intro E; specialize (HS E); discriminate).
      split.
      + unfold good. cbn [sh inh indir iset_indir block_count]. fold c. split; [exact HI3|].
        split; [|split; [reflexivity|intro; contradiction]].
        assert (lvl q c = c) as -> by (destruct q; [congruence|reflexivity|reflexivity]).
        eapply R_trans; [exact HR1|exact HR3].
      + destruct q; [congruence|exact I|]. cbn. reflexivity.
    - set (c := block_count (inh st)) in *.
      set (ci := iset_block_count (block_count ci2 + 1) ci2).
      assert (indir ci = indir (inh st) /\ block_count ci = (c + 1)%N) as [EI' EC'].
      { unfold ci. cbn. rewrite EC. split; [exact EI|reflexivity]. }
      assert (Inv (sh st) (indir ci) (block_count ci)) as HIc by (rewrite EI', EC'; apply H_enter; exact HI).
      specialize (Hp (sh st) ci HIc HF). unfold okb in Hp.
      destruct (p (sh st) ci) as [o s2 ci3|q'|]; [|exact Hp|exact Hp].
      destruct Hp as (HI2 & HR2 & EC3). rewrite EC' in HI2, HR2, EC3.
      destruct (H_leave (sh st) _ c s2 ci3 HI HR2 HI2 EC3) as [HI3 HR3].
      split.
      + unfold good. cbn [sh inh]. fold c. split; [exact HI3|].
        split; [|split; [reflexivity|reflexivity]].
        destruct q; cbn [lvl]; [exact HR3|apply R_level; exact HR3|apply R_level; exact HR3].
      + destruct q; exact HP.
  Qed.

  Lemma ok_child q src scope : (q = mStrict -> scope = false) -> ok q (child rec src scope).
  Proof.
    intros HS st HI HF HP. unfold child.
    apply (ok_with_child q scope (fun s i => block_parse rec s i src (only (bf st)))); auto.
    apply ok_block_parse.
  Qed.

  (** ** The handlers *)
  Ltac pp := first [exact PP_limit | exact PP_name | exact PP_comments | exact PP_canon | exact PP_objt | exact PP_count
                    | exact PP_expire | exact PP_date].
  Ltac ok_step :=
    match goal with
    | |- ok _ (bind create_schema _) => apply ok_create_then
    | |- ok _ (create_schema) => apply ok_create
    | |- ok _ (upd_local _) => first [apply ok_def; constructor | apply ok_snip; [discriminate|constructor]]
    | |- ok _ (modB _) => apply ok_modB; reflexivity
    | |- ok _ (modI _) => apply ok_modI; intro; split; reflexivity
    | |- ok _ (modS _) => apply ok_modS; constructor; try (constructor; fail)
    | |- ok _ (ret _) => apply ok_ret
    | |- ok _ (err _) => apply ok_err
    | |- ok _ (ask _ _) => apply ok_ask
    | |- ok _ (need_arg _ _ _) => apply ok_need_arg
    | |- ok _ (need_i32 _ _ _) => apply ok_need_i32
    | |- ok _ (put_data _ _) => apply ok_put_data
    | |- ok _ (moveto _ _ _) => apply ok_moveto
    | |- ok _ (lift_option _ _) => apply ok_lift; pp
    | |- ok _ (panicM _) => apply ok_panic; pp
    | |- ok _ (child _ _ _) => apply ok_child; solve [assumption | intro; reflexivity | discriminate]
    | |- ok _ (bind getB _) => apply ok_getB; intros ? ?
    | |- ok _ (bind getI _) => apply ok_getI; intros ?
    | |- ok _ (bind getS _) => apply ok_getS; intros ?
    | |- ok _ (bind _ _) => apply ok_bind; [|intros ?]
    | |- ok _ (if ?x then _ else _) => destruct x
    | |- ok _ (match ?x with _ => _ end) => destruct x
    end.
  Ltac ok_all := cbv zeta; repeat (ok_step; cbv zeta).

  Lemma ok_parse_code q scope : (q = mStrict -> scope = false) -> ok q (parse_code rec scope).
  Proof. intro HS. unfold parse_code. ok_all. Qed.

  Lemma ok_extract q p : ok q (extract_params_code rec p).
  Proof. unfold extract_params_code. ok_all. Qed.

  Lemma ok_parts q l : ok q (parse_parts rec l).
  Proof. induction l as [|p r IH]; cbn [parse_parts]; ok_all. exact IH. Qed.

  Lemma ok_args q : ok q (extract_args rec).
  Proof. unfold extract_args. ok_all. apply ok_parts. Qed.

  Lemma ok_get_data q nm : ok q (get_data nm).
  Proof. unfold get_data. ok_all. Qed.
  Lemma ok_get_trans q nm : ok q (get_trans nm).
  Proof. unfold get_trans. ok_all. Qed.
  Lemma ok_no_flags q : ok q no_flags.
  Proof. unfold no_flags. ok_all. Qed.
  Lemma ok_check_flags q l : ok q (check_flags l).
  Proof. unfold check_flags. ok_all. Qed.
  Lemma ok_reject q t : ok q (reject t).
  Proof. unfold reject. ok_all. Qed.
  Lemma ok_echo q : ok q echo_in_cache.
  Proof. unfold echo_in_cache, set_out. ok_all. Qed.

  Lemma ok_resolve q : ok q (resolve_file rec).
  Proof. unfold resolve_file. ok_all. Qed.
  Lemma ok_read q p : ok q (read_or_empty env p).
  Proof. unfold read_or_empty, ask_read. ok_all. Qed.
  Lemma ok_debug_enable q : ok q (debug_enable env).
  Proof. unfold debug_enable, ask_exists, ask_is_file, ask_age. ok_all. Qed.
  Lemma ok_check_venv q v : ok q (check_venv env v).
  Proof. unfold check_venv, ask_exists. ok_all. Qed.
  Lemma ok_redirect_url q : ok q redirect_url.
  Proof. unfold redirect_url. ok_all. Qed.
  Lemma ok_cache_expires q p e : ok q (cache_file_expires env p e).
  Proof. unfold cache_file_expires, ask_now, ask_mtime. ok_all. Qed.
  Lemma ok_child_in_cache q src scope r : (q = mStrict -> scope = false) -> ok q (child_in_cache rec src scope r).
  Proof. intro HS. unfold child_in_cache. ok_all. Qed.
  Lemma ok_parse_str q v : ok q (parse_str_value rec v).
  Proof. unfold parse_str_value. ok_all. Qed.

  Lemma ok_obj_values q j : forall b, ok q (parse_obj_values rec j b).
  Proof.
    induction j as [| | | | |m Hm] using json_ind'; intro ir; cbn [parse_obj_values]; try apply ok_ret.
    apply ok_bind; [|intro; apply ok_ret].
    induction Hm as [|[k v] r Hv _ IH]; [apply ok_ret|].
    apply ok_bind; [|intro; apply ok_bind; [exact IH|intro; apply ok_ret]].
    cbn [snd] in Hv.
    destruct (obj_file_key k); [apply ok_parse_str|].
    destruct (beq k (B "params") || ir); [|apply ok_ret].
    destruct v; try apply ok_parse_str. apply Hv.
  Qed.

  Lemma ok_with_rec q scope c bl o : (q = mStrict -> scope = false) ->
    ok q (with_child scope (fun s i => rec s i c bl o)).
  Proof. intro HS. apply ok_with_child; [|exact HS]. intros s i HI HF. apply Hrec; assumption. Qed.

  Lemma ok_each_loop q kn vn l bl : ok q (each_loop rec kn vn l bl).
  Proof.
    induction l as [|[k v] r IH]; cbn [each_loop]; [apply ok_ret|]. apply ok_bind; [|intro; exact IH].
    unfold each_iter. ok_all. apply ok_with_rec. assumption.
  Qed.
  Lemma ok_for_loop q v l bl : ok q (for_loop rec v l bl).
  Proof.
    induction l as [|z r IH]; cbn [for_loop]; [apply ok_ret|]. apply ok_bind; [|intro; exact IH].
    unfold for_iter, set_data. ok_all. apply ok_with_rec. assumption.
  Qed.

  Ltac ok_lib :=
    match goal with
    | |- ok _ (parse_code _ _) => apply ok_parse_code; solve [assumption | intro; reflexivity]
    | |- ok _ (child_in_cache _ _ _ _) => apply ok_child_in_cache; assumption
    | |- ok _ (with_child _ _) => apply ok_with_rec; assumption
    | |- ok _ (extract_params_code _ _) => apply ok_extract
    | |- ok _ (extract_args _) => apply ok_args
    | |- ok _ (get_data _) => apply ok_get_data
    | |- ok _ (get_trans _) => apply ok_get_trans
    | |- ok _ (no_flags) => apply ok_no_flags
    | |- ok _ (check_flags _) => apply ok_check_flags
    | |- ok _ (reject _) => apply ok_reject
    | |- ok _ (echo_in_cache) => apply ok_echo
    | |- ok _ (resolve_file _) => apply ok_resolve
    | |- ok _ (read_or_empty _ _) => apply ok_read
    | |- ok _ (debug_enable _) => apply ok_debug_enable
    | |- ok _ (check_venv _ _) => apply ok_check_venv
    | |- ok _ (redirect_url) => apply ok_redirect_url
    | |- ok _ (cache_file_expires _ _ _) => apply ok_cache_expires
    | |- ok _ (parse_obj_values _ _ _) => apply ok_obj_values
    | |- ok _ (each_loop _ _ _ _ _) => apply ok_each_loop
    | |- ok _ (for_loop _ _ _ _) => apply ok_for_loop
    end.
  Ltac ok_handler :=
    unfold set_out, set_data, ask_exists, ask_canon, ask_read, ask_mkdir, ask_create, ask_write,
      ask_now, ask_rand, ask_rand_bytes, ask_python, ask_php;
    cbv zeta; repeat (first [ok_lib | ok_step]; cbv zeta).

  Lemma ok_var q : ok q (bif_var rec). Proof. unfold bif_var. ok_handler. Qed.
  Lemma ok_allow q : ok q (bif_allow env rec). Proof. unfold bif_allow. ok_handler. Qed.
  Lemma ok_cond q t : ok q (bif_cond rec t). Proof. unfold bif_cond. ok_handler. Qed.
  Lemma ok_compare q t : ok q (bif_compare rec t). Proof. unfold bif_compare. ok_handler. Qed.
  Lemma ok_coalesce q : ok q (bif_coalesce rec). Proof. unfold bif_coalesce. ok_handler. Qed.
  Lemma ok_code q : ok q (bif_code rec). Proof. unfold bif_code. ok_handler. Qed.
  Lemma ok_count q : ok q (bif_count_ rec). Proof. unfold bif_count_. ok_handler. Qed.
  Lemma ok_each q : ok q (bif_each rec). Proof. unfold bif_each. ok_handler. Qed.
  Lemma ok_else q : ok q (bif_else rec). Proof. unfold bif_else. ok_handler. Qed.
  Lemma ok_eval q : ok q (bif_eval rec). Proof. unfold bif_eval. ok_handler. Qed.
  Lemma ok_exit q : ok q (bif_exit rec). Proof. unfold bif_exit. ok_handler. Qed.
  Lemma ok_fetch q : ok q (bif_fetch rec). Proof. unfold bif_fetch. ok_handler. Qed.
  Lemma ok_flg q : ok q (bif_flg rec). Proof. unfold bif_flg. ok_handler. Qed.
  Lemma ok_for q : ok q (bif_for rec). Proof. unfold bif_for. ok_handler. Qed.
  Lemma ok_hash q : ok q (bif_hash env rec). Proof. unfold bif_hash. ok_handler. Qed.
  Lemma ok_date q : ok q (bif_date env rec). Proof. unfold bif_date. ok_handler. Qed.
  Lemma ok_debug q : ok q (bif_debug env rec). Proof. unfold bif_debug. ok_handler. Qed.
  Lemma ok_join q : ok q (bif_join rec). Proof. unfold bif_join. ok_handler. Qed.
  Lemma ok_lang q : ok q bif_lang. Proof. unfold bif_lang. ok_handler. Qed.
  Lemma ok_bif_moveto q : ok q (bif_moveto env rec). Proof. unfold bif_moveto. ok_handler. Qed.
  Lemma ok_neutral q : ok q bif_neutral. Proof. unfold bif_neutral. ok_handler. Qed.
  Lemma ok_rand q : ok q (bif_rand env rec). Proof. unfold bif_rand. ok_handler. Qed.
  Lemma ok_redirect q : ok q (bif_redirect rec). Proof. unfold bif_redirect. ok_handler. Qed.
  Lemma ok_replace q : ok q (bif_replace rec). Proof. unfold bif_replace. ok_handler. Qed.
  Lemma ok_sum q : ok q (bif_sum env rec). Proof. unfold bif_sum. ok_handler. Qed.
  Lemma ok_trans q : ok q (bif_trans rec). Proof. unfold bif_trans. ok_handler. Qed.
  Lemma ok_unknown q : ok q bif_unknown. Proof. unfold bif_unknown. ok_handler. Qed.
  Lemma ok_obj q : ok q (bif_obj env rec). Proof. unfold bif_obj. ok_handler. Qed.

  Lemma ok_hash_slice {A} q (s : Shared) k (f : bytes -> M A) : (forall x, ok q (f x)) ->
    ok q (bind (lift_option PHashSlice (cache_dir_of s (e_sha256 env k))) f).
  Proof.
    intro H. apply ok_bind; [|exact H]. unfold cache_dir_of.
    destruct (length (e_sha256 env k) <? 3) eqn:E; cbn [lift_option]; [|apply ok_ret].
    apply ok_panic, PP_hash. exists k. apply Nat.ltb_lt. exact E.
  Qed.
  Lemma ok_cache q : ok q (bif_cache env rec).
  Proof.
    unfold bif_cache, set_out, ask_exists, ask_read, ask_mkdir, ask_create, ask_write.
    cbv zeta; repeat (first [apply ok_hash_slice; intro | ok_lib | ok_step]; cbv zeta).
  Qed.

  (** the bifs that define something *)
  Lemma ok_declare : ok mFree (bif_declare rec). Proof. unfold bif_declare. ok_handler. Qed.
  Lemma ok_merge_data j : ok mFree (merge_local_data j). Proof. unfold merge_local_data. ok_handler. Qed.
  Lemma ok_merge_locale j : ok mFree (merge_local_locale j). Proof. unfold merge_local_locale. ok_handler. Qed.
  Lemma ok_data : ok mFree (bif_data env rec).
  Proof. unfold bif_data. ok_handler; apply ok_merge_data. Qed.
  Lemma ok_locale : ok mFree (bif_locale env rec).
  Proof. unfold bif_locale. ok_handler; apply ok_merge_locale. Qed.
  Lemma ok_include : ok mFree (bif_include env rec). Proof. unfold bif_include. ok_handler. Qed.
  Lemma ok_param : ok mFree (bif_param rec). Proof. unfold bif_param. ok_handler. Qed.
  Lemma ok_snippet : ok mFree (bif_snippet rec). Proof. unfold bif_snippet. ok_handler. Qed.
End Frame.
