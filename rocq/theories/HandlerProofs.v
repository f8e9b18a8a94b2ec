(** * Symbolic execution of the bif handlers *)

From Verif Require Import Bytes Json Utils ConstantsGen State Engine Template Spec SpecEngine BytesFacts
  FrameProofs FrameRun EngineFrames MoreFrames EvalProofs KeepProofs.

(** ** Steps of the monad *)
Lemma bind_bind {A C D} (m : M A) (k : A -> M C) (h : C -> M D) st :
  bind (bind m k) h st = bind m (fun x => bind (k x) h) st.
Proof. unfold bind. destruct (m st); reflexivity. Qed.
Lemma bind_getB {C} (k : Bif -> M C) s i b : bind getB k (mkSt s i b) = k b (mkSt s i b).
Proof. reflexivity. Qed.
Lemma bind_getI {C} (k : Inherit -> M C) s i b : bind getI k (mkSt s i b) = k i (mkSt s i b).
Proof. reflexivity. Qed.
Lemma bind_getS {C} (k : Shared -> M C) s i b : bind getS k (mkSt s i b) = k s (mkSt s i b).
Proof. reflexivity. Qed.
Lemma bind_modB {C} f (k : unit -> M C) s i b : bind (modB f) k (mkSt s i b) = k tt (mkSt s i (f b)).
Proof. reflexivity. Qed.
Lemma bind_modI {C} f (k : unit -> M C) s i b : bind (modI f) k (mkSt s i b) = k tt (mkSt s (f i) b).
Proof. reflexivity. Qed.
Lemma bind_modS {C} f (k : unit -> M C) s i b : bind (modS f) k (mkSt s i b) = k tt (mkSt (f s) i b).
Proof. reflexivity. Qed.
Lemma bind_ret {A C} (x : A) (k : A -> M C) st : bind (ret x) k st = k x st.
Proof. reflexivity. Qed.
Lemma bind_err {A C} msg (k : A -> M C) s i b :
  bind (err msg) k (mkSt s i b) = Fail (mkErr msg i.(current_file) b.(alias) b.(raw)) (mkSt s i b).
Proof. reflexivity. Qed.
Lemma bind_panic {A C} p (k : A -> M C) st : bind (panicM p) k st = Panic p.
Proof. reflexivity. Qed.
Lemma bind_done {A C} (m : M A) (k : A -> M C) st x st' : m st = Done x st' -> bind m k st = k x st'.
Proof. unfold bind. intros ->. reflexivity. Qed.
Lemma bind_fail {A C} (m : M A) (k : A -> M C) st e st' : m st = Fail e st' -> bind m k st = Fail e st'.
Proof. unfold bind. intros ->. reflexivity. Qed.
Lemma bind_ask {A C} (q : trace -> A) ev (k : A -> M C) s i b :
  bind (ask q ev) k (mkSt s i b) = k (q s.(strace)) (mkSt (add_event (ev (q s.(strace))) s) i b).
Proof. reflexivity. Qed.
Lemma bind_if {A C} (c : bool) (m1 m2 : M A) (k : A -> M C) st :
  bind (if c then m1 else m2) k st = if c then bind m1 k st else bind m2 k st.
Proof. destruct c; reflexivity. Qed.
Lemma app_if {A} (c : bool) (m1 m2 : M A) st : (if c then m1 else m2) st = if c then m1 st else m2 st.
Proof. destruct c; reflexivity. Qed.
Lemma bind_reject {C} t (k : unit -> M C) s i b : t b = false -> bind (reject t) k (mkSt s i b) = k tt (mkSt s i b).
Proof. unfold reject, bind, getB. cbn [bf]. intros ->. reflexivity. Qed.
Lemma bind_rejected {C} t (k : unit -> M C) s i b : t b = true ->
  bind (reject t) k (mkSt s i b) = Fail (mkErr E_MODIFIER i.(current_file) b.(alias) b.(raw)) (mkSt s i b).
Proof. unfold reject, bind, getB. cbn [bf]. intros ->. reflexivity. Qed.
Lemma bind_no_flags {C} (k : unit -> M C) s i b : bflags b = [] -> bind no_flags k (mkSt s i b) = k tt (mkSt s i b).
Proof. unfold no_flags, bind, getB. cbn [bf]. intros ->. reflexivity. Qed.
Lemma bind_flags {C} (k : unit -> M C) s i b : bflags b <> [] ->
  bind no_flags k (mkSt s i b) = Fail (mkErr E_FLAGS i.(current_file) b.(alias) b.(raw)) (mkSt s i b).
Proof. unfold no_flags, bind, getB. cbn [bf]. destruct (bflags b); [congruence|reflexivity]. Qed.

(** the results of evaluations inside the monad *)
Definition onto {A} (b : Bif) (r : BRes) (f : bytes -> A) (g : bytes -> Bif -> Bif) : Res A :=
  match r with
  | BOk o s i => Done (f o) (mkSt s i (g o b))
  | BPanic p => Panic p
  | BNoFuel => NoFuel
  end.

Section Steps.
  Variable env : Env.
  Variable n : nat.
  Notation rec := (run_blocks env n).

  Lemma child_nested s i b src : room n s -> file_path b = [] -> dir b = [] ->
    child rec src false (mkSt s i b) =
    onto b (eval_nested env (alias b) s i src (only b)) (fun o => o) (fun _ b => b).
  Proof.
    intros HR HF HD. unfold child, with_child. cbn [bf sh inh]. rewrite HF, HD. cbn [is_empty].
    rewrite block_parse_any by exact HR. unfold eval_nested, onto.
    change (iset_block_count (block_count (iset_alias (alias b) i) + 1) (iset_alias (alias b) i)) with (inside (alias b) i).
    destruct (parse env s (inside (alias b) i) src (only b)); reflexivity.
  Qed.

  Lemma room_create s i : room n s -> room n (fst (create_block_schema s i)).
  Proof. intro H. destruct (create_store s i) as [x ->]. exact H. Qed.

  Lemma child_scoped s i b src : room n s -> file_path b = [] -> dir b = [] ->
    child rec src true (mkSt s i b) =
    onto b (eval_scoped env (alias b) s i src (only b)) (fun o => o) (fun _ b => b).
  Proof.
    intros HR HF HD. unfold child, with_child. cbn [bf sh inh]. rewrite HF, HD. cbn [is_empty].
    unfold eval_scoped, onto. pose proof (room_create s i HR) as HR2.
    destruct (create_block_schema s i) as [s1 i1]. cbn [fst] in HR2.
    rewrite block_parse_any by exact HR2.
    change (iset_block_count (block_count (iset_alias (alias b) i) + 1) (iset_alias (alias b) i)) with (inside (alias b) i).
    destruct (parse env s1 (inside (alias b) i) src (only b)); reflexivity.
  Qed.

  Lemma child_any s i b src plus : room n s -> file_path b = [] -> dir b = [] ->
    child rec src plus (mkSt s i b) =
    onto b (if plus then eval_scoped env (alias b) s i src (only b) else eval_nested env (alias b) s i src (only b))
      (fun o => o) (fun _ b => b).
  Proof. destruct plus; [apply child_scoped|apply child_nested]. Qed.

  Lemma bset_code_id b : bset_code (code b) b = b.
  Proof. destruct b; reflexivity. Qed.

  Lemma run_code s i b plus : room n s -> file_path b = [] -> dir b = [] ->
    parse_code rec plus (mkSt s i b) =
    onto b (eval_code env (alias b) plus s i (code b) (only b)) (fun _ => tt) bset_code.
  Proof.
    intros HR HF HD. unfold parse_code, eval_code. rewrite bind_getB.
    change BIF_OPEN with (B "{:"). destruct (contains (B "{:") (code b)).
    - unfold bind. rewrite child_any by assumption.
      destruct plus; [destruct (eval_scoped _ _ _ _ _ _)|destruct (eval_nested _ _ _ _ _ _)]; reflexivity.
    - cbn [onto ret]. rewrite bset_code_id. reflexivity.
  Qed.

  Lemma run_extract s i b body p fl s1 : room n s -> file_path b = [] -> dir b = [] -> bflags b = [] ->
    src b = trim body -> prepared env (alias b) s i (only b) body p fl s1 ->
    extract_params_code rec true (mkSt s i b) =
    Done (separated body) (mkSt s1 i (bset_flags fl (bset_params p (bset_code (code_of body) b)))).
  Proof.
    intros HR HF HD HB HS HP. unfold extract_params_code. rewrite bind_getB, HS.
    assert (forall {C} (k : unit -> M C),
      bind (match get_code_position (trim body) with
            | Some p => modB (fun b => bset_code (trim (skipn (p + 2) b.(src))) (bset_params (trim (firstn p b.(src))) b))
            | None => modB (fun b => bset_code (trim b.(src)) (bset_params [] b))
            end) k (mkSt s i b)
      = k tt (mkSt s i (bset_code (code_of body) (bset_params (params_of body) b)))) as E.
    { intros C k. unfold code_of, params_of. rewrite <- HS. destruct (get_code_position (src b)); reflexivity. }
    rewrite E. clear E. rewrite bind_getB. cbn [bset_code bset_params params].
    unfold separated.
    inversion HP as [HN|p' s1' i1 HO HE]; subst.
    - assert (contains BIF_OPEN (params_of body) = false) as EC
        by (destruct (contains BIF_OPEN (params_of body)) eqn:E; [|reflexivity]; apply contains_iff in E; contradiction).
      rewrite EC. cbn [andb]. rewrite bind_ret. unfold ret. f_equal. f_equal.
      destruct b; cbn in *; subst; reflexivity.
    - assert (contains BIF_OPEN (params_of body) = true) as EC by (apply contains_iff; exact HO).
      rewrite EC. cbn [andb]. rewrite bind_bind, bind_modS, bind_bind.
      erewrite bind_done.
      2:{ rewrite child_nested; [|exact HR|exact HF|exact HD]. cbn [alias only bset_code bset_params params]. rewrite HE. reflexivity. }
      rewrite bind_bind, bind_modB, bind_bind, bind_getS, bind_modB. unfold ret.
      destruct (nested_later _ _ _ _ _ _ _ _ _ HE) as [_ ->]. destruct b; reflexivity.
  Qed.

  (** without evaluation of the parameters *)
  Lemma run_extract_raw s i b body : src b = trim body ->
    extract_params_code rec false (mkSt s i b) =
    Done (separated body) (mkSt s i (bset_code (code_of body) (bset_params (params_of body) b))).
  Proof.
    intros HS. unfold extract_params_code, separated, code_of, params_of. rewrite bind_getB, HS.
    destruct (get_code_position (trim body)); unfold bind, modB, getB, ret; cbn; rewrite ?HS; reflexivity.
  Qed.

  Lemma run_parts l : forall s i b al s1, room n s -> file_path b = [] -> dir b = [] ->
    arguments env (alias b) i (only b) l s al s1 -> parse_parts rec l (mkSt s i b) = Done al (mkSt s1 i b).
  Proof.
    induction l as [|p r IH]; intros s i b al s1 HR HF HD H; inversion H as [|p' r' s' o s0 i1 l2 s3 HE HA]; subst; [reflexivity|].
    cbn [parse_parts]. change BIF_OPEN with (B "{:"). rewrite bind_if.
    destruct (text_later _ _ _ _ _ _ _ _ _ HE) as [HL ->]. unfold eval_text in HE.
    assert (forall k : bytes -> M (list bytes), (if contains (B "{:") p then bind (child rec p false) k (mkSt s i b) else bind (ret p) k (mkSt s i b))
              = k o (mkSt s0 i b)) as E.
    { intro k. destruct (contains (B "{:") p).
      - erewrite bind_done; [reflexivity|]. rewrite child_nested by assumption. rewrite HE. reflexivity.
      - rewrite bind_ret. assert (o = p /\ s0 = s) as [-> ->] by (split; congruence). reflexivity. }
    rewrite E. erewrite bind_done; [|apply IH; try eassumption; eapply room_later; eassumption]. reflexivity.
  Qed.

  Lemma run_args s i b al s1 : room n s -> file_path b = [] -> dir b = [] ->
    arguments env (alias b) i (only b) (arg_texts (params b)) s al s1 ->
    extract_args rec (mkSt s i b) = Done al (mkSt s1 i b).
  Proof.
    intros HR HF HD H. unfold extract_args. rewrite bind_getB. unfold arg_texts in H.
    destruct (chars (params b)) as [|d r].
    - inversion H; subst. match goal with Hr : arguments _ _ _ _ [] _ _ _ |- _ => inversion Hr; subst end.
      match goal with He : eval_text _ _ _ _ _ _ = _ |- _ => unfold eval_text in He; cbn in He; injection He as <- <- _ end.
      reflexivity.
    - apply run_parts; assumption.
  Qed.
End Steps.

(** ** Results *)
Lemma show_can s : can_report s -> show_error s <> None.
Proof. intros [b E]. unfold show_error. rewrite E. discriminate. Qed.

Lemma result_fail env msg al mods text o s i b : can_report s -> mod_upline b = has_mod "^" mods -> out b = o ->
  bif_result env (Fail (mkErr msg (current_file i) al text) (mkSt s i b)) = failed env msg al mods text o s i.
Proof.
  intros HS E <-. apply show_can in HS. unfold bif_result. cbn [sh].
  destruct (show_error s); [|congruence]. unfold bif_finish, failed, finished, with_error. cbn [bf sh inh].
  rewrite E. destruct (has_mod "^" mods); reflexivity.
Qed.

Lemma eval_bif_text env s i mods nm body only : Forall modifier mods -> plain_name nm ->
  may_start s -> selected only i mods nm ->
  eval_bif env s i (bif_text mods nm body) only
  = bif_result env (dispatch env (run_blocks env (enough_fuel s)) nm (entry s i mods nm body only)).
Proof. apply bif_run_text. Qed.

Lemma room_started s : room (enough_fuel s) (started s).
Proof. eapply room_later; [apply started_later|apply room_enough]. Qed.

Lemma prepared_later env nm s i only body p fl s1 : prepared env nm s i only body p fl s1 -> later s s1.
Proof.
  intros [|? ? ? _ H]; [apply later_refl|]. apply nested_later in H as [H _]. eapply later_trans; [|exact H].
  apply later_same; reflexivity.
Qed.

Lemma arguments_later env al i only l s r s1 : arguments env al i only l s r s1 -> later s s1.
Proof.
  induction 1; [apply later_refl|]. eapply later_trans; [|eassumption]. eapply text_later. eassumption.
Qed.

(** ** Names and modifiers *)
Lemma has_mod_false c mods : ~ In c mods -> has_mod c mods = false.
Proof.
  intro H. unfold has_mod. destruct (existsb (aeqb c) mods) eqn:E; [|reflexivity].
  apply existsb_exists in E as (x & Hx & Ex). apply aeqb_eq in Ex. subst x. contradiction.
Qed.
Lemma has_mod_true c mods : In c mods -> has_mod c mods = true.
Proof. intro H. apply existsb_exists. exists c. split; [exact H|apply aeqb_refl]. Qed.
Lemma plain_check nm :
  (negb (existsb (aeqb ";"%char) nm) &&
   match nm with c :: _ => negb (existsb (aeqb c) (B "&!^+")) && (N_of_ascii c <? 128)%N | [] => true end) = true ->
  plain_name nm.
Proof.
  intro H. apply andb_prop in H as [H1 H2]. split.
  - intro HI. apply has_mod_true in HI. unfold has_mod in HI. rewrite HI in H1. discriminate.
  - destruct nm as [|c r]; [exact I|]. apply andb_prop in H2 as [H2 H3]. split.
    + intros [-> | [-> | [-> | -> ]]]; discriminate.
    + apply N.ltb_lt. exact H3.
Qed.
Lemma selected_more only i mods nm c : selected only i mods nm -> selected only i (c :: mods) nm.
Proof.
  intros [H|[H|(u & v & E)]]; [left; exact H|right; left; exact H|].
  right. right. exists (c :: u), v. cbn [app]. rewrite E. reflexivity.
Qed.

(** ** Data *)
Lemma with_data_some nm v s : has_data s -> exists j, upd (B "data") (put nm v) s.(schema) = Some j /\
  with_data nm v s = set_schema j s.
Proof.
  intros [[m Em] [d Ed]]. unfold with_data. rewrite Em in *.
  assert (upd (B "data") (put nm v) (JObj m) = Some (JObj (oset (B "data") (JObj (oset nm v d)) m))) as E.
  { apply upd_obj. rewrite Ed. apply TemplateProofs.put_obj. }
  rewrite E. eauto.
Qed.
Lemma with_data_has nm v s : has_data s -> has_data (with_data nm v s).
Proof.
  intro H. destruct (with_data_some nm v s H) as (j & E & ->). unfold has_data. cbn [set_schema schema].
  apply upd_at in E as [H1 H2]. split; [exact H1|].
  destruct H as [_ [d Ed]]. rewrite Ed, TemplateProofs.put_obj in H2. eexists. symmetry.
  assert (forall a b : json, Some a = Some b -> a = b) as Hs by (intros; congruence). apply Hs. exact H2.
Qed.
Lemma with_data_get nm v s k : has_data s -> data_in (with_data nm v s) k = if beq k nm then v else data_in s k.
Proof.
  intro H. destruct (with_data_some nm v s H) as (j & E & ->). unfold data_in. cbn [set_schema schema].
  apply upd_at in E as [_ H2]. destruct H as [_ [d Ed]]. rewrite Ed, TemplateProofs.put_obj in H2.
  assert (forall a b : json, Some a = Some b -> a = b) as Hs by (intros; congruence). apply Hs in H2.
  rewrite <- H2, Ed. apply TemplateProofs.idx_oset.
Qed.
Lemma with_data_later nm v s : later s (with_data nm v s).
Proof. unfold with_data. destruct (upd _ _ _); [apply later_same; reflexivity|apply later_refl]. Qed.
Lemma run_put_data nm v s i b : has_data s -> put_data nm v (mkSt s i b) = Done tt (mkSt (with_data nm v s) i b).
Proof. intro H. unfold put_data. destruct (with_data_some nm v s H) as (j & E & ->). cbn [sh]. rewrite E. reflexivity. Qed.

Lemma parse_has_data env s i src only o s' i' : has_data s -> parse env s i src only = BOk o s' i' -> has_data s'.
Proof.
  intros H HP. pose proof (parse_ok env _ _ _ (schema_frame env) s i src only H) as G. rewrite HP in G. apply G.
Qed.
Lemma drop_has_data s i : has_data s -> has_data (drop_block s i).
Proof. destruct (drop_store s i) as [x ->]. exact (fun H => H). Qed.
Lemma nested_has_data env al s i src only o s' i' : has_data s -> eval_nested env al s i src only = BOk o s' i' -> has_data s'.
Proof.
  intros H. unfold eval_nested. destruct (parse env s (inside al i) src only) as [o2 s2 i2|p|] eqn:E; [|discriminate|discriminate].
  intro E2. assert (s' = drop_block s2 i2) as -> by congruence. apply drop_has_data. eapply parse_has_data; eassumption.
Qed.
Lemma scoped_facts env al s i src only o s' i' : eval_scoped env al s i src only = BOk o s' i' ->
  later s s' /\ (has_data s -> has_data s').
Proof.
  unfold eval_scoped. destruct (create_store s i) as [x Ex].
  destruct (create_block_schema s i) as [s1 i1]. cbn [fst] in Ex.
  destruct (parse env s1 (inside al i) src only) as [o2 s2 i2|p|] eqn:E; [|discriminate|discriminate].
  intro E2. assert (s' = drop_block (update_indir s2 (indir i2) (indir i1)) i2) as -> by congruence.
  destruct (drop_store (update_indir s2 (indir i2) (indir i1)) i2) as [y ->].
  destruct (update_store s2 (indir i2) (indir i1)) as [z ->]. subst s1. split.
  - apply parse_later in E as (E1 & E3 & E4). split; [exact E1|]. split; [exact E3|exact E4].
  - intro H. apply parse_has_data in E; [exact E|exact H].
Qed.
Lemma block_facts env al plus s i src only o s' i' : eval_block env al plus s i src only = BOk o s' i' ->
  later s s' /\ (has_data s -> has_data s').
Proof.
  destruct plus; [apply scoped_facts|]. intro H. split; [eapply nested_later; exact H|].
  intro HD. eapply nested_has_data; eassumption.
Qed.
Lemma code_facts env al plus s i src only o s' i' : eval_code env al plus s i src only = BOk o s' i' ->
  later s s' /\ (has_data s -> has_data s').
Proof.
  unfold eval_code. destruct (contains (B "{:") src).
  - apply (block_facts env al plus).
  - intro H. assert (s' = s) as -> by congruence. split; [apply later_refl|auto].
Qed.
Lemma prepared_has_data env nm s i only body p fl s1 : prepared env nm s i only body p fl s1 -> has_data s -> has_data s1.
Proof.
  intros [|? ? ? _ H] HD; [exact HD|]. eapply nested_has_data; [|exact H]. exact HD.
Qed.

Lemma child_block env n s i b src plus : room n s -> file_path b = [] -> dir b = [] ->
  child (run_blocks env n) src plus (mkSt s i b) =
  onto b (eval_block env (alias b) plus s i src (only b)) (fun o => o) (fun _ b => b).
Proof. apply child_any. Qed.

(** ** What every bif does to its block *)
Lemma bif_outcome env s i mods nm body only o s' i' : Forall modifier mods -> plain_name nm ->
  may_start s -> selected only i mods nm ->
  eval_bif env s i (bif_text mods nm body) only = BOk o s' i' ->
  exists w i1, o = trim ((if has_mod "^" mods then BACKSPACE else []) ++ w) /\
    i' = iset_last (negb (is_empty w)) i1 /\ ikey i1 = ikey (started_in s i).
Proof.
  intros HM HN HS HO. rewrite eval_bif_text by assumption.
  pose proof (kp_dispatch env (run_blocks env (enough_fuel s)) nm (entry s i mods nm body only)) as HU.
  destruct (dispatch env _ nm _) as [x st|e st|p|]; try discriminate.
  - destruct HU as [HB [HI _]]. destruct st as [ss si b]. cbn [bf inh entry] in HB, HI.
    assert (mod_upline b = has_mod "^" mods) as EU by (unfold bkey in HB; cbn in HB; congruence).
    destruct x. rewrite (result_done env mods (out b)) by (exact EU || reflexivity).
    unfold finished. intro E. exists (out b), si. split; [congruence|]. split; [congruence|exact HI].
  - destruct HU as [HB [HI _]]. destruct st as [ss si b]. cbn [bf inh entry] in HB, HI.
    assert (mod_upline b = has_mod "^" mods) as EU by (unfold bkey in HB; cbn in HB; congruence).
    unfold bif_result. cbn [sh]. destruct (show_error ss); [|discriminate]. unfold bif_finish. cbn [bf sh inh].
    rewrite EU. intro E. exists (out b), si. split; [revert E; destruct (has_mod "^" mods); intro E; cbn [app]; congruence|]. split; [congruence|exact HI].
Qed.

Ltac proj := cbn [raw src name alias code params bflags mod_filter mod_negate mod_upline mod_scope file_path dir out
  only bset_src bset_name bset_alias bset_code bset_params bset_flags bset_mods bset_file_path bset_dir bset_out
  bif_of bif_init].
Ltac plain := apply plain_check; reflexivity.
(** reject: no disallowed modifier *)
Ltac allowed := repeat match goal with H : ~ In _ _ |- _ => rewrite (has_mod_false _ _ H) end; try reflexivity.


(** ** Blocks whose spans are known *)
Lemma child_rec env n s i b bl plus : room n s -> file_path b = [] -> dir b = [] -> extract_blocks (code b) = Blocks bl ->
  with_child plus (fun s i => run_blocks env n s i (code b) bl (only b)) (mkSt s i b) =
  onto b (eval_block env (alias b) plus s i (code b) (only b)) (fun o => o) (fun _ b => b).
Proof.
  intros HR HF HD HE. rewrite <- (child_block env n) by assumption. unfold child, with_child, block_parse. cbn [bf]. rewrite HE.
  reflexivity.
Qed.

Lemma run_each_loop env n kn vn bl l : forall s i b, room n s -> has_data s -> file_path b = [] -> dir b = [] ->
  extract_blocks (code b) = Blocks bl ->
  each_loop (run_blocks env n) kn vn l bl (mkSt s i b) =
  onto b (iterate (fun kv s i => eval_block env (alias b) (mod_scope b) (with_data vn (snd kv) (with_data kn (JStr (fst kv)) s)) i
                                   (code b) (only b)) l (out b) s i) (fun _ => tt) bset_out.
Proof.
  induction l as [|[k v] r IH]; intros s i b HR HA HF HD HE; cbn [each_loop iterate].
  - cbn [onto ret]. destruct b; reflexivity.
  - cbn [fst snd]. unfold each_iter. rewrite bind_bind, (bind_done _ _ _ _ _ (run_put_data kn (JStr k) s i b HA)).
    pose proof (with_data_has kn (JStr k) s HA) as HA1.
    rewrite bind_bind, (bind_done _ _ _ _ _ (run_put_data vn v _ i b HA1)).
    pose proof (with_data_has vn v _ HA1) as HA2. rewrite bind_bind, bind_getB, bind_bind.
    assert (room n (with_data vn v (with_data kn (JStr k) s))) as HR2
      by (eapply room_later; [apply with_data_later|]; eapply room_later; [apply with_data_later|exact HR]).
    unfold bind at 1. rewrite child_rec by assumption.
    destruct (eval_block env (alias b) (mod_scope b) (with_data vn v (with_data kn (JStr k) s)) i (code b) (only b))
      as [o s2 i2|q|] eqn:E; [|reflexivity|reflexivity].
    cbn [onto and_then]. rewrite bind_modB. apply block_facts in E as [E1 E2].
    rewrite IH; [|eapply room_later; [exact E1|exact HR2]|exact (E2 HA2)|exact HF|exact HD|exact HE].
    cbn [alias mod_scope code only out bset_out].
    unfold onto. destruct (iterate _ _ _ _ _); reflexivity.
Qed.

Lemma run_for_loop env n v bl l : forall s i b, room n s -> has_data s -> file_path b = [] -> dir b = [] ->
  extract_blocks (code b) = Blocks bl ->
  for_loop (run_blocks env n) v l bl (mkSt s i b) =
  onto b (iterate (fun z s i => eval_block env (alias b) (mod_scope b) (with_data v (JStr (dec_Z z)) s) i
                                   (code b) (only b)) l (out b) s i) (fun _ => tt) bset_out.
Proof.
  induction l as [|z r IH]; intros s i b HR HA HF HD HE; cbn [for_loop iterate].
  - cbn [onto ret]. destruct b; reflexivity.
  - unfold for_iter, set_data. rewrite bind_bind, (bind_done _ _ _ _ _ (run_put_data v (JStr (dec_Z z)) s i b HA)).
    pose proof (with_data_has v (JStr (dec_Z z)) s HA) as HA1. rewrite bind_bind, bind_getB, bind_bind.
    assert (room n (with_data v (JStr (dec_Z z)) s)) as HR2 by (eapply room_later; [apply with_data_later|exact HR]).
    unfold bind at 1. rewrite child_rec by assumption.
    destruct (eval_block env (alias b) (mod_scope b) (with_data v (JStr (dec_Z z)) s) i (code b) (only b))
      as [o s2 i2|q|] eqn:E; [|reflexivity|reflexivity].
    cbn [onto and_then]. rewrite bind_modB. apply block_facts in E as [E1 E2].
    rewrite IH; [|eapply room_later; [exact E1|exact HR2]|exact (E2 HA1)|exact HF|exact HD|exact HE].
    cbn [alias mod_scope code only out bset_out].
    unfold onto. destruct (iterate _ _ _ _ _); reflexivity.
Qed.

Lemma iterate_facts env al plus src only {A} (f : A -> Shared -> Shared) l :
  (forall x s, later s (f x s)) -> (forall x s, has_data s -> has_data (f x s)) ->
  forall acc s i o s' i', iterate (fun x s i => eval_block env al plus (f x s) i src only) l acc s i = BOk o s' i' ->
  later s s' /\ (has_data s -> has_data s').
Proof.
  intros HL HH. induction l as [|x r IH]; intros acc s i o s' i'; cbn [iterate].
  - intro E. assert (s' = s) as -> by congruence. split; [apply later_refl|auto].
  - destruct (eval_block env al plus (f x s) i src only) as [o1 s1 i1|q|] eqn:E; [|discriminate|discriminate].
    cbn [and_then]. intro E2. apply IH in E2 as [E3 E4]. apply block_facts in E as [E5 E6]. split.
    + eapply later_trans; [apply (HL x)|]. eapply later_trans; eassumption.
    + intro H. apply E4, E6, HH, H.
Qed.

(** ** What does not depend on how the bif is written *)
Lemma bif_run_alias env rec s i text only o s' i' : bif_run env rec s i text only = BOk o s' i' ->
  ialias i' = ialias i /\ (i' = iset_bif_count (bisf_count s + 1) i \/ last_coalesce_out i' = last_bif_out i').
Proof.
  unfold bif_run. destruct (_ <? _)%N; [discriminate|]. unfold bif_parse.
  destruct (split_once _ _) as [[nm rest]|].
  - destruct (negb (is_empty only) && negb (contains only nm) && negb _).
    + intro E. assert (i' = iset_bif_count (bisf_count s + 1) i) as -> by congruence. split; [reflexivity|left; reflexivity].
    + destruct (scan_modifiers _ _ _ _ _) as [[nm' [[[f g] u] p]]|]; [|discriminate].
      set (st0 := mkSt _ _ _). pose proof (kp_dispatch env rec nm' st0) as HU.
      destruct (dispatch env rec nm' st0) as [x st|e st|q|]; try discriminate.
      * destruct HU as [_ [HI _]]. unfold bif_result, bif_finish. intro E.
        assert (i' = iset_last (negb (is_empty (out (bf st)))) (inh st)) as -> by congruence.
        split; [|right; reflexivity]. unfold ikey in HI. cbn in HI. cbn. congruence.
      * destruct HU as [_ [HI _]]. unfold bif_result. destruct (show_error _); [|discriminate]. unfold bif_finish. cbn [sh inh bf].
        intro E. assert (i' = iset_last (negb (is_empty (out (bf st)))) (inh st)) as -> by congruence.
        split; [|right; reflexivity]. unfold ikey in HI. cbn in HI. cbn. congruence.
  - destruct (negb (is_empty only)).
    + intro E. assert (i' = iset_bif_count (bisf_count s + 1) i) as -> by congruence. split; [reflexivity|left; reflexivity].
    + destruct (show_error _); [|discriminate].
      intro E. assert (i' = iset_bif_count (bisf_count s + 1) i) as -> by congruence. split; [reflexivity|left; reflexivity].
Qed.

Lemma coalesce_blocks env only l s i o s' i' fin :
  evaluates (fun s i t => eval_bif env s i t only) l s i o s' i' fin -> ialias i = B "coalesce" ->
  if last_coalesce_out i then
    s' = s /\ i' = i /\ ((s.(exit) = false \/ ~ has_block l) /\ o = literal l /\ fin = true \/
                       s.(exit) = true /\ has_block l /\ o = [] /\ fin = false)
  else first_filled (fun s i t => eval_bif env s i t only) l s i o s' i' fin.
Proof.
  induction 1 as [t s i|t b l s i HX|t b l s i o s' i' fin HX HC HE IH|t b l s i o s' i' fin HX HC HD HE IH
                 |t b l s i o1 s1 i1 o s' i' fin HX HC HD HB HE IH]; intro HA.
  - destruct (last_coalesce_out i); [|constructor]. split; [reflexivity|]. split; [reflexivity|]. left.
    split; [right; intros [x [E|[]]]; discriminate|]. split; [cbn; rewrite app_nil_r; reflexivity|reflexivity].
  - destruct (last_coalesce_out i); [|apply ff_stop; exact HX]. split; [reflexivity|]. split; [reflexivity|]. right.
    split; [exact HX|]. split; [exists b; right; left; reflexivity|]. split; reflexivity.
  - specialize (IH HA). destruct (last_coalesce_out i); [|apply ff_comment; assumption].
    destruct IH as (-> & -> & [(_ & -> & ->)|(E & _)]); [|congruence]. split; [reflexivity|]. split; [reflexivity|]. left.
    split; [left; exact HX|]. split; reflexivity.
  - specialize (IH HA). destruct HD as [HD _]. rewrite HD in *.
    destruct IH as (-> & -> & [(_ & -> & ->)|(E & _)]); [|congruence]. split; [reflexivity|]. split; [reflexivity|]. left.
    split; [left; exact HX|]. split; reflexivity.
  - assert (last_coalesce_out i = false) as EL.
    { destruct (last_coalesce_out i) eqn:E; [|reflexivity]. exfalso. apply HD. split; assumption. }
    rewrite EL. destruct (bif_run_alias _ _ _ _ _ _ _ _ _ HB) as [EA _]. rewrite HA in EA. specialize (IH EA).
    destruct (last_coalesce_out i1) eqn:E1.
    + destruct IH as (-> & -> & [(HS & -> & ->)|(E & HBl & -> & ->)]).
      * eapply ff_found; eassumption.
      * rewrite app_nil_r. eapply ff_found_exit; eassumption.
    + eapply ff_empty; eassumption.
Qed.

Lemma get_data_text s i nm : get_data_of s i nm = var_text s i nm.
Proof.
  unfold get_data_of, var_text, scope_of, visible, local_data_of, data_of. change LOCAL with (B "local::").
  destruct (strip_prefix (B "local::") nm); reflexivity.
Qed.

Lemma bif_run_remembers env rec s i text only o s' i' : bif_run env rec s i text only = BOk o s' i' -> remembers i i'.
Proof.
  unfold bif_run. destruct (_ <? _)%N; [discriminate|]. unfold bif_parse.
  destruct (split_once _ _) as [[nm rest]|].
  - destruct (negb (is_empty only) && negb (contains only nm) && negb _).
    + intro E. assert (i' = iset_bif_count (bisf_count s + 1) i) as -> by congruence. apply remembers_same; reflexivity.
    + destruct (scan_modifiers _ _ _ _ _) as [[nm' [[[f g] u] p]]|]; [|discriminate].
      set (st0 := mkSt _ _ _). pose proof (kp_dispatch env rec nm' st0) as HU.
      destruct (dispatch env rec nm' st0) as [x st|e st|q|]; try discriminate.
      * destruct HU as [_ [_ HI]]. unfold bif_result, bif_finish. intro E.
        assert (i' = iset_last (negb (is_empty (out (bf st)))) (inh st)) as -> by congruence. exact HI.
      * destruct HU as [_ [_ HI]]. unfold bif_result. destruct (show_error _); [|discriminate]. unfold bif_finish. cbn [sh inh bf].
        intro E. assert (i' = iset_last (negb (is_empty (out (bf st)))) (inh st)) as -> by congruence. exact HI.
  - destruct (negb (is_empty only)).
    + intro E. assert (i' = iset_bif_count (bisf_count s + 1) i) as -> by congruence. apply remembers_same; reflexivity.
    + destruct (show_error _); [|discriminate].
      intro E. assert (i' = iset_bif_count (bisf_count s + 1) i) as -> by congruence. apply remembers_same; reflexivity.
Qed.

(** ** Errors can be reported all along *)
Lemma keeps_reports s s' : keeps_rest s s' -> can_report s -> can_report s'.
Proof.
  intros [_ H] [b E]. exists b. rewrite <- E. unfold idx at 3. rewrite H; [reflexivity|]. cbn. intuition discriminate.
Qed.
Lemma parse_keeps env s i src only o s' i' : has_data s -> parse env s i src only = BOk o s' i' -> keeps_rest s s'.
Proof.
  intros H HP. pose proof (parse_ok env _ _ _ (schema_frame env) s i src only H) as G. rewrite HP in G. apply G.
Qed.
Lemma same_schema_keeps s s' : schema s' = schema s -> later s s' -> keeps_rest s s'.
Proof. intros E H. split; [exact H|]. intros k _. rewrite E. reflexivity. Qed.
Lemma drop_keeps s i : keeps_rest s (drop_block s i).
Proof. destruct (drop_store s i) as [x ->]. apply same_schema_keeps; [reflexivity|apply later_same; reflexivity]. Qed.
Lemma nested_keeps env al s i src only o s' i' : has_data s -> eval_nested env al s i src only = BOk o s' i' -> keeps_rest s s'.
Proof.
  intros H. unfold eval_nested. destruct (parse env s (inside al i) src only) as [o2 s2 i2|p|] eqn:E; [|discriminate|discriminate].
  intro E2. assert (s' = drop_block s2 i2) as -> by congruence. eapply keeps_trans; [|apply drop_keeps].
  eapply parse_keeps; eassumption.
Qed.
Lemma prepared_keeps env nm s i only body p fl s1 : has_data s -> prepared env nm s i only body p fl s1 -> keeps_rest s s1.
Proof.
  intros HD [|? ? ? _ H]; [apply keeps_refl|]. apply nested_keeps in H; [|exact HD].
  eapply keeps_trans; [|exact H]. apply same_schema_keeps; [reflexivity|apply later_same; reflexivity].
Qed.
Lemma arguments_keeps env al i only l s r s1 : has_data s -> arguments env al i only l s r s1 -> keeps_rest s s1.
Proof.
  intros HD H. induction H as [|p r s o s1 i1 l s2 HE HA IH]; [apply keeps_refl|].
  assert (has_data s1 /\ keeps_rest s s1) as [H1 H2].
  { unfold eval_text in HE. destruct (contains _ p).
    - split; [eapply nested_has_data; eassumption|eapply nested_keeps; eassumption].
    - assert (s1 = s) as -> by congruence. split; [exact HD|apply keeps_refl]. }
  eapply keeps_trans; [exact H2|apply IH; exact H1].
Qed.
Lemma prepared_reports env nm s i only body p fl s1 : has_data s -> can_report s ->
  prepared env nm s i only body p fl s1 -> can_report s1.
Proof. intros H1 H2 H3. eapply keeps_reports; [eapply prepared_keeps; eassumption|exact H2]. Qed.
