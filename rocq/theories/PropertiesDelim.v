(** * C89: the delimiter of the arguments *)

From Verif Require Import Bytes Json Utils ConstantsGen State Engine Template Spec SpecEngine SpecLayout BytesFacts WildcardProofs TextProofs
  TemplateProofs WordProofs BlockProofs EvalProofs HandlerProofs LayoutProofs Samples.

(** ** The arguments of a text with delimiters *)
Lemma split_go_skip pat u r : split_go pat (length u) (u ++ r) = split_go pat 0 r.
Proof. induction u as [|c u IH]; [reflexivity|]. cbn [length app split_go]. exact IH. Qed.
Lemma split_go_here a d' r : split_go (a :: d') 0 ((a :: d') ++ r) = [] :: split_go (a :: d') 0 r.
Proof.
  cbn [app split_go]. assert (starts_with (a :: d') (a :: d' ++ r) = true) as ->.
  { apply starts_with_iff. exists r. reflexivity. }
  cbn [length]. replace (S (length d') - 1) with (length d') by lia. rewrite split_go_skip. reflexivity.
Qed.
(** a character is not met across the end of an argument *)
Lemma no_overlap a d' u r : in_range 128 191 a = false -> Forall (fun b => in_range 128 191 b = true) d' ->
  u <> [] -> ~ occurs (a :: d') u -> starts_with (a :: d') (u ++ (a :: d') ++ r) = false.
Proof.
  intros HA HD NE HO. apply starts_with_false. intros (t & E).
  destruct (le_lt_dec (length (a :: d')) (length u)) as [L|L].
  - apply HO. exists [], (skipn (length (a :: d')) u). cbn [app].
    assert (firstn (length (a :: d')) (u ++ (a :: d') ++ r) = firstn (length (a :: d')) ((a :: d') ++ t)) as E' by (rewrite E; reflexivity).
    rewrite firstn_app, (firstn_app _ (a :: d') t) in E'. replace (length (a :: d') - length u) with 0 in E' by lia.
    rewrite Nat.sub_diag, !firstn_O, !app_nil_r, firstn_all in E'.
    change (a :: d' ++ skipn (length (a :: d')) u) with ((a :: d') ++ skipn (length (a :: d')) u).
    pose proof (firstn_skipn (length (a :: d')) u) as E2. rewrite E' in E2. symmetry. exact E2.
  - destruct u as [|c u]; [congruence|]. cbn [length] in L.
    assert (nth_error ((c :: u) ++ (a :: d') ++ r) (S (length u)) = Some a) as E1.
    { rewrite nth_error_app2 by (cbn; lia). cbn [length]. rewrite Nat.sub_diag. reflexivity. }
    rewrite E in E1. cbn [app nth_error] in E1. rewrite nth_error_app1 in E1 by lia.
    apply nth_error_In in E1. rewrite Forall_forall in HD. apply HD in E1. congruence.
Qed.
Lemma split_go_arg a d' u r : in_range 128 191 a = false -> Forall (fun b => in_range 128 191 b = true) d' -> ~ occurs (a :: d') u ->
  split_go (a :: d') 0 (u ++ (a :: d') ++ r) = u :: split_go (a :: d') 0 r.
Proof.
  intros HA HD. induction u as [|c u IH]; intro HO; [apply split_go_here|].
  pose proof (no_overlap a d' (c :: u) r HA HD ltac:(discriminate) HO) as E. cbn [app] in E.
  change ((c :: u) ++ (a :: d') ++ r) with (c :: (u ++ (a :: d') ++ r)). cbn [split_go]. cbn [app] in *. rewrite E.
  rewrite IH; [reflexivity|]. intro O. apply HO. apply occurs_cons. exact O.
Qed.
Lemma split_written d args : one_char d -> Forall (fun a => ~ occurs d a) args ->
  split d (written d args) = [] :: args ++ [[]].
Proof.
  intros (a & d' & -> & HA & HD) HF. unfold split, written. rewrite split_go_here. f_equal.
  induction HF as [|u args Hu _ IH]; [reflexivity|]. cbn [map concat]. rewrite <- app_assoc, split_go_arg by assumption.
  rewrite IH. reflexivity.
Qed.
Lemma chars_first d r : one_char d -> (match r with c :: _ => in_range 128 191 c = false | [] => True end) -> exists l, chars (d ++ r) = d :: l.
Proof.
  intros (a & d' & -> & HA & HD) HR.
  assert (forall u, Forall (fun b => in_range 128 191 b = true) u -> u <> [] -> exists l, chars (u ++ r) = u :: l) as HU.
  { intros u Hu. induction Hu as [|b u Hb Hu' IH]; [congruence|]. intros _. cbn [app chars]. destruct u as [|b' u].
    - cbn [app]. destruct (chars r) as [|[|d h] t] eqn:E; eauto.
      assert (exists r', r = d :: r') as [r' ->] by (rewrite <- (chars_concat r), E; cbn; eauto).
      rewrite is_cont_range, HR. eauto.
    - destruct IH as [l ->]; [discriminate|]. apply Forall_cons_iff in Hu' as [Hb' _]. rewrite is_cont_range, Hb'. eauto. }
  cbn [app chars]. destruct d' as [|b d'].
  - cbn [app]. destruct (chars r) as [|[|d h] t] eqn:E; eauto.
    assert (exists r', r = d :: r') as [r' ->] by (rewrite <- (chars_concat r), E; cbn; eauto).
    rewrite is_cont_range, HR. eauto.
  - destruct (HU (b :: d') HD ltac:(discriminate)) as [l ->]. apply Forall_cons_iff in HD as [Hb _]. rewrite is_cont_range, Hb. eauto.
Qed.
Lemma text_start a l : characters a l -> match a with c :: _ => in_range 128 191 c = false | [] => True end.
Proof.
  intros [<- HF]. destruct HF as [|c l (x & y & -> & Hx & _) _]; [exact I|]. cbn. exact Hx.
Qed.
(** ** C89: the arguments are the texts between the delimiters, whichever character delimits them *)
Theorem C89_arguments : forall d args, one_char d -> Forall (fun a => (exists l, characters a l) /\ ~ occurs d a) args ->
  arg_texts (written d args) = [] :: args ++ [[]].
Proof.
  intros d args HD HF. unfold arg_texts.
  assert (exists l, chars (written d args) = d :: l) as [l ->].
  { unfold written. apply chars_first; [exact HD|]. destruct HF as [|a args [[l Hl] _] _]; [exact I|]. cbn [map concat].
    pose proof (text_start a l Hl) as H. destruct a as [|c a]; [|exact H]. destruct HD as (x & y & -> & Hx & _). exact Hx. }
  apply split_written; [exact HD|]. eapply Forall_impl; [|exact HF]. intros a [_ H]. exact H.
Qed.
Print Assumptions C89_arguments.

(** ** Two delimiters in step *)
Definition dtwin (r y p : bytes) (b : Bif) : Bif :=
  mkBif r y b.(name) b.(alias) b.(code) p b.(bflags)
    b.(mod_filter) b.(mod_negate) b.(mod_upline) b.(mod_scope) b.(file_path) b.(dir) b.(out) b.(only).
Definition dtw r y p (st : St) : St := mkSt st.(sh) st.(inh) (dtwin r y p st.(bf)).

Section Del.
  Variable env : Env.
  Variable rec : Shared -> Inherit -> bytes -> list (nat * nat) -> bytes -> BRes.
  Variable r0 r y p : bytes.

  Definition agree (st : St) : Prop := st.(bf).(raw) = r0 /\ arg_texts st.(bf).(params) = arg_texts p.
  Definition dres {A} (x x' : Res A) : Prop :=
    match x with
    | Done a st1 => x' = Done a (dtw r y p st1) /\ agree st1
    | Fail e st1 => e = mkErr e.(er_msg) st1.(inh).(current_file) e.(er_name) r0
                    /\ x' = Fail (mkErr e.(er_msg) e.(er_file) e.(er_name) r) (dtw r y p st1)
    | Panic q => x' = Panic q
    | NoFuel => x' = NoFuel
    end.
  Definition dsim {A} (m : M A) : Prop := forall st, agree st -> dres (m st) (m (dtw r y p st)).

  Lemma dsim_bind {A C} (m : M A) (k : A -> M C) : dsim m -> (forall a, dsim (k a)) -> dsim (bind m k).
  Proof.
    intros Hm Hk st HS. unfold bind. specialize (Hm st HS). unfold dres in Hm. destruct (m st) as [a st1|e st1|q|].
    - destruct Hm as [E HS1]. rewrite E. apply Hk. exact HS1.
    - destruct Hm as [E1 E]. rewrite E. split; [exact E1|reflexivity].
    - rewrite Hm. reflexivity.
    - rewrite Hm. reflexivity.
  Qed.
  Lemma dsim_getB {C} (k : Bif -> M C) : (forall b, k (dtwin r y p b) = k b) -> (forall b, dsim (k b)) -> dsim (bind getB k).
  Proof. intros E H st HS. unfold bind, getB. cbn [bf dtw]. rewrite E. apply H. exact HS. Qed.
  Lemma dsim_getI {C} (k : Inherit -> M C) : (forall i, dsim (k i)) -> dsim (bind getI k).
  Proof. intros H st HS. unfold bind, getI. cbn [inh dtw]. apply H. exact HS. Qed.
  Lemma dsim_getS {C} (k : Shared -> M C) : (forall s, dsim (k s)) -> dsim (bind getS k).
  Proof. intros H st HS. unfold bind, getS. cbn [sh dtw]. apply H. exact HS. Qed.
  Lemma dsim_ret {A} (a : A) : dsim (ret a).
  Proof. intros st HS. split; [reflexivity|exact HS]. Qed.
  Lemma dsim_err {A} msg : dsim (@err A msg).
  Proof. intros st (H & _). unfold err, dres. cbn. rewrite H. split; reflexivity. Qed.
  Lemma dsim_panic {A} q : dsim (@panicM A q).
  Proof. intros st HS. reflexivity. Qed.
  Lemma dsim_modB f : (forall b, raw (f b) = raw b) -> (forall b, params (f b) = params b) ->
    (forall b, f (dtwin r y p b) = dtwin r y p (f b)) -> dsim (modB f).
  Proof.
    intros Hr Hs Ht st (H1 & H2). unfold modB, dtw. cbn. rewrite Ht. split; [reflexivity|].
    unfold agree. cbn. rewrite Hr, Hs. split; assumption.
  Qed.
  Lemma dsim_modI f : dsim (modI f).
  Proof. intros st HS. split; [reflexivity|exact HS]. Qed.
  Lemma dsim_modS f : dsim (modS f).
  Proof. intros st HS. split; [reflexivity|exact HS]. Qed.
  Lemma dsim_ask {A} (q : trace -> A) ev : dsim (ask q ev).
  Proof. intros st HS. split; [reflexivity|exact HS]. Qed.
  Lemma dsim_with_child scope q : dsim (with_child scope q).
  Proof.
    intros st HS. unfold with_child. cbn [dtw sh inh bf dtwin alias file_path dir].
    set (ci := iset_block_count _ _).
    destruct (if scope then create_block_schema (sh st) (inh st) else (sh st, inh st)) as [s1 i1].
    destruct (q s1 ci) as [o s2 ci2|z|]; [|reflexivity|reflexivity]. split; [reflexivity|exact HS].
  Qed.
  Lemma dsim_child s scope : dsim (child rec s scope).
  Proof. intros st HS. unfold child. cbn [dtw bf dtwin only]. apply (dsim_with_child scope (fun s0 i => block_parse rec s0 i s (only (bf st))) st HS). Qed.
  Ltac step lib :=
    first
      [ lib
      | match goal with
        | |- dsim (ret _) => apply dsim_ret
        | |- dsim (err _) => apply dsim_err
        | |- dsim (panicM _) => apply dsim_panic
        | |- dsim (modS _) => apply dsim_modS
        | |- dsim (modI _) => apply dsim_modI
        | |- dsim (ask _ _) => apply dsim_ask
        | |- dsim (child _ _ _) => apply dsim_child
        | |- dsim (modB _) => apply dsim_modB; intro; reflexivity
        | |- dsim (lift_option _ ?o) => destruct o; [apply dsim_ret|apply dsim_panic]
        | |- dsim (bind getB _) => apply dsim_getB; [intro; reflexivity|intro]
        | |- dsim (bind getI _) => apply dsim_getI; intro
        | |- dsim (bind getS _) => apply dsim_getS; intro
        | |- dsim (bind _ _) => apply dsim_bind; [|intro]
        | |- dsim (if ?z then _ else _) => destruct z
        | |- dsim (match ?z with _ => _ end) => destruct z
        end ].
  Ltac all lib := cbv zeta; repeat (step lib; cbv zeta).
  Lemma dsim_parts l : dsim (parse_parts rec l).
  Proof. induction l as [|q t IH]; cbn [parse_parts]; [apply dsim_ret|]. all ltac:(exact IH). Qed.
  Lemma args_texts st : extract_args rec st = match arg_texts (params (bf st)) with [[]] => Done [[]] st | l => parse_parts rec l st end.
  Proof.
    unfold extract_args, arg_texts. unfold bind, getB. destruct (chars (params (bf st))) as [|d l] eqn:E; [reflexivity|].
    destruct (split d (params (bf st))) as [|[|a u] [|v w]] eqn:E2; reflexivity.
  Qed.
  Lemma dsim_args : dsim (extract_args rec).
  Proof.
    intros st HS. rewrite !args_texts. cbn [dtw bf dtwin params]. destruct HS as [H1 H2]. rewrite H2.
    assert (agree st) as HS by (split; assumption). pose proof (dsim_parts (arg_texts p) st HS) as HQ.
    destruct (arg_texts p) as [|[|a u] [|v w]]; exact HQ.
  Qed.
  Lemma dsim_parse_code sc : dsim (parse_code rec sc).
  Proof. unfold parse_code. all fail. Qed.
  Lemma dsim_need_arg l i m : dsim (need_arg l i m).
  Proof. unfold need_arg. all fail. Qed.
  Lemma dsim_expires q n : dsim (cache_file_expires env q n).
  Proof. unfold cache_file_expires, ask_now, ask_mtime. all fail. Qed.
  Ltac lib := idtac;
    match goal with
    | |- dsim (parse_code _ _) => apply dsim_parse_code
    | |- dsim (extract_args _) => apply dsim_args
    | |- dsim (need_arg _ _ _) => apply dsim_need_arg
    | |- dsim (cache_file_expires _ _ _) => apply dsim_expires
    end.
  Ltac handler := unfold child_in_cache, set_out, ask_exists, ask_read, ask_mkdir, ask_create, ask_write; all lib.

  Definition texts_ready (body1 body2 : bytes) : Prop :=
    y = trim body2 /\ p = params_of body2 /\ arg_texts (params_of body1) = arg_texts p /\ code_of body1 = code_of body2.
  Lemma dres_quote {A} (x x' : Res A) (f : A -> unit) : dres x x' ->
    same_but_quote env r0 r (bif_result env (match x with Done a st => Done (f a) st | Fail e st => Fail e st | Panic q => Panic q | NoFuel => NoFuel end))
      (bif_result env (match x' with Done a st => Done (f a) st | Fail e st => Fail e st | Panic q => Panic q | NoFuel => NoFuel end)).
  Proof.
    unfold dres. destruct x as [a st1|e st1|q|]; intro H.
    - destruct H as [-> _]. left. reflexivity.
    - destruct H as [E ->]. unfold bif_result. cbn [dtw sh]. destruct (show_error (sh st1)); [|left; reflexivity].
      right. exists e.(er_msg), e.(er_name). unfold bif_finish. cbn [bf sh inh dtw dtwin out mod_upline]. do 4 eexists. split.
      + unfold with_error. rewrite E at 1. cbn [er_msg er_name]. reflexivity.
      + unfold with_error. assert (er_file e = current_file (inh st1)) as -> by (rewrite E; reflexivity). reflexivity.
    - rewrite H. left. reflexivity.
    - rewrite H. left. reflexivity.
  Qed.
  Lemma dres_result (x x' : Res unit) : dres x x' -> same_but_quote env r0 r (bif_result env x) (bif_result env x').
  Proof. intro H. apply (dres_quote x x' (fun a => a)) in H. destruct x as [[]| | |], x' as [[]| | |]; exact H. Qed.
  Lemma err_result msg s i b p' : raw b = r0 ->
    same_but_quote env r0 r (bif_result env (err msg (mkSt s i b))) (bif_result env (err msg (mkSt s i (dtwin r y p' b)))).
  Proof.
    intros <-. unfold err, bif_result. cbn [sh inh bf dtwin raw alias er_msg]. destruct (show_error s); [|left; reflexivity].
    right. exists msg, (alias b). do 4 eexists. split; reflexivity.
  Qed.

  Lemma parts_read {C} (k : bool -> M C) s i b body : src b = trim body ->
    bind (extract_params_code rec false) k (mkSt s i b) =
    k (separated body) (mkSt s i (bset_code (code_of body) (bset_params (params_of body) b))).
  Proof.
    intros HS. unfold bind at 1. unfold extract_params_code, separated, code_of, params_of. rewrite bind_getB, HS.
    destruct (get_code_position (trim body)); unfold bind, modB, getB, ret; cbn; rewrite ?HS; reflexivity.
  Qed.

  (** the bifs, after their parts have been separated *)
  Variable body1 body2 : bytes.
  Hypothesis Hy : y = trim body2.
  Hypothesis Hp : p = params_of body2.
  Hypothesis Ha : arg_texts (params_of body1) = arg_texts p.
  Hypothesis Hc : code_of body1 = code_of body2.
  Hypothesis Hf1 : contains (B "{:flg;") (params_of body1) = false.
  Hypothesis Hf2 : contains (B "{:flg;") p = false.
  Notation parted b := (bset_code (code_of body1) (bset_params (params_of body1) b)).
  Ltac start t s i b Hr Hs :=
    assert (agree (mkSt s i (parted b))) as HA by (split; [exact Hr|exact Ha]);
    assert (src (dtwin r y (params b) b) = trim body2) as Hs2 by exact Hy;
    destruct (t b) eqn:ET;
    [ rewrite !bind_rejected by exact ET; apply (err_result E_MODIFIER s i b (params b)); exact Hr
    | rewrite !bind_reject by exact ET;
      rewrite (parts_read _ s i b body1 Hs);
      rewrite (parts_read _ s i (dtwin r y (params b) b) body2 Hs2);
      rewrite !bind_getB; cbn [bset_code bset_params dtwin params]; rewrite <- Hp, Hf1, Hf2, <- Hc ].
  Lemma del_compare t : forall s i b, raw b = r0 -> src b = trim body1 ->
    same_but_quote env r0 r (bif_result env (bif_compare rec t (mkSt s i b))) (bif_result env (bif_compare rec t (mkSt s i (dtwin r y (params b) b)))).
  Proof.
    unfold bif_compare. intros s i b Hr Hs. start mod_filter s i b Hr Hs. apply dres_result.
    match goal with |- dres (?m _) _ => enough (dsim m) as HH by exact (HH _ HA) end. handler.
  Qed.
  Lemma del_replace : forall s i b, raw b = r0 -> src b = trim body1 ->
    same_but_quote env r0 r (bif_result env (bif_replace rec (mkSt s i b))) (bif_result env (bif_replace rec (mkSt s i (dtwin r y (params b) b)))).
  Proof.
    unfold bif_replace. intros s i b Hr Hs. start (fun b => b.(mod_filter) || b.(mod_negate) || b.(mod_scope)) s i b Hr Hs. apply dres_result.
    match goal with |- dres (?m _) _ => enough (dsim m) as HH by exact (HH _ HA) end. handler.
  Qed.
  Lemma del_cache : forall s i b, raw b = r0 -> src b = trim body1 -> in_cache i = false ->
    same_but_quote env r0 r (bif_result env (bif_cache env rec (mkSt s i b))) (bif_result env (bif_cache env rec (mkSt s i (dtwin r y (params b) b)))).
  Proof.
    unfold bif_cache. intros s i b Hr Hs HI. start (fun b => b.(mod_filter) || b.(mod_scope)) s i b Hr Hs.
    rewrite !bind_getI, !bind_getS. rewrite HI. apply dres_result.
    match goal with |- dres (?m _) _ => enough (dsim m) as HH by exact (HH _ HA) end. handler.
  Qed.
  Hypothesis Ho1 : contains BIF_OPEN (params_of body1) = false.
  Hypothesis Ho2 : contains BIF_OPEN p = false.
  Lemma parts_plain {C} (k : bool -> M C) s i b body : src b = trim body -> contains BIF_OPEN (params_of body) = false ->
    bind (extract_params_code rec true) k (mkSt s i b) =
    k (separated body) (mkSt s i (bset_code (code_of body) (bset_params (params_of body) b))).
  Proof.
    intros HS HO. unfold bind at 1. unfold extract_params_code, separated, code_of. unfold params_of in *. rewrite bind_getB, HS.
    destruct (get_code_position (trim body)); unfold bind, modB, getB, ret; cbn [src params bset_code bset_params bf sh inh]; rewrite ?HS;
      cbn [params bset_code bset_params]; rewrite HO; reflexivity.
  Qed.
  Lemma del_fetch : forall s i b, raw b = r0 -> src b = trim body1 -> bflags b = [] ->
    same_but_quote env r0 r (bif_result env (bif_fetch rec (mkSt s i b))) (bif_result env (bif_fetch rec (mkSt s i (dtwin r y (params b) b)))).
  Proof.
    unfold bif_fetch. intros s i b Hr Hs Hfl.
    assert (agree (mkSt s i (parted b))) as HA by (split; [exact Hr|exact Ha]).
    assert (src (dtwin r y (params b) b) = trim body2) as Hs2 by exact Hy.
    destruct (mod_filter b || mod_negate b || mod_scope b) eqn:ET.
    - rewrite !bind_rejected by exact ET. apply (err_result E_MODIFIER s i b (params b)). exact Hr.
    - rewrite !bind_reject by exact ET. rewrite (parts_plain _ s i b body1 Hs Ho1).
      rewrite (parts_plain _ s i (dtwin r y (params b) b) body2 Hs2) by (rewrite <- Hp; exact Ho2).
      rewrite <- Hp, <- Hc. rewrite !bind_no_flags by exact Hfl. apply dres_result.
      match goal with |- dres (?m _) _ => enough (dsim m) as HH by exact (HH _ HA) end. handler.
  Qed.

  (** the whole body is the arguments *)
  Hypothesis Hw : p = y.
  Hypothesis Hb : arg_texts (trim body1) = arg_texts y.
  Hypothesis Hg1 : contains (B "{:flg;") (trim body1) = false.
  Hypothesis Hg2 : contains (B "{:flg;") y = false.
  Ltac whole t s i b Hr Hs :=
    assert (agree (mkSt s i (bset_params (trim body1) b))) as HA by (split; [exact Hr|rewrite Hw; exact Hb]);
    destruct (t b) eqn:ET;
    [ rewrite !bind_rejected by exact ET; apply (err_result E_MODIFIER s i b (params b)); exact Hr
    | rewrite !bind_reject by exact ET; rewrite !bind_modB; rewrite Hs;
      change (src (dtwin r y (params b) b)) with y ].
  Lemma del_join : forall s i b, raw b = r0 -> src b = trim body1 ->
    same_but_quote env r0 r (bif_result env (bif_join rec (mkSt s i b))) (bif_result env (bif_join rec (mkSt s i (dtwin r y (params b) b)))).
  Proof.
    unfold bif_join. intros s i b Hr Hs. whole (fun b => b.(mod_filter) || b.(mod_negate) || b.(mod_scope)) s i b Hr Hs. apply dres_result.
    match goal with |- dres (?m _) _ => enough (dsim m) as HH by (pose proof (HH _ HA) as H3; rewrite Hw in H3; exact H3) end. handler.
  Qed.
  Lemma del_sum : forall s i b, raw b = r0 -> src b = trim body1 ->
    same_but_quote env r0 r (bif_result env (bif_sum env rec (mkSt s i b))) (bif_result env (bif_sum env rec (mkSt s i (dtwin r y (params b) b)))).
  Proof.
    unfold bif_sum. intros s i b Hr Hs. whole (fun b => b.(mod_filter) || b.(mod_negate) || b.(mod_scope)) s i b Hr Hs.
    rewrite !bind_getB. cbn [bset_params params dtwin]. rewrite Hg1, Hg2. apply dres_result.
    match goal with |- dres (?m _) _ => enough (dsim m) as HH by (pose proof (HH _ HA) as H3; rewrite Hw in H3; exact H3) end. handler.
  Qed.
End Del.

(** ** The text with delimiters has no white space around it *)
Lemma white_one w : white w -> one_char w.
Proof.
  intros (n & Hn & ->). unfold white_points in Hn. cbn [In] in Hn.
  repeat (destruct Hn as [<-|Hn]; [eexists; eexists; split; [reflexivity|]; split; [reflexivity|repeat constructor]|]). destruct Hn.
Qed.
Lemma written_start d args : delimiter d -> Forall (fun a => exists l, characters a l) args ->
  forall w r, white w -> written d args <> w ++ r.
Proof.
  intros [HD HN] HF w r HW E. unfold written in E. set (rest := concat _) in E.
  assert (match rest with c :: _ => in_range 128 191 c = false | [] => True end) as HR.
  { subst rest. destruct HF as [|a args [l Hl] _]; [exact I|]. cbn [map concat].
    pose proof (text_start a l Hl) as H. destruct a as [|c a]; [|exact H]. destruct HD as (x & y & -> & Hx & _). exact Hx. }
  apply app_eq_app in E as (l & [[E1 E2]|[E1 E2]]).
  - exact (HN w l HW E1).
  - destruct l as [|c l].
    + rewrite app_nil_r in E1. apply (HN w [] HW). rewrite app_nil_r. symmetry. exact E1.
    + destruct (white_one w HW) as (x & y & E & _ & HY). rewrite E in E1. destruct HD as (x' & y' & -> & _ & _).
      cbn [app] in E1. injection E1 as _ E1. rewrite E1 in HY. apply Forall_app in HY as [_ HY]. apply Forall_cons_iff in HY as [HY _].
      rewrite E2 in HR. cbn in HR. congruence.
Qed.
Lemma one_char_end x d r w : one_char d -> one_char w -> x ++ d = r ++ w -> d = w.
Proof.
  intros (a & d' & -> & Ha & Hd) (c & w' & -> & Hc & Hw) E. apply app_eq_app in E as (l & [[E1 E2]|[E1 E2]]).
  - destruct l as [|z l]; [symmetry; exact E2|]. cbn [app] in E2. injection E2 as <- E2. rewrite E2 in Hw.
    apply Forall_app in Hw as [_ Hw]. apply Forall_cons_iff in Hw as [Hw _]. congruence.
  - destruct l as [|z l]; [exact E2|]. cbn [app] in E2. injection E2 as <- E2. rewrite E2 in Hd.
    apply Forall_app in Hd as [_ Hd]. apply Forall_cons_iff in Hd as [Hd _]. congruence.
Qed.
Lemma written_ends d args : exists x, written d args = x ++ d.
Proof.
  unfold written. induction args as [|a args [x IH]]; [exists []; cbn; apply app_nil_r|]. cbn [map concat].
  destruct args as [|b args]. { exists (d ++ a). cbn. rewrite app_nil_r, app_assoc. reflexivity. }
  cbn [map concat] in *. exists (d ++ a ++ x). rewrite <- !app_assoc in *. cbn [app] in *. rewrite <- IH. reflexivity.
Qed.
Lemma written_end d args : delimiter d -> forall w r, white w -> written d args <> r ++ w.
Proof.
  intros [HD HN] w r HW E. destruct (written_ends d args) as [x E']. rewrite E' in E.
  apply (one_char_end x d r w HD (white_one w HW)) in E. apply (HN w [] HW). rewrite app_nil_r. exact E.
Qed.
Lemma written_trim d args : delimiter d -> Forall (fun a => exists l, characters a l) args -> trim (written d args) = written d args.
Proof.
  intros HD HF. apply trimmed_trim. split; [|split; [apply written_start; assumption|apply written_end; assumption]].
  exists [], []. rewrite app_nil_r. split; [reflexivity|]. split; exists []; (split; [reflexivity|constructor]).
Qed.
Lemma written_parts d args c : delimiter d -> Forall (fun a => exists l, characters a l) args -> parameter_text (written d args) ->
  params_of (written d args ++ B ">>" ++ c) = written d args /\ code_of (written d args ++ B ">>" ++ c) = trim c.
Proof.
  intros HD HF HP. assert (all_white []) as W by (exists []; split; [reflexivity|constructor]).
  destruct (layout_parts [] (written d args) [] [] c [] W W W W HP) as (k & C1 & G1 & P1 & E1). cbn [app] in *. rewrite app_nil_r in *.
  unfold params_of, code_of. rewrite G1. rewrite P1, E1. split; [apply written_trim; assumption|reflexivity].
Qed.

(** ** C89: the same bif with two delimiters *)
Lemma admits_args d args : admits d args -> arg_texts (written d args) = [] :: args ++ [[]].
Proof. intros [[H1 _] H2]. apply C89_arguments; assumption. Qed.
Lemma admits_chars d args : admits d args -> Forall (fun a => exists l, characters a l) args.
Proof. intros [_ H]. eapply Forall_impl; [|exact H]. intros a [Ha _]. exact Ha. Qed.

Lemma flag_free p : ~ occurs (B "{:flg;") p -> contains (B "{:flg;") p = false.
Proof. intro H. apply contains_false. exact H. Qed.
Theorem C89_delimiter : forall env s i mods nm only d1 d2 args c,
  Forall modifier mods -> In nm [B "same"; B "contains"; B "replace"; B "cache"] -> i.(in_cache) = false ->
  may_start s -> selected only i mods nm -> admits d1 args -> admits d2 args ->
  parameter_text (written d1 args) -> parameter_text (written d2 args) ->
  ~ occurs (B "{:flg;") (written d1 args) -> ~ occurs (B "{:flg;") (written d2 args) ->
  let t1 := bif_text mods nm (written d1 args ++ B ">>" ++ c) in
  let t2 := bif_text mods nm (written d2 args ++ B ">>" ++ c) in
  same_but_quote env t1 t2 (eval_bif env s i t1 only) (eval_bif env s i t2 only).
Proof.
  intros env s i mods nm only d1 d2 args c HM HI HC HS HO A1 A2 P1 P2 F1 F2 t1 t2.
  assert (plain_name nm) as HN by (destruct HI as [<-|[<-|[<-|[<-|[]]]]]; plain).
  destruct (written_parts d1 args c (proj1 A1) (admits_chars _ _ A1) P1) as [PA1 CO1].
  destruct (written_parts d2 args c (proj1 A2) (admits_chars _ _ A2) P2) as [PA2 CO2].
  set (b1 := written d1 args ++ B ">>" ++ c) in *. set (b2 := written d2 args ++ B ">>" ++ c) in *.
  assert (arg_texts (params_of b1) = arg_texts (params_of b2)) as HA by (rewrite PA1, PA2, (admits_args _ _ A1), (admits_args _ _ A2); reflexivity).
  assert (code_of b1 = code_of b2) as HE by congruence.
  assert (contains (B "{:flg;") (params_of b1) = false) as G1 by (rewrite PA1; apply flag_free; exact F1).
  assert (contains (B "{:flg;") (params_of b2) = false) as G2 by (rewrite PA2; apply flag_free; exact F2).
  unfold t1, t2. rewrite !eval_bif_text by assumption. unfold entry.
  change (bif_of mods nm b2 only) with (dtwin (bif_text mods nm b2) (trim b2) (params (bif_of mods nm b1 only)) (bif_of mods nm b1 only)).
  destruct HI as [<-|[<-|[<-|[<-|[]]]]].
  - apply (del_compare env _ _ _ (trim b2) (params_of b2) b1 b2 eq_refl eq_refl HA HE G1 G2); reflexivity.
  - apply (del_compare env _ _ _ (trim b2) (params_of b2) b1 b2 eq_refl eq_refl HA HE G1 G2); reflexivity.
  - apply (del_replace env _ _ _ (trim b2) (params_of b2) b1 b2 eq_refl eq_refl HA HE G1 G2); reflexivity.
  - apply (del_cache env _ _ _ (trim b2) (params_of b2) b1 b2 eq_refl eq_refl HA HE G1 G2); try reflexivity. exact HC.
Qed.
Print Assumptions C89_delimiter.
Theorem C89_delimiter_fetch : forall env s i mods only d1 d2 args c,
  Forall modifier mods -> may_start s -> selected only i mods (B "fetch") -> admits d1 args -> admits d2 args ->
  parameter_text (written d1 args) -> parameter_text (written d2 args) ->
  ~ occurs (B "{:") (written d1 args) -> ~ occurs (B "{:") (written d2 args) ->
  let t1 := bif_text mods (B "fetch") (written d1 args ++ B ">>" ++ c) in
  let t2 := bif_text mods (B "fetch") (written d2 args ++ B ">>" ++ c) in
  same_but_quote env t1 t2 (eval_bif env s i t1 only) (eval_bif env s i t2 only).
Proof.
  intros env s i mods only d1 d2 args c HM HS HO A1 A2 P1 P2 F1 F2 t1 t2.
  destruct (written_parts d1 args c (proj1 A1) (admits_chars _ _ A1) P1) as [PA1 CO1].
  destruct (written_parts d2 args c (proj1 A2) (admits_chars _ _ A2) P2) as [PA2 CO2].
  set (b1 := written d1 args ++ B ">>" ++ c) in *. set (b2 := written d2 args ++ B ">>" ++ c) in *.
  assert (arg_texts (params_of b1) = arg_texts (params_of b2)) as HA by (rewrite PA1, PA2, (admits_args _ _ A1), (admits_args _ _ A2); reflexivity).
  assert (code_of b1 = code_of b2) as HE by congruence.
  assert (contains BIF_OPEN (params_of b1) = false) as G1 by (rewrite PA1; apply contains_false; exact F1).
  assert (contains BIF_OPEN (params_of b2) = false) as G2 by (rewrite PA2; apply contains_false; exact F2).
  unfold t1, t2. rewrite !eval_bif_text by (assumption || plain). unfold entry.
  change (bif_of mods (B "fetch") b2 only) with (dtwin (bif_text mods (B "fetch") b2) (trim b2) (params (bif_of mods (B "fetch") b1 only)) (bif_of mods (B "fetch") b1 only)).
  apply (del_fetch env _ _ _ (trim b2) (params_of b2) b1 b2 eq_refl eq_refl HA HE G1 G2); reflexivity.
Qed.
Print Assumptions C89_delimiter_fetch.
Theorem C89_delimiter_whole : forall env s i mods nm only d1 d2 args,
  Forall modifier mods -> In nm [B "join"; B "sum"] -> may_start s -> selected only i mods nm -> admits d1 args -> admits d2 args ->
  ~ occurs (B "{:flg;") (written d1 args) -> ~ occurs (B "{:flg;") (written d2 args) ->
  let t1 := bif_text mods nm (written d1 args) in
  let t2 := bif_text mods nm (written d2 args) in
  same_but_quote env t1 t2 (eval_bif env s i t1 only) (eval_bif env s i t2 only).
Proof.
  intros env s i mods nm only d1 d2 args HM HI HS HO A1 A2 F1 F2 t1 t2.
  assert (plain_name nm) as HN by (destruct HI as [<-|[<-|[]]]; plain).
  pose proof (written_trim d1 args (proj1 A1) (admits_chars _ _ A1)) as T1.
  pose proof (written_trim d2 args (proj1 A2) (admits_chars _ _ A2)) as T2.
  set (b1 := written d1 args) in *. set (b2 := written d2 args) in *.
  assert (arg_texts (trim b1) = arg_texts (trim b2)) as HA by (rewrite T1, T2; unfold b1, b2; rewrite (admits_args _ _ A1), (admits_args _ _ A2); reflexivity).
  assert (contains (B "{:flg;") (trim b1) = false) as G1 by (rewrite T1; apply flag_free; exact F1).
  assert (contains (B "{:flg;") (trim b2) = false) as G2 by (rewrite T2; apply flag_free; exact F2).
  unfold t1, t2. rewrite !eval_bif_text by assumption. unfold entry.
  change (bif_of mods nm b2 only) with (dtwin (bif_text mods nm b2) (trim b2) (params (bif_of mods nm b1 only)) (bif_of mods nm b1 only)).
  destruct HI as [<-|[<-|[]]].
  - apply (del_join env _ _ _ (trim b2) (trim b2) b1 eq_refl HA); reflexivity.
  - apply (del_sum env _ _ _ (trim b2) (trim b2) b1 eq_refl HA G1 G2); reflexivity.
Qed.
Print Assumptions C89_delimiter_whole.
Example C89_example :
  output_of "{:same;/{:;name:}/World/>>yes:}" = B "yes" /\ output_of "{:same;|{:;name:}|World|>>yes:}" = B "yes" /\
  admits (B "/") [B "{:;name:}"; B "World"] /\ admits (B "|") [B "{:;name:}"; B "World"] /\
  parameter_text (written (B "|") [B "{:;name:}"; B "World"]) /\ ~ occurs (B "{:flg;") (written (B "|") [B "{:;name:}"; B "World"]).
Proof.
  assert (forall d, In d [B "/"; B "|"] -> admits d [B "{:;name:}"; B "World"]) as HA.
  { intros d Hd. assert (one_char d /\ (forall w r, white w -> d <> w ++ r) /\ Forall (fun a => ~ occurs d a) [B "{:;name:}"; B "World"]) as (H1 & H2 & H3).
    { destruct Hd as [<-|[<-|[]]]; (split; [eexists; exists []; split; [reflexivity|split; [reflexivity|constructor]]|]); split.
      1, 3: intros w r (n & Hn & ->) E; unfold white_points in Hn; cbn [In] in Hn; repeat (destruct Hn as [<-|Hn]; [discriminate E|]); destruct Hn.
      all: repeat constructor; apply contains_false; reflexivity. }
    split; [split; assumption|]. inversion H3 as [|? ? X1 Y]; subst. inversion Y as [|? ? X2 _]; subst.
    constructor; [split; [|exact X1]|constructor; [split; [|exact X2]|constructor]].
    - exists (chars (B "{:;name:}")). split; [reflexivity|]. repeat constructor; eexists; exists []; repeat split; constructor.
    - exists (chars (B "World")). split; [reflexivity|]. repeat constructor; eexists; exists []; repeat split; constructor. }
  repeat split; try (vm_compute; reflexivity); try (apply HA; cbn; tauto). all: apply contains_false; vm_compute; reflexivity.
Qed.
