(** * Evaluation without fuel: bifs, nested blocks and blocks *)

From Verif Require Import Bytes Json Utils ConstantsGen State Engine Template Spec SpecEngine BytesFacts
  EscapeProofs MergeProofs BlockProofs TextProofs TemplateProofs FrameProofs FrameRun SimProofs EngineFrames MoreFrames.

(** ** Fuel *)
Lemma trivial_frame env : frame env (fun _ _ _ => True) (fun _ => later) (fun _ => True).
Proof.
  apply simple_frame; intros; try exact I; try (split; [exact I|]).
  - apply later_refl.
  - eapply later_trans; eassumption.
  - match goal with H : later _ _ |- _ => destruct H as (? & ? & _) end. auto.
  - apply later_benign. assumption.
  - apply later_same; reflexivity.
  - apply later_count.
  - apply later_same; reflexivity.
  - apply later_same; reflexivity.
  - apply later_same; reflexivity.
Qed.

Lemma room_later n s s' : later s s' -> room n s -> room n s'.
Proof. intros (E & L & _). unfold room. rewrite E. lia. Qed.
Lemma room_enough s : room (enough_fuel s) s.
Proof. unfold room, enough_fuel. lia. Qed.

Lemma run_blocks_any env m f s i source bl only : room m s -> room f s ->
  run_blocks env m s i source bl only = run_blocks env f s i source bl only.
Proof.
  intros Hm Hf. transitivity (run_blocks env (m + f) s i source bl only); [|symmetry];
    apply run_blocks_fuel; auto; lia.
Qed.

Lemma block_parse_any env n s i source only : room n s ->
  block_parse (run_blocks env n) s i source only = parse env s i source only.
Proof.
  intro H. unfold parse, parse_fuel, block_parse. destruct (extract_blocks source); [|reflexivity].
  apply run_blocks_any; [exact H|apply room_enough].
Qed.

Lemma bif_run_any env n s i text only : s.(exit) = false -> room (S n) s ->
  bif_run env (run_blocks env n) s i text only = eval_bif env s i text only.
Proof.
  intros HE HF. unfold eval_bif.
  pose proof (trivial_frame env) as F.
  apply (bif_run_agree env _ _ _ F n (run_blocks env n) (run_blocks env (enough_fuel s)) (run_blocks_ok env _ _ _ F n) mFree);
    auto.
  intros s2 i2 src bl o _ HR _ HL _. apply run_blocks_any; [exact HR|].
  eapply room_later; [exact HL|]. apply room_enough.
Qed.

(** ** Blocks *)
Lemma comment_iff t : starts_with BIF_COMMENT_OPEN t = true <-> is_comment t.
Proof. apply starts_with_iff. Qed.
Lemma decided_iff i : (last_coalesce_out i && beq (ialias i) (B "coalesce")) = true <-> decided i.
Proof. rewrite andb_true_iff, beq_eq. reflexivity. Qed.

Lemma loop_evaluates env n source only bl : forall s i p acc o s' i', room (S n) s ->
  (blocks_loop env (run_blocks env n) s i source p acc bl only = BOk o s' i' <->
   exists o' fin, evaluates (fun s i t => eval_bif env s i t only) (segments source p bl) s i o' s' i' fin /\
     o = if fin then trim (acc ++ o') else acc ++ o').
Proof.
  induction bl as [|[a b] r IH]; intros s i p acc o s' i' HR; cbn [blocks_loop segments].
  - split.
    + intro H. exists (skipn p source), true. injection H as <- <- <-. split; [constructor|reflexivity].
    + intros (o' & fin & HE & ->). inversion HE; subst. reflexivity.
  - destruct (exit s) eqn:EX.
    { split.
      - intro H. injection H as <- <- <-. exists [], false. split; [apply ev_stop; exact EX|rewrite app_nil_r; reflexivity].
      - intros (o' & fin & HE & ->). inversion HE; subst; try congruence. rewrite app_nil_r. reflexivity. }
    destruct (starts_with BIF_COMMENT_OPEN (slice a b source)) eqn:EC; cbn [negb andb].
    { apply comment_iff in EC. rewrite (IH s i b (acc ++ slice p a source) o s' i' HR). split.
      - intros (o' & fin & HE & ->). exists (slice p a source ++ o'), fin.
        split; [apply ev_comment; assumption|]. rewrite <- !app_assoc. reflexivity.
      - intros (o' & fin & HE & ->). inversion HE; subst; try congruence; try contradiction.
        eexists _, fin. split; [eassumption|]. rewrite <- !app_assoc. reflexivity. }
    assert (~ is_comment (slice a b source)) as NC by (intro C; apply comment_iff in C; congruence).
    destruct (last_coalesce_out i && beq (ialias i) (B "coalesce")) eqn:ED; cbn [negb].
    { apply decided_iff in ED. rewrite (IH s i b (acc ++ slice p a source) o s' i' HR). split.
      - intros (o' & fin & HE & ->). exists (slice p a source ++ o'), fin.
        split; [apply ev_skip; assumption|]. rewrite <- !app_assoc. reflexivity.
      - intros (o' & fin & HE & ->). inversion HE; subst; try congruence; try contradiction.
        eexists _, fin. split; [eassumption|]. rewrite <- !app_assoc. reflexivity. }
    assert (~ decided i) as ND by (intro C; apply decided_iff in C; congruence).
    rewrite (bif_run_any env n s i _ only EX HR).
    destruct (eval_bif env s i (slice a b source) only) as [o1 s1 i1|q|] eqn:EB.
    + assert (room (S n) s1) as HR1.
      { rewrite <- (bif_run_any env n s i _ only EX HR) in EB.
        pose proof (trivial_frame env) as F.
        pose proof (okb_bif env _ _ _ F n _ (run_blocks_ok env _ _ _ F n) mFree s i (slice a b source) only
                      (or_introl eq_refl) EX I HR) as H.
        rewrite EB in H. cbn in H. destruct H as (_ & HL & _). eapply room_later; eassumption. }
      rewrite (IH s1 i1 b _ o s' i' HR1). split.
      * intros (o' & fin & HE & ->). exists (slice p a source ++ o1 ++ o'), fin.
        split; [eapply ev_bif; eassumption|]. rewrite <- !app_assoc. reflexivity.
      * intros (o' & fin & HE & ->). inversion HE; subst; try congruence; try contradiction.
        match goal with H : eval_bif _ _ _ _ _ = BOk _ _ _ |- _ => rewrite EB in H; injection H as <- <- <- end.
        eexists _, fin. split; [eassumption|]. rewrite <- !app_assoc. reflexivity.
    + split; [discriminate|]. intros (o' & fin & HE & ->). inversion HE; subst; try congruence; try contradiction.
    + split; [discriminate|]. intros (o' & fin & HE & ->). inversion HE; subst; try congruence; try contradiction.
Qed.

Lemma parse_evaluates env s i source only bl o s' i' : extract_blocks source = Blocks bl ->
  (parse env s i source only = BOk o s' i' <->
   exists o' fin, evaluates (fun s i t => eval_bif env s i t only) (segments source 0 bl) s i o' s' i' fin /\
     o = if fin then trim o' else o').
Proof.
  intro H. unfold parse, parse_fuel, block_parse. rewrite H.
  unfold enough_fuel. cbn [run_blocks]. rewrite loop_evaluates; [reflexivity|]. unfold room. lia.
Qed.

Lemma evaluates_in_order run l s i o s' i' : evaluates run l s i o s' i' true ->
  in_order (flat_map (fun g => match g with SText t => [t] | SBlock _ => [] end) l) o.
Proof.
  intro H. remember true as fin eqn:E. induction H; try discriminate; cbn [flat_map app].
  - rewrite <- (app_nil_l t), <- (app_nil_r t) at 2. apply (io_cons t [] [] []). constructor.
  - apply (io_cons t _ []). auto.
  - apply (io_cons t _ []). auto.
  - apply (io_cons t _ []). assert (forall l u o, in_order l o -> in_order l (u ++ o)) as HP.
    { clear. intros l u o H. destruct H; [constructor|]. rewrite app_assoc. constructor. assumption. }
    apply HP. auto.
Qed.

Lemma segments_text source bl p : ordered_spans source p bl ->
  concat (map segment_text (segments source p bl)) = skipn p source.
Proof.
  intro H. rewrite <- (interleave_all source bl p H). clear H. revert p.
  induction bl as [|[a b] r IH]; intro p; cbn [segments interleave map concat segment_text]; [apply app_nil_r|].
  rewrite IH. reflexivity.
Qed.

(** ** Results of nested evaluation *)
Lemma parse_later env s i source only o s' i' : parse env s i source only = BOk o s' i' -> later s s'.
Proof.
  intro H. pose proof (parse_ok env _ _ _ (trivial_frame env) s i source only I) as HP. rewrite H in HP. apply HP.
Qed.
Lemma drop_later s i : later s (drop_block s i).
Proof. destruct (drop_store s i) as [x ->]. apply later_same; reflexivity. Qed.
Lemma nested_later env al s i src only o s' i' : eval_nested env al s i src only = BOk o s' i' -> later s s' /\ i' = i.
Proof.
  unfold eval_nested. destruct (parse env s (inside al i) src only) as [o1 s1 i1| |] eqn:E; try discriminate.
  intro H. assert (s' = drop_block s1 i1 /\ i' = i) as [-> ->] by (split; congruence). split; [|reflexivity].
  eapply later_trans; [eapply parse_later; exact E|apply drop_later].
Qed.
Lemma nested_not_stuck env al s i src only : eval_nested env al s i src only <> BNoFuel.
Proof.
  unfold eval_nested. pose proof (parse_ok env _ _ _ (trivial_frame env) s (inside al i) src only I) as HP.
  destruct (parse env s (inside al i) src only); [discriminate|discriminate|contradiction].
Qed.
Lemma text_later env al s i src only o s' i' : eval_text env al s i src only = BOk o s' i' -> later s s' /\ i' = i.
Proof.
  unfold eval_text. destruct (contains (B "{:") src); [apply nested_later|].
  intro H. injection H as <- <- <-. split; [apply later_refl|reflexivity].
Qed.
Lemma started_later s : later s (started s).
Proof. apply later_count. Qed.

(** ** The text of a bif *)
Lemma scan_mods mods nm : Forall modifier mods -> plain_name nm -> forall f g u p,
  scan_modifiers (mods ++ nm) f g u p =
  Some (nm, (f || has_mod "&" mods, g || has_mod "!" mods, u || has_mod "^" mods, p || has_mod "+" mods)).
Proof.
  intros HM HN. induction HM as [|c r Hc _ IH]; intros f g u p.
  - cbn [app has_mod existsb]. rewrite !orb_false_r. destruct nm as [|c r]; [reflexivity|].
    destruct HN as [_ [HN HA]]. unfold modifier in HN. cbn [scan_modifiers].
    assert ((128 <=? N_of_ascii c)%N = false) as -> by (apply N.leb_gt; exact HA).
    assert (aeqb c "&"%char = false) as -> by (apply aeqb_neq; tauto).
    assert (aeqb c "!"%char = false) as -> by (apply aeqb_neq; tauto).
    assert (aeqb c "^"%char = false) as -> by (apply aeqb_neq; tauto).
    assert (aeqb c "+"%char = false) as -> by (apply aeqb_neq; tauto). reflexivity.
  - cbn [app]. change (has_mod ?x (c :: r)) with (aeqb x c || has_mod x r).
    destruct Hc as [-> | [-> | [-> | -> ]]];
      [change (scan_modifiers ("&"%char :: ?x) ?f ?g ?u ?p) with (scan_modifiers x true g u p)
      |change (scan_modifiers ("!"%char :: ?x) ?f ?g ?u ?p) with (scan_modifiers x f true u p)
      |change (scan_modifiers ("^"%char :: ?x) ?f ?g ?u ?p) with (scan_modifiers x f g true p)
      |change (scan_modifiers ("+"%char :: ?x) ?f ?g ?u ?p) with (scan_modifiers x f g u true)];
      rewrite IH; cbn; rewrite ?orb_true_r; reflexivity.
Qed.

Lemma modifier_semicolon c : modifier c -> c <> ";"%char.
Proof. intros [-> | [-> | [-> | -> ]]]; discriminate. Qed.

Lemma text_parts mods nm body : Forall modifier mods -> plain_name nm ->
  split_once (B ";") (strip_prefix_suffix (bif_text mods nm body) BIF_OPEN BIF_CLOSE) = Some (mods ++ nm, body).
Proof.
  intros HM [HN _]. unfold strip_prefix_suffix, bif_text.
  assert (strip_prefix BIF_OPEN (B "{:" ++ mods ++ nm ++ B ";" ++ body ++ B ":}") = Some (mods ++ nm ++ B ";" ++ body ++ B ":}")) as ->
    by (apply strip_prefix_some; reflexivity).
  assert (strip_suffix BIF_CLOSE (mods ++ nm ++ B ";" ++ body ++ B ":}") = Some (mods ++ nm ++ B ";" ++ body)) as ->
    by (apply strip_suffix_some; rewrite <- !app_assoc; reflexivity).
  unfold split_once.
  assert (find (B ";") (mods ++ nm ++ B ";" ++ body) = Some (length (mods ++ nm))) as ->.
  { apply find_unique.
    - exists (mods ++ nm), body. rewrite <- !app_assoc. auto.
    - intros j Hj (u & v & E & L). subst j.
      assert (In ";"%char (mods ++ nm)) as H.
      { rewrite app_assoc in E.
        assert (nth_error (u ++ B ";" ++ v) (length u) = Some ";"%char) as E2.
        { rewrite nth_error_app2, Nat.sub_diag by lia. reflexivity. }
        rewrite <- E, nth_error_app1 in E2 by exact Hj. eapply nth_error_In; exact E2. }
      apply in_app_iff in H as [H|H]; [|contradiction].
      apply (modifier_semicolon ";"%char); [|reflexivity]. rewrite Forall_forall in HM. apply HM. exact H. }
  rewrite app_assoc. rewrite firstn_app, firstn_all, Nat.sub_diag, firstn_O, app_nil_r.
  do 2 f_equal. rewrite skipn_app. replace (length (mods ++ nm) + length (B ";") - length (mods ++ nm)) with 1 by (cbn; lia).
  rewrite skipn_all2 by lia. reflexivity.
Qed.

(** the state in which the handler of the bif starts *)
Definition bif_of (mods nm body only : bytes) : Bif :=
  bset_mods (has_mod "&" mods) (has_mod "!" mods) (has_mod "^" mods) (has_mod "+" mods)
    (bset_alias nm (bset_name nm (bset_src (trim body) (bif_init (bif_text mods nm body) only)))).
Definition entry (s : Shared) (i : Inherit) (mods nm body only : bytes) : St :=
  mkSt (started s) (started_in s i) (bif_of mods nm body only).

Lemma bif_run_text env rec s i mods nm body only : Forall modifier mods -> plain_name nm ->
  may_start s -> selected only i mods nm ->
  bif_run env rec s i (bif_text mods nm body) only
  = bif_result env (dispatch env rec nm (entry s i mods nm body only)).
Proof.
  intros HM HN HS HO. unfold bif_run. unfold may_start in HS.
  assert ((bisf_max (cfg s) <? bisf_count s + 1)%N = false) as -> by (apply N.ltb_ge; exact HS).
  unfold bif_parse. rewrite (text_parts mods nm body HM HN).
  assert (negb (is_empty only) && negb (contains only (mods ++ nm))
          && negb (in_only (iset_bif_count (bisf_count s + 1) i)) = false) as ->.
  { destruct HO as [-> | [HO|HO]]; [reflexivity| |].
    - cbn [in_only iset_bif_count]. rewrite HO. apply andb_false_r.
    - apply contains_iff in HO. rewrite HO. cbn [negb]. rewrite andb_false_r. reflexivity. }
  rewrite (scan_mods mods nm HM HN). cbn [orb]. reflexivity.
Qed.

(** the result of a handler *)
Lemma result_done env mods o s i b :
  mod_upline b = has_mod "^" mods -> out b = o ->
  bif_result env (Done tt (mkSt s i b)) = finished mods o s i.
Proof. intros E <-. unfold bif_result, bif_finish, finished. cbn [bf sh inh]. rewrite E. destruct (has_mod "^" mods); reflexivity. Qed.
