(** * C90: the marks of the modifier ^ and of silent bifs do not appear in the page *)

From Verif Require Import Bytes Json Utils ConstantsGen State Engine Template Spec SpecEngine SpecPage BytesFacts TextProofs TemplateProofs WordProofs
  LayoutProofs PropertiesTemplate Samples.

Lemma ws2_ws3 a b c : ws2 a b = true -> ws3 a b c = true -> False.
Proof.
  intros H2 H3. apply ws2_white in H2 as (n & Hn & E). cbn [white_points In] in Hn.
  repeat (destruct Hn as [<-|Hn]; [vm_compute in E; try discriminate; injection E as -> ->; destruct c as [[] [] [] [] [] [] [] []]; discriminate|]).
  destruct Hn.
Qed.

Lemma suffix_shape d y r1 r2 : white d -> y <> [] -> r1 ++ d = r2 ++ y -> (exists a l, y = a :: l /\ lead a = true) -> exists z, y = z ++ d.
Proof.
  intros Hd Hy E (a & l & -> & La). destruct (white_shape d Hd) as (b & m & -> & _ & Fm).
  destruct (Nat.le_gt_cases (length r2) (length r1)) as [L|L].
  - exists (skipn (length r2) r1). apply (app_inv_head r2). rewrite <- E, app_assoc. f_equal.
    rewrite <- (firstn_skipn (length r2) r1) at 1. f_equal.
    assert (firstn (length r2) (r1 ++ b :: m) = r2) as F by (rewrite E, firstn_app, Nat.sub_diag, firstn_O, app_nil_r; apply firstn_all).
    rewrite firstn_app in F. replace (length r2 - length r1) with 0 in F by lia. rewrite firstn_O, app_nil_r in F. exact F.
  - exfalso. assert (nth_error (r1 ++ b :: m) (length r2) = Some a) as F by (rewrite E, nth_error_app2, Nat.sub_diag by lia; reflexivity).
    rewrite nth_error_app2 in F by lia. destruct (length r2 - length r1) as [|k] eqn:K; [lia|]. cbn in F.
    apply nth_error_In in F. rewrite Forall_forall in Fm. specialize (Fm _ F). congruence.
Qed.

Lemma all_white_last w : all_white w -> w <> [] -> exists r d, w = r ++ d /\ white d.
Proof.
  intros (l & -> & F) N. destruct (exists_last (l := l)) as (l' & d & ->); [intros ->; apply N; reflexivity|].
  exists (concat l'), d. rewrite concat_app. cbn. rewrite app_nil_r. split; [reflexivity|]. apply Forall_app in F as [_ F]. inversion F; assumption.
Qed.

Lemma ws1_ws2 a b : ws1 a = true -> ws2 a b = true -> False.
Proof. destruct a as [[] [] [] [] [] [] [] []]; try discriminate; intros _; destruct b as [[] [] [] [] [] [] [] []]; discriminate. Qed.
Lemma ws1_ws3 a b c : ws1 a = true -> ws3 a b c = true -> False.
Proof.
  intros H1 H3. apply ws3_white in H3 as (n & Hn & E). cbn [white_points In] in Hn.
  repeat (destruct Hn as [<-|Hn]; [vm_compute in E; try discriminate; injection E as -> -> ->; discriminate|]).
  destruct Hn.
Qed.
Lemma white_prefix d x z : white d -> white x -> x = d ++ z -> z = [].
Proof.
  intros Hd Hx ->.
  destruct (white_cases _ Hx) as [(p & E1 & H1)|[(p & q & E1 & H1)|(p & q & t & E1 & H1)]];
  destruct (white_cases _ Hd) as [(b & E2 & H2)|[(b & c & E2 & H2)|(b & c & e & E2 & H2)]]; subst d; cbn in E1; injection E1; intros; subst; try reflexivity; try discriminate.
  all: exfalso; solve [eapply ws1_ws2; eassumption | eapply ws1_ws3; eassumption | eapply ws2_ws3; eassumption].
Qed.

Lemma trim_end_keep w a u : all_white w -> (forall c r, white c -> a :: u <> c ++ r) -> trim_end (w ++ a :: u) = w ++ a :: trim_end u.
Proof.
  intros Hw HN. destruct (trim_end_white u) as (q & E & Hq). rewrite E at 1. rewrite app_comm_cons, app_assoc, trim_end_all by exact Hq.
  set (t := trim_end u) in *. assert (forall w r, white w -> t <> r ++ w) as HT by (intros; apply trim_end_not_white; assumption).
  unfold trim_end. rewrite trim_rev_id; [apply rev_involutive|]. intros x r Hx EW.
  assert (w ++ a :: t = rev r ++ x) as E2 by (rewrite <- (rev_involutive (w ++ a :: t)), EW, rev_app_distr, rev_involutive; reflexivity).
  clear EW. clearbody t. subst u. set (r' := rev r) in *. clearbody r'. clear r.
  destruct (Nat.le_gt_cases (length w) (length r')) as [L|L].
  - (* x inside a :: t *)
    assert (a :: t = skipn (length w) r' ++ x) as E3.
    { assert (skipn (length w) (w ++ a :: t) = a :: t) as F by (rewrite skipn_app, Nat.sub_diag, skipn_all; reflexivity).
      rewrite <- F, E2, skipn_app. replace (length w - length r') with 0 by lia. reflexivity. }
    destruct (skipn (length w) r') as [|b k]; cbn in E3.
    + apply (HN x q Hx). rewrite <- E3. reflexivity.
    + injection E3 as _ E3. exact (HT _ _ Hx E3).
  - set (y := skipn (length r') w). assert (w = r' ++ y) as EW2.
    { rewrite <- (firstn_skipn (length r') w) at 1. f_equal.
      assert (firstn (length r') (w ++ a :: t) = r') as F by (rewrite E2, firstn_app, Nat.sub_diag, firstn_O, app_nil_r; apply firstn_all).
      rewrite firstn_app in F. replace (length r' - length w) with 0 in F by lia. rewrite firstn_O, app_nil_r in F. exact F. }
    assert (y <> []) as NY by (intro Y; rewrite Y, app_nil_r in EW2; subst w; lia).
    clearbody y. subst w. rewrite <- app_assoc in E2. apply app_inv_head in E2.
    destruct (white_shape x Hx) as (b & m & EX & Lb & Fm). destruct y as [|b' y]; [congruence|]. rewrite EX in E2. cbn in E2. injection E2 as -> E2.
    destruct (all_white_last _ Hw) as (r1 & d & E4 & Hd); [destruct r'; discriminate|].
    destruct (suffix_shape d (b :: y) r1 r' Hd ltac:(discriminate)) as (z & EZ); [symmetry; exact E4|exists b, y; auto|].
    destruct (white_shape d Hd) as (b2 & m2 & -> & Lb2 & _).
    destruct z as [|z0 z]; cbn in EZ; injection EZ as EZ1 EZ2.
    + subst b2 m2. subst m. assert (a :: t = []) as F by (apply (white_prefix (b :: y) x (a :: t) Hd Hx); rewrite EX; reflexivity). discriminate.
    + subst m. rewrite EZ2 in Fm. rewrite <- app_assoc in Fm. apply Forall_app in Fm as [_ Fm]. inversion Fm. congruence.
Qed.

Lemma go_step_white w c r : all_white w -> white c -> starts_with BACKSPACE (c ++ r) = false ->
  backspace_go 0 (rev w) (c ++ r) = backspace_go 0 (rev (w ++ c)) r.
Proof.
  intros Hw Hc HS. rewrite rev_app_distr.
  destruct (white_cases _ Hc) as [(p & -> & H)|[(p & q & -> & H)|(p & q & t & -> & H)]]; cbn [app rev backspace_go] in *; rewrite HS.
  - rewrite H. reflexivity.
  - destruct (ws1 p) eqn:E1; [exfalso; eauto using ws1_ws2|]. rewrite H. reflexivity.
  - destruct (ws1 p) eqn:E1; [exfalso; eauto using ws1_ws3|]. destruct (ws2 p q) eqn:E2; [exfalso; eauto using ws2_ws3|]. rewrite H. reflexivity.
Qed.
Lemma go_step_other w a r : starts_with BACKSPACE (a :: r) = false -> (forall c r', white c -> a :: r <> c ++ r') ->
  backspace_go 0 (rev w) (a :: r) = w ++ a :: backspace_go 0 [] r.
Proof.
  intros HS HN. cbn [backspace_go]. rewrite HS, rev_involutive.
  destruct (ws1 a) eqn:E1; [exfalso; apply ws1_white in E1; exact (HN _ r E1 eq_refl)|].
  destruct r as [|b r]; [reflexivity|]. destruct (ws2 a b) eqn:E2; [exfalso; apply ws2_white in E2; exact (HN _ r E2 eq_refl)|].
  destruct r as [|c r]; [reflexivity|]. destruct (ws3 a b c) eqn:E3; [exfalso; apply ws3_white in E3; exact (HN _ r E3 eq_refl)|]. reflexivity.
Qed.

Lemma go_mark w v : backspace_go 0 (rev w) (BACKSPACE ++ v) = backspace_go 0 [] v.
Proof. reflexivity. Qed.

Lemma no_start m s : ~ occurs m s -> starts_with m s = false.
Proof. intro H. apply starts_with_false. intros (t & ->). apply H. exists [], t. reflexivity. Qed.
Lemma occurs_tail m a s : ~ occurs m (a ++ s) -> ~ occurs m s.
Proof. intros H (u & v & ->). apply H. exists (a ++ u), v. rewrite <- app_assoc. reflexivity. Qed.

Lemma go_none n : forall s w, length s <= n -> all_white w -> ~ occurs BACKSPACE s -> backspace_go 0 (rev w) s = w ++ s.
Proof.
  induction n as [|n IH]; intros s w L Hw HN.
  - destruct s; [|cbn in L; lia]. cbn. rewrite rev_involutive, app_nil_r. reflexivity.
  - destruct (white_start_dec s) as [(c & r & Hc & ->)|H].
    + rewrite go_step_white; [|exact Hw|exact Hc|exact (no_start _ _ HN)].
      rewrite IH; [rewrite <- app_assoc; reflexivity| |apply all_white_app; [exact Hw|rewrite <- (app_nil_r c); apply all_white_cons; [exact Hc|apply all_white_nil]]|exact (occurs_tail _ _ _ HN)].
      rewrite app_length in L. pose proof (white_ne c Hc). destruct c; [congruence|cbn in L; lia].
    + destruct s as [|a r]; [cbn; rewrite rev_involutive, app_nil_r; reflexivity|].
      rewrite go_step_other; [|exact (no_start _ _ HN)|exact H]. f_equal. f_equal.
      apply (IH r []); [cbn in L; lia|apply all_white_nil|exact (occurs_tail _ [a] _ HN)].
Qed.

Lemma go_first n v : forall u w, length u <= n -> all_white w ->
  (forall i, i < length u -> ~ occurs_at BACKSPACE (u ++ BACKSPACE ++ v) i) ->
  backspace_go 0 (rev w) (u ++ BACKSPACE ++ v) = trim_end (w ++ u) ++ backspace_go 0 [] v.
Proof.
  assert (forall w : bytes, all_white w -> trim_end w = []) as TW by (intros w Hw; apply (trim_end_all [] w Hw)).
  assert (forall u, 0 < length u -> (forall i, i < length u -> ~ occurs_at BACKSPACE (u ++ BACKSPACE ++ v) i) -> starts_with BACKSPACE (u ++ BACKSPACE ++ v) = false) as NS.
  { intros u L H. apply starts_with_false. intros (t & E). apply (H 0 L). exists [], t. split; [exact E|reflexivity]. }
  assert (forall a u, (forall i, i < length (a ++ u) -> ~ occurs_at BACKSPACE ((a ++ u) ++ BACKSPACE ++ v) i) ->
           forall i, i < length u -> ~ occurs_at BACKSPACE (u ++ BACKSPACE ++ v) i) as TL.
  { intros a u H i L (x & y & E & EL). apply (H (length a + i)); [rewrite app_length; lia|]. exists (a ++ x), y.
    rewrite <- !app_assoc, E. split; [reflexivity|rewrite app_length; lia]. }
  induction n as [|n IH]; intros u w L Hw HN.
  - destruct u; [|cbn in L; lia]. cbn [app]. rewrite go_mark, app_nil_r, TW by exact Hw. reflexivity.
  - destruct u as [|a u]; [cbn [app]; rewrite go_mark, app_nil_r, TW by exact Hw; reflexivity|].
    destruct (white_start_dec (a :: u)) as [(c & r & Hc & E)|H].
    + rewrite E in *. rewrite <- (app_assoc c), go_step_white, IH; [rewrite <- app_assoc; reflexivity| | |exact (TL c r HN)|exact Hw|exact Hc|].
      * pose proof (f_equal (@length _) E). pose proof (white_ne c Hc). rewrite app_length in *. destruct c; [congruence|cbn in *; lia].
      * apply all_white_app; [exact Hw|]. rewrite <- (app_nil_r c). apply all_white_cons; [exact Hc|apply all_white_nil].
      * rewrite app_assoc. apply NS; [rewrite <- E; cbn; lia|exact HN].
    + rewrite trim_end_keep by assumption. cbn [app]. rewrite go_step_other.
      * rewrite <- app_assoc. cbn [app]. do 2 f_equal. apply (IH u []); [cbn in L; lia|apply all_white_nil|exact (TL [a] u HN)].
      * apply (NS (a :: u)); [cbn; lia|exact HN].
      * intros c r' Hc E. (* white c at a :: u ++ mark ..: inside a :: u, since the mark is not white *)
        destruct (Nat.le_gt_cases (length c) (length (a :: u))) as [LC|LC].
        -- apply (H c (skipn (length c) (a :: u)) Hc). rewrite <- (firstn_skipn (length c) (a :: u)) at 1. f_equal.
           assert (firstn (length c) ((a :: u) ++ BACKSPACE ++ v) = c) as F by (cbn [app]; rewrite E, firstn_app, Nat.sub_diag, firstn_O, app_nil_r; apply firstn_all).
           rewrite firstn_app in F. replace (length c - length (a :: u)) with 0 in F by lia. rewrite firstn_O, app_nil_r in F. exact F.
        -- assert (nth_error ((a :: u) ++ BACKSPACE ++ v) (length (a :: u)) = Some "&"%char) as F by (rewrite nth_error_app2, Nat.sub_diag by lia; reflexivity).
           cbn [app] in F. rewrite E, nth_error_app1 in F by exact LC. destruct (white_shape c Hc) as (b & m & -> & _ & Fm).
           cbn in F. apply nth_error_In in F. rewrite Forall_forall in Fm. specialize (Fm _ F). discriminate.
Qed.

Lemma first_split m : forall s, occurs m s -> exists u v, s = u ++ m ++ v /\ forall i, i < length u -> ~ occurs_at m (u ++ m ++ v) i.
Proof.
  induction s as [|a s IH]; intro H.
  - destruct H as (u & v & E). exists [], []. destruct u; [|discriminate]. cbn in E. destruct m; [|discriminate]. split; [reflexivity|cbn; lia].
  - destruct (starts_with m (a :: s)) eqn:ES.
    + apply starts_with_iff in ES as (t & E). exists [], t. split; [exact E|cbn; lia].
    + assert (~ exists t, a :: s = m ++ t) as NS by (apply starts_with_false; exact ES).
      destruct IH as (u & v & -> & HU).
      { destruct H as ([|b u] & v & E); [exfalso; apply NS; exists v; exact E|]. cbn in E. injection E as -> ->. exists u, v. reflexivity. }
      exists (a :: u), v. split; [reflexivity|]. intros [|i] L (x & y & E & EL).
      * destruct x; [|discriminate]. apply NS. exists y. exact E.
      * destruct x as [|x0 x]; [discriminate|]. cbn in E, EL. injection E as <- E. apply (HU i); [cbn in L; lia|]. exists x, y. split; [exact E|lia].
Qed.

Lemma go_uplined n : forall s, length s <= n -> uplined s (backspace_go 0 [] s).
Proof.
  induction n as [|n IH]; intros s L.
  - destruct s; [|cbn in L; lia]. apply up_none. intros ([|] & ? & E); discriminate.
  - destruct (contains BACKSPACE s) eqn:C.
    + apply contains_iff in C. destruct (first_split _ _ C) as (u & v & -> & HU).
      pose proof (go_first _ v u [] (le_n _) all_white_nil HU) as G. cbn [rev app] in G. rewrite G.
      destruct (trim_end_white u) as (q & E & Hq). rewrite E at 1. rewrite <- app_assoc. apply up_first.
      * rewrite <- E. intros i Li. specialize (HU i Li). rewrite E in HU at 1. rewrite <- app_assoc in HU. exact HU.
      * exact Hq.
      * intros c r Hc. apply trim_end_not_white. exact Hc.
      * apply IH. rewrite !app_length in L. cbn in L. lia.
    + apply contains_false in C. pose proof (go_none _ s [] (le_n _) all_white_nil C) as G. cbn [rev app] in G. rewrite G. apply up_none. exact C.
Qed.

(** The page is determined by the content. *)
Lemma replacements_page c : page c (replacements c).
Proof.
  unfold replacements. exists (if contains BACKSPACE c then backspace_go 0 [] c else c). split.
  - destruct (contains BACKSPACE c) eqn:C; [exact (go_uplined _ c (le_n _))|]. apply up_none. apply contains_false. exact C.
  - set (m := if contains BACKSPACE c then _ else _). destruct (contains UNPRINTABLE m) eqn:C.
    + apply (replace_replaced UNPRINTABLE [] m). discriminate.
    + apply (rp_none UNPRINTABLE). apply contains_false. exact C.
Qed.

Lemma uplined_det c p : uplined c p -> p = backspace_go 0 [] c.
Proof.
  induction 1 as [s HN|u w v v' HF Hw HU _ IH].
  - symmetry. apply (go_none _ s [] (le_n _) all_white_nil HN).
  - rewrite IH. pose proof (go_first _ v (u ++ w) [] (le_n _) all_white_nil) as G. cbn [rev app] in G. rewrite <- app_assoc in G.
    change upline_mark with BACKSPACE in *. rewrite G.
    + rewrite trim_end_all by exact Hw. f_equal. symmetry. unfold trim_end. rewrite trim_rev_id; [apply rev_involutive|].
      intros x r Hx E. apply (HU x (rev r) Hx). rewrite <- (rev_involutive u), E, rev_app_distr, rev_involutive. reflexivity.
    + exact HF.
Qed.

(** ** C90 *)

(** What a successful render returns is the page made from its content, once the moved contents are in place. *)
Theorem C90_page : forall env fuel t o t',
  occurs (B "{:") t.(t_raw) -> render env fuel t = TOk o t' ->
  other_code (get_status_code t') -> ~ In (get_status_code t') redirect_codes -> redirect_js (t_shared t') = [] ->
  exists raw s i o1 s1 i1 content s2 moved_content,
    init_render env t = IOk raw s i /\ top_parse env s i raw [] = BOk o1 s1 i1 /\
    cache_rounds env fuel s1 i o1 = ROk content s2 /\
    set_moveto s2 content = Some moved_content /\ page moved_content o.
Proof.
  intros env fuel t o t' HO HR H1 H2 H3.
  destruct (C40_other_status env fuel t o t' HO HR H1 H2) as (raw & s & i & o1 & s1 & i1 & content & s2 & mc & E1 & E2 & E3 & E4 & _ & E5).
  exists raw, s, i, o1, s1, i1, content, s2, mc. repeat (split; [assumption|]). rewrite (E5 H3). apply replacements_page.
Qed.
Print Assumptions C90_page.

(** There is one page for a content. *)
Theorem C90_one_page : forall c p1 p2, page c p1 -> page c p2 -> p1 = p2.
Proof.
  intros c p1 p2 (m1 & U1 & R1) (m2 & U2 & R2). rewrite (uplined_det _ _ U1) in R1. rewrite (uplined_det _ _ U2) in R2.
  exact (replaced_det unprintable_mark [] _ p1 ltac:(discriminate) R1 p2 R2).
Qed.
Print Assumptions C90_one_page.

(** Content without marks is the page: nothing else is taken away, in particular no white space. *)
Theorem C90_nothing_else : forall c, ~ occurs upline_mark c -> ~ occurs unprintable_mark c -> forall p, page c p -> p = c.
Proof.
  intros c H1 H2 p HP. apply (C90_one_page c p c HP). exists c. split; [apply up_none; exact H1|apply rp_none; exact H2].
Qed.
Print Assumptions C90_nothing_else.

(** A bif with ^ after any white space continues the text before it. *)
Theorem C90_upline : forall a w b p, ~ occurs upline_mark (a ++ w) -> ~ occurs upline_mark b ->
  all_white w -> (forall c r, white c -> a <> r ++ c) ->
  page (a ++ w ++ upline_mark ++ b) p -> replaced unprintable_mark [] (a ++ b) p.
Proof.
  intros a w b p HA HB Hw HU (m & U & R). rewrite (uplined_det _ _ U) in R.
  assert (uplined (a ++ w ++ upline_mark ++ b) (a ++ b)) as U2.
  { apply up_first; [|exact Hw|exact HU|apply up_none; exact HB].
    intros i L (x & y & E & EL). rewrite app_assoc in E. set (z := a ++ w) in *. clearbody z.
    (* an earlier mark would overlap the mark after [z], which no mark does *)
    assert (length x + 6 <= length z \/ length z < length x + 6) as [L2|L2] by lia.
    - apply HA. assert (firstn (length x + 6) (z ++ upline_mark ++ b) = x ++ upline_mark) as F.
      { rewrite E, app_assoc. replace (length x + 6) with (length (x ++ upline_mark)) by (rewrite app_length; reflexivity).
        rewrite firstn_app, Nat.sub_diag, firstn_O, app_nil_r. apply firstn_all. }
      rewrite firstn_app in F. replace (length x + 6 - length z) with 0 in F by lia. rewrite firstn_O, app_nil_r in F.
      exists x, (skipn (length x + 6) z). rewrite app_assoc, <- F. symmetry. apply firstn_skipn.
    - assert (nth_error (z ++ upline_mark ++ b) (length z) = Some "&"%char) as F by (rewrite nth_error_app2, Nat.sub_diag by lia; reflexivity).
      rewrite E, nth_error_app2 in F by lia. remember (length z - length x) as k eqn:K.
      do 6 (destruct k as [|k]; [cbn in F; (lia || discriminate)|]). lia. }
  rewrite (uplined_det _ _ U2) in *. exact R.
Qed.
Print Assumptions C90_upline.

Example C90_example :
  output_of "<p>{:;name:}
     {:^;name:} </p>" = B "<p>WorldWorld </p>" /\
  output_of "a {:;:} b" = B "a  b" /\
  (* the mark is also taken out of text that was not written by a bif *)
  output_of "a &#9224; {:;name:}" = B "a; World" /\
  ~ occurs upline_mark (B "<p>World" ++ B " ") /\ (forall c r, white c -> B "<p>World" <> r ++ c).
Proof.
  split; [vm_compute; reflexivity|]. split; [vm_compute; reflexivity|]. split; [vm_compute; reflexivity|]. split.
  - apply contains_false. reflexivity.
  - intros c r Hc E. assert (trim_end (B "<p>World") = trim_end r) as F by (rewrite E; apply trim_end_all; rewrite <- (app_nil_r c); apply all_white_cons; [exact Hc|apply all_white_nil]).
    apply (trim_end_not_white (B "<p>World") c r Hc). exact E.
Qed.
