(** * Comment removal, exactly: the scan of [remove_comments] against [uncommented] (C56) *)
From Verif Require Import Bytes Json Utils ConstantsGen Spec BytesFacts BlockProofs TextProofs.

Lemma sb_step d x n : starts_before d x (S n) = starts_before d x n + if starts_with d (skipn n x) then 1 else 0.
Proof. reflexivity. Qed.
Lemma occurs_at_skip d x n : n <= length x -> (occurs_at d x n <-> starts_with d (skipn n x) = true).
Proof.
  intro HN. rewrite starts_with_iff. split.
  - intros (u & v & -> & <-). rewrite skipn_app, skipn_all, Nat.sub_diag. exists v. reflexivity.
  - intros [r E]. exists (firstn n x), r. split; [rewrite <- E, firstn_skipn; reflexivity|]. rewrite firstn_length. lia.
Qed.
Lemma sb_le d x n m : n <= m -> starts_before d x n <= starts_before d x m.
Proof. induction 1; [lia|]. rewrite sb_step. lia. Qed.
Lemma sb_past d x n : d <> [] -> length x <= n -> starts_before d x (S n) = starts_before d x n.
Proof. intros HD H. rewrite sb_step, skipn_all2 by exact H. destruct d; [congruence|]. cbn. lia. Qed.
Lemma skipn_cons_app {A} (u : list A) a r : skipn (length u) (u ++ a :: r) = a :: r.
Proof. rewrite skipn_app, skipn_all, Nat.sub_diag. reflexivity. Qed.

Lemma starts3 (a b c : ascii) p c0 s : starts_with [a; b; c] (p :: c0 :: s) = aeqb a p && aeqb b c0 && (match s with n :: _ => aeqb c n | [] => false end).
Proof. cbn [starts_with]. destruct s; cbn [starts_with]; rewrite ?andb_true_r, ?andb_assoc; reflexivity. Qed.
Lemma aeqb_sym (a b : ascii) : aeqb a b = aeqb b a.
Proof. destruct (aeqb a b) eqn:E; destruct (aeqb b a) eqn:F; try reflexivity; [apply aeqb_eq in E; subst; rewrite aeqb_refl in F; discriminate|apply aeqb_eq in F; subst; rewrite aeqb_refl in E; discriminate]. Qed.

Lemma nth_error_skipn' {A} n (l : list A) k : nth_error (skipn n l) k = nth_error l (n + k).
Proof. revert l. induction n as [|n IH]; intro l; [reflexivity|]. destruct l; [destruct k; reflexivity|]. apply IH. Qed.
Lemma firstn_snoc {A} (l : list A) n a : nth_error l n = Some a -> firstn (S n) l = firstn n l ++ [a].
Proof. revert l. induction n as [|n IH]; intros [|b l] H; try discriminate H; cbn in *; [congruence|]. f_equal. apply IH. exact H. Qed.
Lemma aeqb_spec' (a b : ascii) : a = b \/ a <> b.
Proof. destruct (ascii_dec a b); tauto. Qed.

Ltac fin EC := first [lia | (let H := fresh in intro H; rewrite EC in H; discriminate) | contradiction | reflexivity | (split; [reflexivity|discriminate])].
(** the state of the scan at the byte [prev] (position [length u]) *)
Lemma inner_spec s : forall x u prev nested i cur,
  x = u ++ prev :: s -> length u = i + 2 ->
  nested + 1 + starts_before (B "*:}") x (length u) = starts_before (B "{:*") x (length u) ->
  (forall q, q < length u -> ~ balanced_at x q) ->
  cur <= i -> (s = [] -> cur < i \/ cur = 0) ->
  (firstn cur (skipn 3 x) = [] \/ ends_byte ":" (firstn cur (skipn 3 x))) ->
  (forall k, cur <= k < i -> nth_error (skipn 3 x) k <> Some ":"%char) ->
  match rc_inner prev s nested i cur with
  | RcClosed e => comment_end x e /\ e + 3 <= length x
  | RcUnclosed e => unclosed_comment x /\ e <= length (skipn 3 x) /\ (e < length (skipn 3 x) \/ e = 0) /\
      (firstn e (skipn 3 x) = [] \/ ends_byte ":" (firstn e (skipn 3 x))) /\ ~ In ":"%char (skipn e (skipn 3 x))
  | RcPanic => unclosed_comment x /\ ends_byte ":" x
  end.
Proof.
  induction s as [|c s IH]; intros x u prev nested i cur HX HL HB HN HC HE HY HZ.
  - cbn [rc_inner]. assert (length x = i + 3) as LX by (rewrite HX, app_length; cbn; lia).
    assert (length (skipn 3 x) = i) as LB by (rewrite skipn_length; lia).
    split; [|split; [lia|split; [destruct (HE eq_refl); lia|split; [exact HY|]]]].
    + intros q HQ. destruct (Nat.lt_ge_cases q (length u)) as [H|H]; [exact (HN q H HQ)|].
      destruct HQ as [(a & b & E & L) _]. apply (f_equal (@length ascii)) in E. rewrite !app_length in E. cbn in E. lia.
    + intro HI. apply In_nth_error in HI as [k HK]. rewrite nth_error_skipn' in HK.
      apply (HZ (cur + k)); [|exact HK]. split; [lia|]. assert (nth_error (skipn 3 x) (cur + k) <> None) as HS by congruence. apply nth_error_Some in HS. lia.
  - cbn [rc_inner].
    assert (skipn (length u) x = prev :: c :: s) as HK by (rewrite HX; apply skipn_cons_app).
    assert (starts_with (B "{:*") (skipn (length u) x) = aeqb prev c_lbrace && aeqb c c_colon && match s with n :: _ => aeqb n c_star | [] => false end) as EO.
    { rewrite HK. change (B "{:*") with [c_lbrace; c_colon; c_star]. rewrite starts3. rewrite (aeqb_sym c_lbrace), (aeqb_sym c_colon). destruct s; [reflexivity|rewrite (aeqb_sym c_star); reflexivity]. }
    assert (starts_with (B "*:}") (skipn (length u) x) = aeqb prev c_star && aeqb c c_colon && match s with n :: _ => aeqb n c_rbrace | [] => false end) as EC.
    { rewrite HK. change (B "*:}") with [c_star; c_colon; c_rbrace]. rewrite starts3. rewrite (aeqb_sym c_star), (aeqb_sym c_colon). destruct s; [reflexivity|rewrite (aeqb_sym c_rbrace); reflexivity]. }
    assert (length u <= length x) as HLx by (rewrite HX, app_length; lia).
    pose proof (sb_step (B "{:*") x (length u)) as SO. pose proof (sb_step (B "*:}") x (length u)) as SC. rewrite EO in SO. rewrite EC in SC.
    assert (x = (u ++ [prev]) ++ c :: s) as HX' by (rewrite <- app_assoc; exact HX).
    assert (length (u ++ [prev]) = S (length u)) as HL' by (rewrite app_length; cbn; lia).
    assert (nth_error (skipn 3 x) i = Some c) as HI.
    { rewrite nth_error_skipn'. rewrite HX'. rewrite nth_error_app2 by lia. rewrite HL'. replace (3 + i - S (length u)) with 0 by lia. reflexivity. }
    assert (forall nested' cur', nested' + 1 + starts_before (B "*:}") x (S (length u)) = starts_before (B "{:*") x (S (length u)) ->
      (starts_with (B "*:}") (skipn (length u) x) = true -> starts_before (B "*:}") x (S (length u)) <> starts_before (B "{:*") x (S (length u))) ->
      (c = ":"%char -> cur' = S i /\ s <> []) -> (c <> ":"%char -> cur' = cur) ->
      match rc_inner c s nested' (S i) cur' with
      | RcClosed e => comment_end x e /\ e + 3 <= length x
      | RcUnclosed e => unclosed_comment x /\ e <= length (skipn 3 x) /\ (e < length (skipn 3 x) \/ e = 0) /\
          (firstn e (skipn 3 x) = [] \/ ends_byte ":" (firstn e (skipn 3 x))) /\ ~ In ":"%char (skipn e (skipn 3 x))
      | RcPanic => unclosed_comment x /\ ends_byte ":" x
      end) as STEP.
    { intros nested' cur' H1 H2 H3 H4. apply (IH x (u ++ [prev])); try rewrite HL'; try assumption; try lia.
      - intros q Hq HQ. destruct (Nat.eq_dec q (length u)) as [->|NE]; [|apply (HN q); [lia|exact HQ]].
        destruct HQ as [HO HQ]. apply (occurs_at_skip _ _ _ HLx) in HO. exact (H2 HO HQ).
      - destruct (aeqb_spec' c ":"%char) as [Hc|Hc]; [destruct (H3 Hc); lia|rewrite (H4 Hc); lia].
      - intro Hs. destruct (aeqb_spec' c ":"%char) as [Hc|Hc]; [destruct (H3 Hc); contradiction|rewrite (H4 Hc); left; lia].
      - destruct (aeqb_spec' c ":"%char) as [Hc|Hc]; [destruct (H3 Hc) as [-> _]; right|rewrite (H4 Hc); exact HY].
        exists (firstn i (skipn 3 x)). rewrite (firstn_snoc _ _ _ HI), Hc. reflexivity.
      - intros k Hk HQ. destruct (aeqb_spec' c ":"%char) as [Hc|Hc]; [destruct (H3 Hc) as [-> _]; lia|rewrite (H4 Hc) in Hk].
        destruct (Nat.eq_dec k i) as [->|NE]; [congruence|]. apply (HZ k); [lia|exact HQ]. }
    destruct (aeqb c c_colon) eqn:Ec.
    2:{ assert (c <> ":"%char) as Hc by (intros ->; discriminate Ec). rewrite !andb_false_r in *. cbn [andb] in *.
        apply STEP; fin EC. }
    apply aeqb_eq in Ec. change c_colon with ":"%char in Ec. destruct s as [|n s].
    { split; [|rewrite HX, Ec; exists (u ++ [prev]); rewrite <- app_assoc; reflexivity].
      intros q HQ. destruct (Nat.lt_ge_cases q (length u)) as [H|H]; [exact (HN q H HQ)|].
      destruct HQ as [(a & b & E & L) _]. rewrite HX in E. apply (f_equal (@length ascii)) in E. rewrite !app_length in E. cbn in E. lia. }
    rewrite !andb_true_r in *.
    destruct (aeqb prev c_lbrace && aeqb n c_star) eqn:E1.
    + assert (aeqb prev c_star = false) as E2.
      { apply andb_prop in E1 as [E1 _]. apply aeqb_eq in E1. rewrite E1. reflexivity. }
      rewrite E2 in *. cbn [andb] in *. apply STEP; fin EC.
    + rewrite (andb_comm (aeqb n c_rbrace)). destruct (aeqb prev c_star && aeqb n c_rbrace) eqn:E2.
      * destruct nested as [|k].
        { split; [|rewrite HX, app_length; cbn; lia]. replace (i + 2) with (length u) by lia. split; [|exact HN]. split; [|lia].
          apply (occurs_at_skip _ _ _ HLx). exact EC. }
        apply STEP; fin EC.
      * apply STEP; fin EC.
Qed.

Lemma occurs_at_iff d x n : n < length x -> (occurs_at d x n <-> starts_with d (skipn n x) = true).
Proof. intro H. apply occurs_at_skip. lia. Qed.
Lemma sb0 d x n : (forall k, k < n -> starts_with d (skipn k x) = false) -> starts_before d x n = 0.
Proof. induction n as [|n IH]; intro H; [reflexivity|]. rewrite sb_step, IH by (intros; apply H; lia). rewrite H by lia. reflexivity. Qed.

Lemma inner_open y : match rc_inner c_star y 0 0 0 with
  | RcClosed e => comment_end (B "{:*" ++ y) e /\ e <= length y
  | RcUnclosed e => unclosed_comment (B "{:*" ++ y) /\ e <= length y /\ (e < length y \/ e = 0) /\
      (firstn e y = [] \/ ends_byte ":" (firstn e y)) /\ ~ In ":"%char (skipn e y)
  | RcPanic => unclosed_comment (B "{:*" ++ y) /\ ends_byte ":" (B "{:*" ++ y)
  end.
Proof.
  pose proof (inner_spec y (B "{:*" ++ y) (B "{:") c_star 0 0 0 eq_refl eq_refl) as H.
  change (skipn 3 (B "{:*" ++ y)) with y in H.
  assert (length (B "{:*" ++ y) = 3 + length y) as L by reflexivity. rewrite L in H.
  assert (match rc_inner c_star y 0 0 0 with
  | RcClosed e => comment_end (B "{:*" ++ y) e /\ e + 3 <= 3 + length y
  | RcUnclosed e => unclosed_comment (B "{:*" ++ y) /\ e <= length y /\ (e < length y \/ e = 0) /\
      (firstn e y = [] \/ ends_byte ":" (firstn e y)) /\ ~ In ":"%char (skipn e y)
  | RcPanic => unclosed_comment (B "{:*" ++ y) /\ ends_byte ":" (B "{:*" ++ y)
  end) as G.
  { apply H.
    - reflexivity.
    - intros q Hq [HO _]. change (length (B "{:")) with 2 in Hq. apply occurs_at_skip in HO; [|rewrite L; lia].
      destruct q as [|[|q]]; [discriminate HO|discriminate HO|lia].
    - lia.
    - tauto.
    - left. reflexivity.
    - intros k Hk. lia. }
  destruct (rc_inner c_star y 0 0 0); try exact G. destruct G as [G1 G2]. split; [exact G1|lia].
Qed.

Lemma uncommented_ends y e : (e < length y \/ e = 0) -> e <= length y -> ~ In ":"%char (skipn e y) -> ~ ends_byte ":" (B "{:*" ++ y).
Proof.
  intros H HL HN [w E]. destruct H as [H|H].
  - apply HN. assert (y = firstn e y ++ skipn e y) as HY by (symmetry; apply firstn_skipn).
    assert (skipn e y <> []) as NE by (intro Z; apply (f_equal (@length ascii)) in Z; rewrite skipn_length in Z; cbn in Z; lia).
    destruct (exists_last NE) as (z & a & EZ). rewrite EZ in *. rewrite HY in E. rewrite !app_assoc in E. apply app_inj_tail in E as [_ ->].
    apply in_or_app. right. left. reflexivity.
  - subst e. cbn [skipn] in HN. destruct y as [|a y]; [change (B "{:*" ++ []) with (B "{:" ++ ["*"%char]) in E; apply app_inj_tail in E as [_ E]; discriminate E|].
    destruct (exists_last (l:=a :: y)) as (z & b & EZ); [discriminate|]. rewrite EZ in *. rewrite app_assoc in E. apply app_inj_tail in E as [_ ->].
    apply HN. apply in_or_app. right. left. reflexivity.
Qed.

Lemma comment_end_closed x q : comment_end x q -> q + 3 <= length x.
Proof. intros [[(u & v & E & L) _] _]. rewrite E, !app_length. cbn. lia. Qed.

Lemma outer_spec n : forall s pre lit, length s <= n -> (forall k, k < length lit -> ~ occurs_at (B "{:*") (lit ++ s) k) ->
  match rc_outer 0 (length pre + length lit) (length pre) s with
  | Some (bl, c') => uncommented (lit ++ s) (Some (rc_build (pre ++ lit ++ s) (length pre) bl ++ skipn c' (pre ++ lit ++ s)))
  | None => uncommented (lit ++ s) None
  end.
Proof.
  induction n as [|n IH]; intros s pre lit HL HN.
  all: destruct s as [|c s]; [|try (cbn in HL; lia)].
  1,2: cbn [rc_outer rc_build app]; rewrite app_nil_r in *; rewrite skipn_pre; apply un_text; intros (u & v & ->);
       apply (HN (length u)); [rewrite !app_length; cbn; lia|exists u, v; split; reflexivity].
  rewrite rco_step. change BIF_COMMENT_OPEN with (B "{:*"). destruct (starts_with (B "{:*") (c :: s)) eqn:ES.
  - apply starts_with_iff in ES as [y EY]. rewrite EY in *. change (skipn 3 (B "{:*" ++ y)) with y.
    assert (s = B ":*" ++ y) as Es by (cbn in EY; injection EY as -> ->; reflexivity).
    pose proof (inner_open y) as HI. destruct (rc_inner c_star y 0 0 0) as [e|e|].
    + destruct HI as [HC He].
      assert (length s = 2 + length y) as Ls by (rewrite Es; reflexivity).
      rewrite rco_skip by lia. replace (skipn (2 + e) s) with (skipn e y) by (rewrite Es; reflexivity).
      set (x := B "{:*" ++ firstn e y). set (v := skipn e y).
      assert (B "{:*" ++ y = x ++ v) as EX by (unfold x, v; rewrite <- app_assoc, firstn_skipn; reflexivity).
      assert (length x = e + 3) as Lx by (unfold x; rewrite app_length, firstn_length; cbn; lia).
      specialize (IH v (pre ++ lit ++ x) []).
      assert (length v <= n) as Lv by (unfold v; rewrite skipn_length; cbn in HL; lia).
      specialize (IH Lv ltac:(intros k Hk; cbn in Hk; lia)).
      rewrite !app_length, Nat.add_0_r in IH. rewrite Lx in IH.
      replace (S (length pre + length lit) + (2 + e)) with (length pre + (length lit + (e + 3))) by lia.
      replace (length pre + length lit + 3 + e) with (length pre + (length lit + (e + 3))) by lia.
      rewrite EX in *. cbn [app] in IH.
      assert ((pre ++ lit ++ x) ++ v = pre ++ lit ++ x ++ v) as EA by (rewrite <- !app_assoc; reflexivity). rewrite EA in IH.
      destruct (rc_outer 0 (length pre + (length lit + (e + 3))) (length pre + (length lit + (e + 3))) v) as [[bl c']|].
      * cbn [rc_build]. assert (comment_end (x ++ v) (length x - 3)) as HC' by (rewrite Lx; replace (e + 3 - 3) with e by lia; exact HC).
        pose proof (un_comment lit x v _ HN (ex_intro _ (firstn e y) eq_refl) HC' IH) as HU. cbn [option_map] in HU.
        rewrite <- app_assoc. rewrite (slice_app_mid pre lit (x ++ v)). exact HU.
      * assert (comment_end (x ++ v) (length x - 3)) as HC' by (rewrite Lx; replace (e + 3 - 3) with e by lia; exact HC).
        pose proof (un_comment lit x v _ HN (ex_intro _ (firstn e y) eq_refl) HC' IH) as HU. exact HU.
    + destruct HI as (HU & H1 & H2 & H3 & H4). cbn [rc_build app].
      replace (skipn (length pre + length lit + 3 + e) (pre ++ lit ++ B "{:*" ++ y)) with (skipn e y).
      * apply (un_open lit (B "{:*" ++ y) (firstn e y) (skipn e y)); try assumption; [rewrite firstn_skipn; reflexivity|]. apply uncommented_ends with e; assumption.
      * set (w := pre ++ lit ++ B "{:*"). replace (pre ++ lit ++ B "{:*" ++ y) with (w ++ y) by (unfold w; rewrite <- !app_assoc; reflexivity).
        replace (length pre + length lit + 3 + e) with (length w + e) by (unfold w; rewrite !app_length; change (length (B "{:*")) with 3; lia).
        rewrite skipn_app, (skipn_all2 w) by lia. cbn [app]. f_equal. lia.
    + destruct HI as [HU HE]. apply un_fails; try assumption. eexists; reflexivity.
  - specialize (IH s pre (lit ++ [c])). rewrite app_length in IH. cbn [length] in IH. rewrite <- app_assoc in IH. cbn [app] in IH.
    replace (S (length pre + length lit)) with (length pre + (length lit + 1)) by lia.
    apply IH; [cbn in HL; lia|]. intros k Hk. destruct (Nat.eq_dec k (length lit)) as [->|NE]; [|apply HN; lia].
    intro HO. apply occurs_at_skip in HO; [|rewrite app_length; lia]. rewrite skipn_pre in HO. congruence.
Qed.

Lemma uncommented_exact s : uncommented s (remove_comments s).
Proof.
  unfold remove_comments. pose proof (outer_spec (length s) s [] [] (le_n _) ltac:(intros k Hk; cbn in Hk; lia)) as H.
  cbn [length plus app] in H. destruct (rc_outer 0 0 0 s) as [[bl c']|]; exact H.
Qed.

Lemma balanced_le x q q' : comment_end x q -> comment_end x q' -> q = q'.
Proof.
  intros [A HA] [C HC]. destruct (Nat.lt_trichotomy q q') as [H|[H|H]]; [exfalso; exact (HC q H A)|exact H|exfalso; exact (HA q' H C)].
Qed.
Lemma first_open_det (u x u' x' : bytes) : u ++ x = u' ++ x' -> starts_with (B "{:*") x = true -> starts_with (B "{:*") x' = true ->
  (forall n, n < length u -> ~ occurs_at (B "{:*") (u ++ x) n) -> (forall n, n < length u' -> ~ occurs_at (B "{:*") (u' ++ x') n) -> u = u' /\ x = x'.
Proof.
  intros E H H' N N'. assert (length u = length u') as L.
  { destruct (Nat.lt_trichotomy (length u) (length u')) as [K|[K|K]]; [|exact K|]; exfalso.
    - apply (N' _ K). rewrite <- E. apply occurs_at_skip; [rewrite app_length; lia|]. rewrite skipn_pre. exact H.
    - apply (N _ K). rewrite E. apply occurs_at_skip; [rewrite app_length; lia|]. rewrite skipn_pre. exact H'. }
  apply app_eq_len; assumption.
Qed.
Lemma last_colon_det (y z y' z' : bytes) : y ++ z = y' ++ z' -> (y = [] \/ ends_byte ":" y) -> (y' = [] \/ ends_byte ":" y') -> ~ In ":"%char z -> ~ In ":"%char z' -> z = z'.
Proof.
  intros E H H' N N'.
  assert (forall a b c d : bytes, a ++ b = c ++ d -> length a < length c -> (c = [] \/ ends_byte ":" c) -> ~ In ":"%char b -> False) as K.
  { intros a b c d E1 L [->|[w ->]] NI; [cbn in L; lia|]. apply NI.
    apply (f_equal (fun l => nth_error l (length w))) in E1. rewrite <- app_assoc in E1.
    rewrite (nth_error_app2 w) in E1 by lia. rewrite Nat.sub_diag in E1. cbn in E1. rewrite app_length in L. cbn in L.
    rewrite nth_error_app2 in E1 by lia. eapply nth_error_In. exact E1. }
  destruct (Nat.lt_trichotomy (length y) (length y')) as [L|[L|L]].
  - exfalso. exact (K _ _ _ _ E L H' N).
  - apply app_eq_len in E; [tauto|exact L].
  - exfalso. exact (K _ _ _ _ (eq_sym E) L H N').
Qed.
Lemma uncommented_det s r : uncommented s r -> forall r', uncommented s r' -> r = r'.
Proof.
  assert (forall u x, (exists y, x = B "{:*" ++ y) -> occurs (B "{:*") (u ++ x)) as OC by (intros u x [y ->]; exists u, y; reflexivity).
  assert (forall x : bytes, (exists y, x = B "{:*" ++ y) -> starts_with (B "{:*") x = true) as SW by (intros x [y ->]; apply starts_with_iff; exists y; reflexivity).
  assert (forall x v : bytes, (exists y, x = B "{:*" ++ y) -> exists y, x ++ v = B "{:*" ++ y) as AP by (intros x v [y ->]; exists (y ++ v); rewrite <- app_assoc; reflexivity).
  assert (forall x y z : bytes, x = B "{:*" ++ y ++ z -> exists y, x = B "{:*" ++ y) as OP by (intros x y z ->; eexists; reflexivity).
  induction 1 as [s HS|u x v r N X C U IH|u x y z N X C D Y Z|u x N X C D]; intros r' H'.
  - inversion H'; subst; try reflexivity; exfalso; apply HS; apply OC; eauto.
  - inversion H' as [s HS ES|u' x' v' r2 N' X' C' U' ES|u' x' y' z' N' X' C' D' Y' Z' ES|u' x' N' X' C' D' ES].
    + exfalso. apply HS. apply OC. eauto.
    + apply first_open_det in ES as [-> EX]; eauto. rewrite EX in C'. pose proof (balanced_le _ _ _ C C') as EL.
      pose proof (comment_end_closed _ _ C) as L1. pose proof (comment_end_closed _ _ C') as L2.
      assert (3 <= length x) as L3 by (destruct X as [? ->]; cbn; lia). assert (3 <= length x') as L4 by (destruct X' as [? ->]; cbn; lia).
      apply app_eq_len in EX as [-> ->]; [|lia]. f_equal. apply IH. exact U'.
    + apply first_open_det in ES as [-> EX]; eauto. rewrite <- EX in C. destruct C as [C _]. destruct (C' _ C).
    + apply first_open_det in ES as [-> EX]; eauto. rewrite <- EX in C. destruct C as [C _]. destruct (C' _ C).
  - inversion H' as [s HS ES|u' x' v' r2 N' X' C' U' ES|u' x' y' z' N' X' C' D' Y' Z' ES|u' x' N' X' C' D' ES].
    + exfalso. apply HS. apply OC. eauto.
    + apply first_open_det in ES as [-> EX]; eauto. rewrite EX in C'. destruct C' as [C' _]. destruct (C _ C').
    + apply first_open_det in ES as [-> EX]; eauto. subst x x'. apply app_inv_head in EX. f_equal. eapply last_colon_det; [symmetry; exact EX|assumption..].
    + apply first_open_det in ES as [-> EX]; eauto. subst x'. contradiction.
  - inversion H' as [s HS ES|u' x' v' r2 N' X' C' U' ES|u' x' y' z' N' X' C' D' Y' Z' ES|u' x' N' X' C' D' ES].
    + exfalso. apply HS. apply OC. eauto.
    + apply first_open_det in ES as [-> EX]; eauto. rewrite EX in C'. destruct C' as [C' _]. destruct (C _ C').
    + apply first_open_det in ES as [-> EX]; eauto. rewrite EX in D'. contradiction.
    + reflexivity.
Qed.
Lemma sb_shift d x k m : starts_before d x (k + m) = starts_before d x k + starts_before d (skipn k x) m.
Proof.
  induction m as [|m IH]; [rewrite !Nat.add_0_r; reflexivity|]. rewrite Nat.add_succ_r, !sb_step, IH.
  replace (skipn m (skipn k x)) with (skipn (k + m) x); [lia|]. clear IH. revert x. induction k as [|k IH]; intro x; [reflexivity|]. destruct x; [destruct m; reflexivity|]. apply IH.
Qed.
Lemma open_or_close x : starts_with (B "{:*") x = true -> starts_with (B "*:}") x = false.
Proof. intro H. apply starts_with_iff in H as [y ->]. reflexivity. Qed.
Lemma open_depth x n : starts_with (B "{:*") x = true -> (forall p, p < n -> ~ balanced_at x p) ->
  starts_before (B "*:}") x (S n) <= starts_before (B "{:*") x (S n) /\
  (~ balanced_at x n -> starts_before (B "*:}") x (S n) < starts_before (B "{:*") x (S n)).
Proof.
  intros HX. induction n as [|n IH]; intro HN.
  - rewrite !sb_step. cbn [starts_before skipn]. rewrite HX, (open_or_close _ HX). cbn. lia.
  - destruct IH as [_ IH]; [intros p Hp; apply HN; lia|]. specialize (IH (HN n (Nat.lt_succ_diag_r n))).
    rewrite (sb_step _ x (S n)), (sb_step (B "{:*") x (S n)).
    destruct (starts_with (B "*:}") (skipn (S n) x)) eqn:EC.
    + destruct (starts_with (B "{:*") (skipn (S n) x)) eqn:EO; [apply open_or_close in EO; congruence|].
      split; [lia|]. intro NB.
      destruct (Nat.le_gt_cases (S n) (length x)) as [L|L]; [|rewrite skipn_all2 in EC by lia; discriminate EC].
      assert (occurs_at (B "*:}") x (S n)) as HO by (apply occurs_at_skip; assumption).
      destruct (Nat.eq_dec (starts_before (B "*:}") x (S n) + 1) (starts_before (B "{:*") x (S n))) as [E|NE]; [|lia].
      exfalso. apply NB. split; [exact HO|]. rewrite (sb_step _ x (S n)), (sb_step (B "{:*") x (S n)), EC, EO. lia.
    + split; [lia|]. intros _. lia.
Qed.
Lemma inner_closed x q k : starts_with (B "{:*") x = true -> comment_end x q -> 0 < k -> k < q + 3 -> starts_with (B "{:*") (skipn k x) = true -> ~ unclosed_comment (skipn k x).
Proof.
  intros HX [HB HN] K0 K HK HU. pose proof HB as [HO HE].
  destruct (Nat.le_gt_cases k q) as [KQ|KQ].
  - destruct k as [|k]; [lia|].
    destruct (open_depth x k HX) as [_ D]; [intros p Hp; apply HN; lia|]. specialize (D (HN k ltac:(lia))).
    destruct (open_depth (skipn (S k) x) (q - S k) HK (fun p _ => HU p)) as [_ D2]. specialize (D2 (HU _)).
    pose proof (sb_shift (B "*:}") x (S k) (S (q - S k))) as S1. pose proof (sb_shift (B "{:*") x (S k) (S (q - S k))) as S2.
    replace (S k + S (q - S k)) with (S q) in * by lia. lia.
  - apply starts_with_iff in HK as [y EY]. destruct HO as (a & b & E & L).
    rewrite E in EY. rewrite skipn_app in EY. rewrite skipn_all2 in EY by lia. rewrite L in EY. cbn [app] in EY.
    assert (k - q = 1 \/ k - q = 2) as [Z|Z] by lia; rewrite Z in EY; discriminate EY.
Qed.
Lemma fails_cut s r : uncommented s r -> r = None -> cut_short s.
Proof.
  induction 1 as [s HS|u x v r N X C U IH|u x y z N X C D Y Z|u x N X C D]; intro E; try discriminate E.
  - destruct r; [discriminate E|]. destruct (IH eq_refl) as [H (w & y & -> & K)].
    split; [|exists (u ++ x ++ w), y; split; [rewrite <- !app_assoc; reflexivity|exact K]].
    rewrite app_assoc. apply ends_byte_app; [destruct w; discriminate|exact H].
  - destruct X as [y ->]. split; [apply ends_byte_app; [discriminate|exact D]|]. exists u, y. split; [reflexivity|exact C].
Qed.
Lemma app_split_at {A} (a b c d : list A) : a ++ b = c ++ d -> length a <= length c -> exists m, c = a ++ m /\ b = m ++ d.
Proof.
  revert c. induction a as [|x a IH]; intros c E L; [exists c; split; [reflexivity|exact E]|].
  destruct c as [|z c]; [cbn in L; lia|]. cbn in E, L. injection E as -> E. apply IH in E as (m & -> & ->); [|lia]. exists m. split; reflexivity.
Qed.
Lemma cut_fails s r : uncommented s r -> cut_short s -> r = None.
Proof.
  induction 1 as [s HS|u x v r N X C U IH|u x y z N X C D Y Z|u x N X C D]; intros [HE (w & y' & E & K)]; try reflexivity.
  - exfalso. apply HS. exists w, y'. exact E.
  - destruct (Nat.lt_ge_cases (length w) (length u)) as [L|L].
    { exfalso. apply (N _ L). exists w, y'. split; [exact E|reflexivity]. }
    apply app_split_at in E as (m & -> & E); [|exact L].
    destruct (Nat.lt_ge_cases (length m) (length x)) as [L2|L2].
    + exfalso. destruct X as [y ->].
      assert (skipn (length m) ((B "{:*" ++ y) ++ v) = B "{:*" ++ y') as SK by (rewrite E; apply skipn_pre).
      destruct (length m) as [|k] eqn:Lm.
      * destruct m; [|discriminate Lm]. cbn [skipn] in SK. rewrite SK in C. destruct C as [C _]. exact (K _ C).
      * apply (inner_closed ((B "{:*" ++ y) ++ v) _ (S k)) in C; [rewrite SK in C; exact (C K)|apply starts_with_iff; eexists; rewrite <- app_assoc; reflexivity|lia| |rewrite SK; apply starts_with_iff; eexists; reflexivity].
        rewrite app_length in *. change (length (B "{:*")) with 3 in *. lia.
    + apply app_split_at in E as (m' & -> & E); [|exact L2]. rewrite IH; [reflexivity|]. split; [|exists m', y'; split; assumption].
      assert (v <> []) as NV by (rewrite E; destruct m'; discriminate).
      rewrite app_assoc in HE. exact (proj1 (ends_byte_app _ _ _ NV) HE).
  - exfalso. apply D. refine (proj1 (ends_byte_app _ _ _ _) HE). rewrite X. discriminate.
Qed.
