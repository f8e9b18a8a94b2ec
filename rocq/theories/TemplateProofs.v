(** * Proofs about template.rs: trimming, moveto, final status, initialisation *)

From Verif Require Import Bytes Json Utils ConstantsGen State Engine Template FastCgi Spec BytesFacts
  EscapeProofs MergeProofs TextProofs.

(** ** White space *)

Lemma ascii_N a n : N_of_ascii a = n -> a = ascii_of_N n.
Proof. intro E. rewrite <- E. symmetry. apply ascii_N_embedding. Qed.

Lemma ws1_white a : ws1 a = true <-> white [a].
Proof.
  unfold ws1. split.
  - intro H. exists (N_of_ascii a). split.
    + unfold white_points. cbn [In].
      apply orb_true_iff in H. destruct H as [H|H]; [apply andb_true_iff in H as [H1 H2]; apply N.leb_le in H1, H2|apply N.eqb_eq in H]; lia.
    + unfold utf8. rewrite ascii_N_embedding.
      assert (N_of_ascii a < 128)%N as L.
      { apply orb_true_iff in H. destruct H as [H|H]; [apply andb_true_iff in H as [H1 H2]; apply N.leb_le in H1, H2|apply N.eqb_eq in H]; lia. }
      apply N.ltb_lt in L. rewrite L. reflexivity.
  - intros (n & Hn & E). unfold white_points in Hn. cbn [In] in Hn.
    repeat (destruct Hn as [<-|Hn]; [first [discriminate E | injection E as ->; reflexivity]|]).
    destruct Hn.
Qed.

Lemma ws2_white a b : ws2 a b = true <-> white [a; b].
Proof.
  unfold ws2. split.
  - intro H. apply andb_true_iff in H as [H1 H2]. apply N.eqb_eq in H1.
    apply ascii_N in H1. subst a.
    apply orb_true_iff in H2. destruct H2 as [H2|H2]; apply N.eqb_eq in H2;
      apply ascii_N in H2; subst b; [exists 133%N|exists 160%N]; (split; [cbn; tauto|reflexivity]).
  - intros (n & Hn & E). unfold white_points in Hn. cbn [In] in Hn.
    repeat (destruct Hn as [<-|Hn]; [first [discriminate E | injection E as -> ->; reflexivity]|]).
    destruct Hn.
Qed.

Lemma ws3_white a b c : ws3 a b c = true <-> white [a; b; c].
Proof.
  unfold ws3. split.
  - intro H.
    assert (exists n, In n white_points /\ (N_of_ascii a = 224 + n / 4096 /\ N_of_ascii b = 128 + n / 64 mod 64 /\ N_of_ascii c = 128 + n mod 64)%N /\ (2048 <= n)%N) as (n & Hn & (Ea & Eb & Ec) & L).
    { repeat rewrite orb_true_iff in H. repeat rewrite andb_true_iff in H.
      repeat rewrite orb_true_iff in H. rewrite andb_true_iff in H.
      repeat rewrite N.eqb_eq in H. repeat rewrite N.leb_le in H.
      destruct H as [[[H|H]|H]|H].
      - exists 5760%N. cbn [In white_points]. split; [cbn; tauto|]. split; [|lia]. cbn. lia.
      - destruct H as [[Ha Hb] Hc]. rewrite Ha, Hb.
        assert (N_of_ascii c = 128 \/ N_of_ascii c = 129 \/ N_of_ascii c = 130 \/ N_of_ascii c = 131 \/ N_of_ascii c = 132 \/ N_of_ascii c = 133 \/ N_of_ascii c = 134 \/ N_of_ascii c = 135 \/ N_of_ascii c = 136 \/ N_of_ascii c = 137 \/ N_of_ascii c = 138 \/ N_of_ascii c = 168 \/ N_of_ascii c = 169 \/ N_of_ascii c = 175)%N as D by lia.
        exists (8192 + (N_of_ascii c - 128))%N.
        repeat (destruct D as [D|D]; [rewrite D; split; [cbn; tauto|split; [split; [|split]; reflexivity|lia]]|]).
        rewrite D; split; [cbn; tauto|split; [split; [|split]; reflexivity|lia]].
      - exists 8287%N. split; [cbn; tauto|]. split; [|lia]. cbn. lia.
      - exists 12288%N. split; [cbn; tauto|]. split; [|lia]. cbn. lia. }
    exists n. split; [exact Hn|]. unfold utf8.
    assert ((n <? 128)%N = false) as -> by (apply N.ltb_ge; lia).
    assert ((n <? 2048)%N = false) as -> by (apply N.ltb_ge; lia).
    rewrite <- Ea, <- Eb, <- Ec, !ascii_N_embedding. reflexivity.
  - intros (n & Hn & E). unfold white_points in Hn. cbn [In] in Hn.
    repeat (destruct Hn as [<-|Hn]; [first [discriminate E | injection E as -> -> ->; reflexivity]|]).
    destruct Hn.
Qed.

Lemma white_cases w : white w -> (exists a, w = [a] /\ ws1 a = true) \/
  (exists a b, w = [a; b] /\ ws2 a b = true) \/ (exists a b c, w = [a; b; c] /\ ws3 a b c = true).
Proof.
  intros (n & Hn & ->). unfold white_points in Hn. cbn [In] in Hn.
  repeat (destruct Hn as [<-|Hn]; [
    first [ left; eexists; split; reflexivity
          | right; left; eexists; eexists; split; reflexivity
          | right; right; eexists; eexists; eexists; split; reflexivity ]|]).
  destruct Hn.
Qed.

Lemma all_white_nil : all_white [].
Proof. exists []. split; [reflexivity|constructor]. Qed.

Lemma all_white_app a b : all_white a -> all_white b -> all_white (a ++ b).
Proof.
  intros (l & -> & Hl) (l' & -> & Hl'). exists (l ++ l'). split; [symmetry; apply concat_app|].
  apply Forall_app. auto.
Qed.

Lemma all_white_cons w s : white w -> all_white s -> all_white (w ++ s).
Proof.
  intros Hw Hs. apply all_white_app; [|exact Hs]. exists [w]. cbn. rewrite app_nil_r. auto.
Qed.

Lemma trim_start_white_n n : forall s, length s <= n -> exists p, s = p ++ trim_start s /\ all_white p.
Proof.
  induction n as [|n IH]; intros s L.
  - destruct s; [|cbn in L; lia]. exists []. split; [reflexivity|apply all_white_nil].
  - destruct s as [|a r]; [exists []; split; [reflexivity|apply all_white_nil]|].
    cbn [length] in L. cbn [trim_start].
    destruct (ws1 a) eqn:W1.
    { destruct (IH r ltac:(lia)) as (p & E & Hp). exists ([a] ++ p).
      split; [cbn; f_equal; exact E|]. apply all_white_cons; [apply ws1_white; exact W1|exact Hp]. }
    destruct r as [|b r2]; [exists []; split; [reflexivity|apply all_white_nil]|].
    destruct (ws2 a b) eqn:W2.
    { cbn [length] in L. destruct (IH r2 ltac:(lia)) as (p & E & Hp). exists ([a; b] ++ p).
      split; [cbn; do 2 f_equal; exact E|]. apply all_white_cons; [apply ws2_white; exact W2|exact Hp]. }
    destruct r2 as [|c r3]; [exists []; split; [reflexivity|apply all_white_nil]|].
    destruct (ws3 a b c) eqn:W3.
    { cbn [length] in L. destruct (IH r3 ltac:(lia)) as (p & E & Hp). exists ([a; b; c] ++ p).
      split; [cbn; do 3 f_equal; exact E|]. apply all_white_cons; [apply ws3_white; exact W3|exact Hp]. }
    exists []; split; [reflexivity|apply all_white_nil].
Qed.

Lemma trim_start_not_white_n n : forall s, length s <= n -> forall w r, white w -> trim_start s <> w ++ r.
Proof.
  induction n as [|n IH]; intros s L w r Hw E.
  - destruct s; [|cbn in L; lia]. cbn in E.
    apply white_cases in Hw as [(a & -> & _)|[(a & b & -> & _)|(a & b & c & -> & _)]]; discriminate.
  - destruct s as [|a t]; [apply (IH [] ltac:(cbn; lia) w r Hw E)|].
    cbn [length] in L. cbn [trim_start] in E.
    destruct (ws1 a) eqn:W1; [exact (IH t ltac:(lia) w r Hw E)|].
    destruct t as [|b t2].
    { apply white_cases in Hw as [(x & -> & W)|[(x & y & -> & _)|(x & y & z & -> & _)]]; try discriminate.
      injection E as -> _. congruence. }
    cbn [length] in L.
    destruct (ws2 a b) eqn:W2; [exact (IH t2 ltac:(lia) w r Hw E)|].
    destruct t2 as [|c t3].
    { apply white_cases in Hw as [(x & -> & W)|[(x & y & -> & W)|(x & y & z & -> & _)]]; try discriminate.
      - injection E as -> _. congruence.
      - injection E as -> -> _. congruence. }
    cbn [length] in L.
    destruct (ws3 a b c) eqn:W3; [exact (IH t3 ltac:(lia) w r Hw E)|].
    apply white_cases in Hw as [(x & -> & W)|[(x & y & -> & W)|(x & y & z & -> & W)]].
    + injection E as -> _. congruence.
    + injection E as -> -> _. congruence.
    + injection E as -> -> -> _. congruence.
Qed.

Lemma trim_rev_white_n n : forall s, length s <= n -> exists p, s = rev p ++ trim_rev s /\ all_white p.
Proof.
  induction n as [|n IH]; intros s L.
  - destruct s; [|cbn in L; lia]. exists []. split; [reflexivity|apply all_white_nil].
  - destruct s as [|a r]; [exists []; split; [reflexivity|apply all_white_nil]|].
    cbn [length] in L. cbn [trim_rev].
    destruct (ws1 a) eqn:W1.
    { destruct (IH r ltac:(lia)) as (p & E & Hp). exists (p ++ [a]).
      split; [rewrite rev_app_distr; cbn; f_equal; exact E|].
      apply all_white_app; [exact Hp|]. rewrite <- (app_nil_r [a]). apply all_white_cons; [apply ws1_white; exact W1|apply all_white_nil]. }
    destruct r as [|b r2]; [exists []; split; [reflexivity|apply all_white_nil]|].
    destruct (ws2 b a) eqn:W2.
    { cbn [length] in L. destruct (IH r2 ltac:(lia)) as (p & E & Hp). exists (p ++ [b; a]).
      split; [rewrite rev_app_distr; cbn; do 2 f_equal; exact E|].
      apply all_white_app; [exact Hp|]. rewrite <- (app_nil_r [b; a]). apply all_white_cons; [apply ws2_white; exact W2|apply all_white_nil]. }
    destruct r2 as [|c r3]; [exists []; split; [reflexivity|apply all_white_nil]|].
    destruct (ws3 c b a) eqn:W3.
    { cbn [length] in L. destruct (IH r3 ltac:(lia)) as (p & E & Hp). exists (p ++ [c; b; a]).
      split; [rewrite rev_app_distr; cbn; do 3 f_equal; exact E|].
      apply all_white_app; [exact Hp|]. rewrite <- (app_nil_r [c; b; a]). apply all_white_cons; [apply ws3_white; exact W3|apply all_white_nil]. }
    exists []; split; [reflexivity|apply all_white_nil].
Qed.

Lemma trim_rev_not_white_n n : forall s, length s <= n -> forall w r, white w -> trim_rev s <> rev w ++ r.
Proof.
  induction n as [|n IH]; intros s L w r Hw E.
  - destruct s; [|cbn in L; lia]. cbn in E.
    apply white_cases in Hw as [(a & -> & _)|[(a & b & -> & _)|(a & b & c & -> & _)]]; discriminate.
  - destruct s as [|a t]; [apply (IH [] ltac:(cbn; lia) w r Hw E)|].
    cbn [length] in L. cbn [trim_rev] in E.
    destruct (ws1 a) eqn:W1; [exact (IH t ltac:(lia) w r Hw E)|].
    destruct t as [|b t2].
    { apply white_cases in Hw as [(x & -> & W)|[(x & y & -> & _)|(x & y & z & -> & _)]]; try discriminate.
      injection E as -> _. congruence. }
    cbn [length] in L.
    destruct (ws2 b a) eqn:W2; [exact (IH t2 ltac:(lia) w r Hw E)|].
    destruct t2 as [|c t3].
    { apply white_cases in Hw as [(x & -> & W)|[(x & y & -> & W)|(x & y & z & -> & _)]]; try discriminate.
      - injection E as -> _. congruence.
      - injection E as -> -> _. congruence. }
    cbn [length] in L.
    destruct (ws3 c b a) eqn:W3; [exact (IH t3 ltac:(lia) w r Hw E)|].
    apply white_cases in Hw as [(x & -> & W)|[(x & y & -> & W)|(x & y & z & -> & W)]].
    + injection E as -> _. congruence.
    + injection E as -> -> _. congruence.
    + injection E as -> -> -> _. congruence.
Qed.

Lemma trim_trimmed s : trimmed s (trim s).
Proof.
  unfold trim, trim_end. set (t := trim_start s).
  destruct (trim_start_white_n _ s (le_n _)) as (p & Ep & Hp). fold t in Ep.
  destruct (trim_rev_white_n _ (rev t) (le_n _)) as (q & Eq & Hq).
  assert (t = rev (trim_rev (rev t)) ++ q) as Et.
  { rewrite <- (rev_involutive t) at 1. rewrite Eq at 1. rewrite rev_app_distr, rev_involutive. reflexivity. }
  split; [|split].
  - exists p, q. rewrite Ep at 1. split; [|auto]. rewrite Et at 1. reflexivity.
  - intros w r Hw E. apply (trim_start_not_white_n _ s (le_n _) w (r ++ q) Hw).
    fold t. rewrite Et, E, app_assoc. reflexivity.
  - intros w r Hw E. apply (trim_rev_not_white_n _ (rev t) (le_n _) w (rev r) Hw).
    rewrite <- (rev_involutive (trim_rev (rev t))), E, rev_app_distr. reflexivity.
Qed.

(** [trim] of a text without white space at its ends is the text itself *)
Lemma trim_start_id s : (forall w r, white w -> s <> w ++ r) -> trim_start s = s.
Proof.
  intro H. destruct s as [|a r]; [reflexivity|]. cbn [trim_start].
  destruct (ws1 a) eqn:W1; [exfalso; apply (H [a] r); [apply ws1_white; exact W1|reflexivity]|].
  destruct r as [|b r]; [reflexivity|].
  destruct (ws2 a b) eqn:W2; [exfalso; apply (H [a; b] r); [apply ws2_white; exact W2|reflexivity]|].
  destruct r as [|c r]; [reflexivity|].
  destruct (ws3 a b c) eqn:W3; [exfalso; apply (H [a; b; c] r); [apply ws3_white; exact W3|reflexivity]|].
  reflexivity.
Qed.

Lemma trim_rev_id s : (forall w r, white w -> s <> rev w ++ r) -> trim_rev s = s.
Proof.
  intro H. destruct s as [|a r]; [reflexivity|]. cbn [trim_rev].
  destruct (ws1 a) eqn:W1; [exfalso; apply (H [a] r); [apply ws1_white; exact W1|reflexivity]|].
  destruct r as [|b r]; [reflexivity|].
  destruct (ws2 b a) eqn:W2; [exfalso; apply (H [b; a] r); [apply ws2_white; exact W2|reflexivity]|].
  destruct r as [|c r]; [reflexivity|].
  destruct (ws3 c b a) eqn:W3; [exfalso; apply (H [c; b; a] r); [apply ws3_white; exact W3|reflexivity]|].
  reflexivity.
Qed.

Lemma trim_id s : (forall w r, white w -> s <> w ++ r) -> (forall w r, white w -> s <> r ++ w) -> trim s = s.
Proof.
  intros H1 H2. unfold trim, trim_end. rewrite trim_start_id by exact H1.
  rewrite trim_rev_id, rev_involutive; [reflexivity|].
  intros w r Hw E. apply (H2 w (rev r) Hw). rewrite <- (rev_involutive s), E, rev_app_distr, rev_involutive. reflexivity.
Qed.

Lemma trim_idem s : trim (trim s) = trim s.
Proof. destruct (trim_trimmed s) as (_ & H1 & H2). apply trim_id; assumption. Qed.

(** ** moveto *)

Lemma find_first p s i : find p s = Some i -> first_occurrence p s i.
Proof. intro H. destruct (find_some _ _ _ H) as [H1 H2]. split; assumption. Qed.

Lemma first_unique p s i j : first_occurrence p s i -> first_occurrence p s j -> i = j.
Proof.
  intros [Hi Li] [Hj Lj]. destruct (Nat.lt_trichotomy i j) as [L|[E|L]]; [|exact E|].
  - exfalso. exact (Lj i L Hi).
  - exfalso. exact (Li j L Hj).
Qed.

Lemma first_find p s i : first_occurrence p s i -> find p s = Some i.
Proof.
  intros H. destruct (find p s) as [j|] eqn:F.
  - f_equal. symmetry. eapply first_unique; [exact H|apply find_first; exact F].
  - exfalso. apply (find_none _ _ F). destruct H as [H _]. eapply occurs_at_occurs. exact H.
Qed.

Lemma place_position tag o pos : find_tag_position o tag = Some pos ->
  place tag o (firstn pos o) (skipn pos o).
Proof.
  unfold find_tag_position. destruct (find tag o) as [st|] eqn:F; [|discriminate].
  pose proof (find_first _ _ _ F) as FO. pose proof (find_bound _ _ _ F) as FB.
  destruct (starts_with (B "</") tag) eqn:C; cbn [negb].
  - intro E. assert (pos = st) as -> by congruence. apply pl_close.
    + apply starts_with_iff in C. exact C.
    + rewrite firstn_length_le by lia. exact FO.
    + symmetry. apply firstn_skipn.
  - destruct (find [c_gt] (skipn st o)) as [e|] eqn:G; [|discriminate].
    intro E. assert (pos = st + e + 1) as -> by congruence. clear E.
    destruct (find_some _ _ _ G) as [(x & w & E & L) H].
    assert (o = firstn st o ++ (x ++ B ">") ++ w) as Eo.
    { rewrite <- (firstn_skipn st o) at 1. rewrite E. rewrite <- app_assoc. reflexivity. }
    assert (length (firstn st o) = st) as Ls by (apply firstn_length_le; lia).
    assert (firstn (st + e + 1) o = firstn st o ++ x ++ B ">") as E1.
    { rewrite Eo at 1. rewrite app_assoc, firstn_app.
      assert (length (firstn st o ++ x ++ B ">") = st + e + 1) as L1 by (rewrite !app_length, Ls, L; cbn; lia).
      rewrite L1, Nat.sub_diag. cbn [firstn]. rewrite app_nil_r. rewrite <- L1 at 1. apply firstn_all. }
    assert (skipn (st + e + 1) o = w) as E2.
    { rewrite Eo at 1. rewrite app_assoc, skipn_app.
      assert (length (firstn st o ++ x ++ B ">") = st + e + 1) as L1 by (rewrite !app_length, Ls, L; cbn; lia).
      rewrite L1, Nat.sub_diag. cbn [skipn]. rewrite <- L1 at 1. rewrite skipn_all. reflexivity. }
    rewrite E1, E2. apply pl_open.
    + intros (r & Er). subst tag. rewrite starts_with_app in C. discriminate.
    + rewrite Ls. exact FO.
    + exact Eo.
    + intro HI. apply in_split in HI as (x1 & x2 & ->). apply (H (length x1)).
      * rewrite <- L, app_length. cbn. lia.
      * rewrite E. exists x1, (x2 ++ c_gt :: w). split; [|reflexivity]. rewrite <- app_assoc. reflexivity.
Qed.

Lemma place_none tag o : find_tag_position o tag = None -> forall u v, ~ place tag o u v.
Proof.
  unfold find_tag_position. intros H u v P. destruct P as [u v C FO E|u x w C FO E NI].
  - rewrite (first_find _ _ _ FO) in H. apply starts_with_iff in C. rewrite C in H. discriminate.
  - rewrite (first_find _ _ _ FO) in H.
    destruct (starts_with (B "</") tag) eqn:S; cbn [negb] in H; [discriminate|].
    destruct (find [c_gt] (skipn (length u) o)) as [e|] eqn:G; [discriminate|].
    apply (find_none _ _ G). rewrite E. rewrite skipn_app, Nat.sub_diag, skipn_all. cbn [skipn app].
    exists x, w. rewrite <- app_assoc. reflexivity.
Qed.

Lemma ends_byte_iff c s : ends_with [c] s = true <-> ends_byte c s.
Proof. rewrite ends_with_iff. reflexivity. Qed.

Lemma moveto_tag_named k : tag_named k (moveto_tag k).
Proof.
  unfold moveto_tag. destruct (starts_with (B "<") k) eqn:S.
  - apply starts_with_iff in S. destruct (ends_with (B ">") k) eqn:E.
    + apply ends_with_iff in E as (t & ->). rewrite app_length. cbn [length B list_ascii_of_string].
      rewrite Nat.add_sub, firstn_app, Nat.sub_diag. cbn [firstn]. rewrite app_nil_r, firstn_all.
      apply tn_close. destruct S as (r & Er). destruct t as [|a t].
      * discriminate Er.
      * exists t. cbn in Er |- *. congruence.
    + apply tn_full; [exact S|]. intro H. apply ends_byte_iff in H. change (B ">") with [">"%char] in E. congruence.
  - apply starts_with_false in S. destruct (ends_with (B ">") (B "<" ++ k)) eqn:E.
    + apply ends_with_iff in E as (t & Et).
      assert (exists t', k = t' ++ B ">" /\ t = B "<" ++ t') as (t' & -> & ->).
      { destruct t as [|a t]; [discriminate Et|]. exists t. cbn in Et |- *.
        injection Et as <- Ek. split; [exact Ek|reflexivity]. }
      rewrite app_assoc, app_length. change (length (B ">")) with 1.
      rewrite Nat.add_sub, firstn_app, Nat.sub_diag. cbn [firstn].
      rewrite firstn_all, app_nil_r. apply (tn_bare_close t'). exact S.
    + apply tn_bare; [exact S|]. intros (r & ->). assert (ends_with (B ">") (B "<" ++ r ++ [">"%char]) = true) as C; [|congruence].
      apply ends_with_iff. exists (B "<" ++ r). rewrite <- app_assoc. reflexivity.
Qed.

Lemma moveto_one_moved k c o o' l o2 : moveto_one k (JStr c) o = Some o' -> moved l o' o2 -> moved ((k, c) :: l) o o2.
Proof.
  unfold moveto_one. intros H M. destruct (find_tag_position o (moveto_tag k)) as [pos|] eqn:F.
  - cbn [as_str] in H. assert (o' = insert_str o pos c) as -> by congruence.
    eapply mv_insert; [apply moveto_tag_named|apply place_position; exact F|exact M].
  - assert (o' = o) as -> by congruence.
    eapply mv_ignore; [apply moveto_tag_named|apply place_none; exact F|exact M].
Qed.

Lemma subseq_refl o : subseq o o.
Proof. induction o; constructor; assumption. Qed.

Lemma subseq_app a b a' b' : subseq a a' -> subseq b b' -> subseq (a ++ b) (a' ++ b').
Proof. induction 1; cbn; [auto| |]; intro; constructor; auto. Qed.

Lemma subseq_insert u c v : subseq (u ++ v) (u ++ c ++ v).
Proof.
  apply subseq_app; [apply subseq_refl|]. induction c; cbn; [apply subseq_refl|constructor; assumption].
Qed.

Lemma subseq_trans a b c : subseq a b -> subseq b c -> subseq a c.
Proof.
  intros H1 H2. revert a H1. induction H2; intros a H1.
  - exact H1.
  - remember (c :: o) as l. destruct H1; [discriminate| |].
    + injection Heql as -> ->. constructor. apply IHsubseq. exact H1.
    + injection Heql as -> ->. apply sub_skip. apply IHsubseq. exact H1.
  - apply sub_skip. apply IHsubseq. exact H1.
Qed.

Lemma place_eq tag o u v : place tag o u v -> o = u ++ v.
Proof. destruct 1; subst; [reflexivity|]. rewrite <- !app_assoc. reflexivity. Qed.

Lemma moved_subseq l o o' : moved l o o' -> subseq o o'.
Proof.
  induction 1.
  - apply subseq_refl.
  - eapply subseq_trans; [|exact IHmoved]. rewrite (place_eq _ _ _ _ H0). apply subseq_insert.
  - exact IHmoved.
Qed.

(** the multiset of bytes: nothing is added but the contents *)
Lemma moved_length l o o' : moved l o o' -> length o' <= length o + list_sum (map (fun e => length (snd e)) l).
Proof.
  induction 1.
  - cbn. lia.
  - pose proof (place_eq _ _ _ _ H0) as E. apply (f_equal (@length ascii)) in E.
    rewrite !app_length in *. cbn [map list_sum snd]. change (list_sum (length c :: map (fun e => length (snd e)) l)) with (length c + list_sum (map (fun e : bytes * bytes => length (snd e)) l)). lia.
  - change (list_sum (map (fun e => length (snd e)) ((k, c) :: l))) with (length c + list_sum (map (fun e : bytes * bytes => length (snd e)) l)). lia.
Qed.

(** the registered contents: a list of (tag, content) *)
Inductive registered : json -> list (bytes * bytes) -> Prop :=
| rg_map m l : Forall2 (fun kv e => snd kv = JObj [(fst e, JStr (snd e))]) m l -> registered (JObj m) l.

Lemma moveto_all_moved m l : Forall2 (fun (kv : bytes * json) (e : bytes * bytes) => snd kv = JObj [(fst e, JStr (snd e))]) m l ->
  forall o, exists o', moveto_all m o = Some o' /\ moved l o o'.
Proof.
  induction 1 as [|[h v] [k c] m l E F IH]; intro o; cbn [moveto_all].
  - exists o. split; [reflexivity|constructor].
  - cbn [fst snd] in E. subst v. cbn [moveto_inner].
    destruct (moveto_one k (JStr c) o) as [o1|] eqn:M1.
    + destruct (IH o1) as (o' & E' & Mv). exists o'. split; [exact E'|]. eapply moveto_one_moved; eassumption.
    + exfalso. unfold moveto_one in M1. destruct (find_tag_position o (moveto_tag k)); discriminate.
Qed.

Lemma set_moveto_moved s l o : registered (idx s.(schema) (B "__moveto")) l ->
  exists o', set_moveto s o = Some o' /\ moved l o o'.
Proof.
  intros H. unfold set_moveto. destruct H as [m l F]. apply moveto_all_moved. exact F.
Qed.

(** ** Status *)

Lemma error_code_range c : error_code c -> ble (B "400") c && ble c (B "599") = true.
Proof.
  intros (a & b & d & -> & Ha & Hb & Hd). unfold is_digit_byte in *.
  change (B "400") with ["4"%char; "0"%char; "0"%char]. change (B "599") with ["5"%char; "9"%char; "9"%char].
  unfold ble. change (N_of_ascii "4") with 52%N. change (N_of_ascii "5") with 53%N.
  change (N_of_ascii "0") with 48%N. change (N_of_ascii "9") with 57%N.
  destruct Ha as [-> | ->]; [change (N_of_ascii "4") with 52%N|change (N_of_ascii "5") with 53%N];
    generalize dependent (N_of_ascii b); generalize dependent (N_of_ascii d); intros y Hy x Hx;
    repeat match goal with |- context [(?p <? ?q)%N] => destruct (N.ltb_spec p q) end; try reflexivity; lia.
Qed.

Lemma other_code_range c : other_code c -> ble (B "400") c && ble c (B "599") = false.
Proof.
  intros (a & b & d & -> & Ha & Hb & Hd).
  destruct Ha as [-> |[-> | ->]]; reflexivity.
Qed.

Definition redirect_code (c : bytes) : bool :=
  beq c (B "301") || beq c (B "302") || beq c (B "303") || beq c (B "307") || beq c (B "308").

Lemma redirect_code_iff c : redirect_code c = true <-> In c redirect_codes.
Proof.
  unfold redirect_code, redirect_codes. rewrite !orb_true_iff, !beq_eq. cbn [In].
  split; [intros [[[[H|H]|H]|H]|H]; subst; tauto|].
  intros [H|[H|[H|[H|[H|[]]]]]]; subst; tauto.
Qed.

Lemma redirect_other c : In c redirect_codes -> other_code c.
Proof.
  unfold redirect_codes. cbn [In]. intros [H|[H|[H|[H|[H|[]]]]]]; subst c;
    (eexists; eexists; eexists; split; [reflexivity|]; split; [tauto|]; split; unfold is_digit_byte; cbn; lia).
Qed.

(** ** Rendering *)

Lemma render_inv env fuel t o t' : occurs (B "{:") t.(t_raw) -> render env fuel t = TOk o t' ->
  exists raw s i o1 s1 i1 o2 s2,
    init_render env t = IOk raw s i /\ top_parse env s i raw [] = BOk o1 s1 i1 /\
    cache_rounds env fuel s1 i o1 = ROk o2 s2 /\ ends_render s2 o2 = Some o /\
    t' = mkTemplate raw t.(t_path) t.(t_schema) s2 o.
Proof.
  intros HO. unfold render. apply contains_iff in HO. change (B "{:") with BIF_OPEN in HO. rewrite HO. cbn [negb].
  destruct (init_render env t) as [raw s i|p] eqn:E1; [|discriminate].
  destruct (top_parse env s i raw []) as [o1 s1 i1|p|] eqn:E2; [|discriminate|discriminate].
  destruct (cache_rounds env fuel s1 i o1) as [o2 s2|p|] eqn:E3; [|discriminate|discriminate].
  destruct (ends_render s2 o2) as [o3|] eqn:E4; [|discriminate].
  intro H. injection H as <- <-.
  exists raw, s, i, o1, s1, i1, o2, s2. auto.
Qed.

Lemma render_once_render env fuel t : occurs (B "{:") t.(t_raw) ->
  render_once env fuel t = match render env fuel t with
                           | TOk o t' => TOk o (tset_schema JNull t')
                           | e => e
                           end.
Proof.
  intros HO. unfold render, render_once. apply contains_iff in HO. change (B "{:") with BIF_OPEN in HO. rewrite HO. cbn [negb].
  change (init_render_once env t) with (init_render env t).
  destruct (init_render env t) as [raw s i|p]; [|reflexivity].
  destruct (top_parse env s i raw []) as [o1 s1 i1|p|]; try reflexivity.
  destruct (cache_rounds env fuel s1 i o1) as [o2 s2|p|]; try reflexivity.
  destruct (ends_render s2 o2) as [o3|]; reflexivity.
Qed.

(** ** Initialisation *)

Lemma idx_oset k v m k' : idx (JObj (oset k v m)) k' = if beq k' k then v else idx (JObj m) k'.
Proof. unfold idx, vget. rewrite oget_oset. destruct (beq k' k); reflexivity. Qed.

Lemma put_obj k v m : put k v (JObj m) = Some (JObj (oset k v m)).
Proof. reflexivity. Qed.

Lemma upd_some k f j j' : upd k f j = Some j' ->
  exists m, j' = JObj m /\ f (idx j k) = Some (idx j' k) /\
            (forall k', k' <> k -> idx j' k' = idx j k') /\
            (forall k', k' <> k -> oget k' m = vget k' j) /\ (exists v, oget k m = Some v).
Proof.
  unfold upd. destruct j as [| | | | |m]; try discriminate.
  - destruct (f JNull) as [v|] eqn:F; [|discriminate]. intro H. injection H as <-.
    exists [(k, v)]. split; [reflexivity|]. unfold idx at 1 2. cbn [vget oget]. rewrite beq_refl.
    split; [exact F|]. split; [|split; [|exists v; reflexivity]]; intros k' N; [unfold idx; cbn [vget]|]; cbn [oget];
      rewrite (proj2 (beq_neq k' k) N); reflexivity.
  - change (match oget k m with Some v => v | None => JNull end) with (idx (JObj m) k).
    destruct (f (idx (JObj m) k)) as [v|] eqn:F; [|discriminate]. intro H. injection H as <-.
    exists (oset k v m). split; [reflexivity|]. rewrite idx_oset, beq_refl. split; [reflexivity|].
    split; [|split; [|exists v; rewrite oget_oset, beq_refl; reflexivity]];
      intros k' N; [rewrite idx_oset|cbn [vget]; rewrite oget_oset]; rewrite (proj2 (beq_neq k' k) N); reflexivity.
Qed.

Lemma put_some k v j j' : put k v j = Some j' -> idx j' k = v /\ is_obj j' /\ (forall k', k' <> k -> idx j' k' = idx j k')
  /\ (forall k', k' <> k -> vget k' j' = vget k' j).
Proof.
  intro H. apply upd_some in H as (m & -> & E & H & H' & _). split; [congruence|]. split; [exists m; reflexivity|].
  split; [exact H|]. exact H'.
Qed.

Lemma upd_data_context f sc sc' :
  upd (B "data") (upd (B "CONTEXT") (fun v => Some (f v))) sc = Some sc' ->
  is_obj sc' /\ is_obj (idx sc' (B "data")) /\
  idx (idx sc' (B "data")) (B "CONTEXT") = f (idx (idx sc (B "data")) (B "CONTEXT")) /\
  (forall k, k <> B "CONTEXT" -> idx (idx sc' (B "data")) k = idx (idx sc (B "data")) k) /\
  (forall k, k <> B "data" -> idx sc' k = idx sc k) /\ (forall k, k <> B "data" -> vget k sc' = vget k sc).
Proof.
  intro H. apply upd_some in H as (m & -> & E & H & H0 & _). apply upd_some in E as (d & E & E2 & H2 & _).
  split; [exists m; reflexivity|]. split; [exists d; exact E|]. split; [congruence|].
  split; [exact H2|]. split; [exact H|]. exact H0.
Qed.

Lemma filter_context_facts sc sc' : filter_context sc = Some sc' ->
  is_obj sc' /\ is_obj (idx sc' (B "data")) /\
  idx (idx sc' (B "data")) (B "CONTEXT") = filter_value_keys (filter_value (idx (idx sc (B "data")) (B "CONTEXT"))) /\
  (forall k, k <> B "CONTEXT" -> idx (idx sc' (B "data")) k = idx (idx sc (B "data")) k) /\
  (forall k, k <> B "data" -> idx sc' k = idx sc k) /\ (forall k, k <> B "data" -> vget k sc' = vget k sc).
Proof.
  unfold filter_context.
  destruct (upd _ _ sc) as [sc1|] eqn:E1; [|discriminate]. intro E2.
  apply upd_data_context in E1 as (_ & _ & C1 & D1 & T1 & V1).
  apply upd_data_context in E2 as (O & OD & C2 & D2 & T2 & V2).
  split; [exact O|]. split; [exact OD|]. split; [rewrite C2, C1; reflexivity|].
  split; [intros k N; rewrite D2, D1 by exact N; reflexivity|].
  split; intros k N; [rewrite T2, T1 by exact N|rewrite V2, V1 by exact N]; reflexivity.
Qed.

(** What evaluation starts with. *)
Record initial (env : Env) (t : Template) (raw : bytes) (s : Shared) (i : Inherit) : Prop := {
  in_obj : is_obj s.(schema);
  in_data_obj : is_obj (idx s.(schema) (B "data"));
  in_context : idx (idx s.(schema) (B "data")) (B "CONTEXT")
               = filter_value_keys (filter_value (idx (idx t.(t_schema) (B "data")) (B "CONTEXT")));
  in_data : forall k, k <> B "CONTEXT" -> idx (idx s.(schema) (B "data")) k = idx (idx t.(t_schema) (B "data")) k;
  in_top : forall k, k <> B "data" -> k <> B "__moveto" -> k <> B "__error" -> vget k s.(schema) = vget k t.(t_schema);
  in_moveto : idx s.(schema) (B "__moveto") = JObj [];
  in_error : vget (B "__error") s.(schema) = Some (JArr []);
  in_store : s.(indir_store) = [(B "block_1", idx t.(t_schema) (B "inherit"))];
  in_new : exists s0, shared_new env t.(t_shared).(strace) t.(t_schema) = Some s0 /\
             s = set_schema s.(schema) (set_indir_store s.(indir_store) s0);
  in_indir : i.(indir) = B "block_1";
  in_count : i.(block_count) = 0%N;
  in_raw : raw = t.(t_raw) \/ remove_comments t.(t_raw) = Some raw }.

Lemma init_facts env t raw s i : init_render env t = IOk raw s i -> initial env t raw s i.
Proof.
  unfold init_render.
  destruct (shared_new env (strace (t_shared t)) (t_schema t)) as [s0|] eqn:E0; [|discriminate].
  destruct (if contains (B "remove") (comments (cfg s0)) then remove_comments (t_raw t) else Some (t_raw t))
    as [raw0|] eqn:ER; [|discriminate].
  assert (s0.(schema) = t.(t_schema) /\ s0.(indir_store) = []) as [ES ESt].
  { unfold shared_new in E0. destruct (as_u64 _); [|discriminate]. destruct (as_u64 _); [|discriminate].
    injection E0 as <-. split; reflexivity. }
  assert (create_block_schema s0 inherit_new = (s0, iset_indir (B "block_1") inherit_new)) as ->.
  { unfold create_block_schema. cbn -[oget beq B]. rewrite ESt. reflexivity. }
  destruct (put (B "__moveto") (JObj []) (schema s0)) as [sc1|] eqn:P1; [|discriminate].
  destruct (put (B "__error") (JArr []) sc1) as [sc2|] eqn:P2; [|discriminate].
  destruct (filter_context sc2) as [sc3|] eqn:F; [|discriminate].
  intro H.
  assert (raw = raw0 /\ s = set_schema sc3 (set_indir_store [(B "block_1", idx sc2 (B "inherit"))] s0)
          /\ indir i = B "block_1" /\ block_count i = 0%N) as (-> & -> & Ei & Ec).
  { destruct (is_empty (t_path t)); [injection H as <- <- <-; auto|].
    destruct (e_parent env (t_path t)); injection H as <- <- <-; auto. }
  clear H.
  apply put_some in P1 as (M1 & _ & T1 & V1). apply put_some in P2 as (M2 & O2 & T2 & V2).
  apply filter_context_facts in F as (O3 & OD3 & C3 & D3 & T3 & V3).
  rewrite ES in *.
  constructor.
  - exact O3.
  - exact OD3.
  - cbn [schema set_schema]. rewrite C3, T2, T1 by discriminate. reflexivity.
  - cbn [schema set_schema]. intros k N. rewrite D3 by exact N. rewrite T2, T1 by discriminate. reflexivity.
  - cbn [schema set_schema]. intros k N1 N2 N3. rewrite V3, V2, V1 by assumption. reflexivity.
  - cbn [schema set_schema]. rewrite T3, T2 by discriminate. exact M1.
  - cbn [schema set_schema]. rewrite V3 by discriminate. destruct O2 as (m2 & ->).
    unfold idx in M2. destruct (vget (B "__error") (JObj m2)); [congruence|discriminate].
  - cbn [indir_store set_schema set_indir_store]. rewrite T2, T1 by discriminate. reflexivity.
  - exists s0. split; [exact E0|]. reflexivity.
  - exact Ei.
  - exact Ec.
  - destruct (contains (B "remove") (comments (cfg s0))); [right; exact ER|left; congruence].
Qed.

Lemma init_once env t : init_render_once env t = init_render env t.
Proof. reflexivity. Qed.

(** ** Output of a render that ends with a given status *)

Lemma ends_render_status s o o' : ends_render s o = Some o' ->
  exists b, set_moveto s o = Some b /\ o' = set_status_code s (replacements b).
Proof.
  unfold ends_render. destruct (set_moveto s o) as [b|]; [|discriminate].
  intro H. exists b. split; [reflexivity|congruence].
Qed.

Lemma status_error s o : error_code s.(status_code) ->
  set_status_code s o = s.(status_code) ++ B " " ++ s.(status_text).
Proof. intro H. unfold set_status_code. rewrite (error_code_range _ H). reflexivity. Qed.

Lemma status_redirect s o : In s.(status_code) redirect_codes ->
  set_status_code s o = s.(status_code) ++ B " " ++ s.(status_text) ++ [ascii_of_N 10] ++ s.(status_param).
Proof.
  intro H. unfold set_status_code. rewrite (other_code_range _ (redirect_other _ H)).
  apply redirect_code_iff in H. unfold redirect_code in H. rewrite H. reflexivity.
Qed.

Lemma status_other s o : other_code s.(status_code) -> ~ In s.(status_code) redirect_codes ->
  set_status_code s o = if is_empty s.(redirect_js) then o else s.(redirect_js).
Proof.
  intros H N. unfold set_status_code. rewrite (other_code_range _ H).
  fold (redirect_code (status_code s)). destruct (redirect_code (status_code s)) eqn:E.
  { exfalso. apply N. apply redirect_code_iff. exact E. }
  destruct (is_empty (redirect_js s)); reflexivity.
Qed.
