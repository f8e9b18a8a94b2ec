(** * Facts about the string functions of Bytes.v *)

From Verif Require Import Bytes Spec.

Global Arguments aeqb : simpl never.

Lemma aeqb_eq a b : aeqb a b = true <-> a = b.
Proof. apply Ascii.eqb_eq. Qed.
Lemma aeqb_refl a : aeqb a a = true.
Proof. apply Ascii.eqb_refl. Qed.
Lemma aeqb_neq a b : aeqb a b = false <-> a <> b.
Proof. apply Ascii.eqb_neq. Qed.

Lemma beq_eq a b : beq a b = true <-> a = b.
Proof.
  revert b; induction a as [|x a IH]; intros [|y b]; cbn; try (split; congruence).
  rewrite andb_true_iff, IH, aeqb_eq. split; [intros [-> ->]; reflexivity|].
  intros E; inversion E; auto.
Qed.
Lemma beq_refl a : beq a a = true.
Proof. apply beq_eq; reflexivity. Qed.
Lemma beq_neq a b : beq a b = false <-> a <> b.
Proof.
  rewrite <- beq_eq. destruct (beq a b); split; congruence.
Qed.
Lemma beq_sym a b : beq a b = beq b a.
Proof.
  destruct (beq a b) eqn:E1, (beq b a) eqn:E2; auto;
  try apply beq_eq in E1; try apply beq_eq in E2; subst; rewrite beq_refl in *; congruence.
Qed.
Lemma beq_spec a b : reflect (a = b) (beq a b).
Proof. apply iff_reflect. symmetry. apply beq_eq. Qed.

Lemma is_empty_true {A} (l : list A) : is_empty l = true <-> l = [].
Proof. destruct l; cbn; split; congruence. Qed.
Lemma is_empty_false {A} (l : list A) : is_empty l = false <-> l <> [].
Proof. destruct l; cbn; split; congruence. Qed.

Lemma starts_with_iff p s : starts_with p s = true <-> exists t, s = p ++ t.
Proof.
  revert s; induction p as [|x p IH]; intros s; cbn.
  - split; eauto.
  - destruct s as [|y s]; [split; [congruence|intros [t H]; inversion H]|].
    rewrite andb_true_iff, IH, aeqb_eq. split.
    + intros [-> [t ->]]. eauto.
    + intros [t H]; inversion H; subst; eauto.
Qed.
Lemma starts_with_app p t : starts_with p (p ++ t) = true.
Proof. apply starts_with_iff; eauto. Qed.
Lemma starts_with_refl p : starts_with p p = true.
Proof. apply starts_with_iff; exists []; rewrite app_nil_r; reflexivity. Qed.
Lemma starts_with_length p s : starts_with p s = true -> length p <= length s.
Proof. intros H; apply starts_with_iff in H as [t ->]. rewrite app_length; lia. Qed.
Lemma starts_with_false p s : starts_with p s = false <-> ~ exists t, s = p ++ t.
Proof. rewrite <- starts_with_iff. destruct (starts_with p s); split; congruence. Qed.

Lemma strip_prefix_some p s t : strip_prefix p s = Some t <-> s = p ++ t.
Proof.
  revert s; induction p as [|x p IH]; intros s; cbn.
  - split; congruence.
  - destruct s as [|y s]; [split; congruence|].
    destruct (aeqb x y) eqn:E.
    + apply aeqb_eq in E; subst. rewrite IH. split; [intros ->; auto|intros H; inversion H; auto].
    + apply aeqb_neq in E. split; [congruence|intros H; inversion H; congruence].
Qed.
Lemma strip_prefix_none p s : strip_prefix p s = None <-> starts_with p s = false.
Proof.
  destruct (strip_prefix p s) eqn:E.
  - apply strip_prefix_some in E; subst. rewrite starts_with_app. split; congruence.
  - split; auto. intros _. apply starts_with_false. intros [t ->].
    assert (strip_prefix p (p ++ t) = Some t) by (apply strip_prefix_some; auto). congruence.
Qed.

Lemma ends_with_iff p s : ends_with p s = true <-> exists t, s = t ++ p.
Proof.
  unfold ends_with. rewrite starts_with_iff. split; intros [t H].
  - exists (rev t). rewrite <- (rev_involutive s), H, rev_app_distr, rev_involutive; auto.
  - subst. exists (rev t). apply rev_app_distr.
Qed.
Lemma strip_suffix_some p s t : strip_suffix p s = Some t <-> s = t ++ p.
Proof.
  unfold strip_suffix. destruct (strip_prefix (rev p) (rev s)) eqn:E; cbn.
  - apply strip_prefix_some in E. split.
    + intros H; inversion H; subst. rewrite <- (rev_involutive s), E, rev_app_distr, rev_involutive; auto.
    + intros ->. rewrite rev_app_distr in E. apply app_inv_head in E. subst. rewrite rev_involutive; auto.
  - split; [congruence|]. intros ->. rewrite rev_app_distr in E.
    assert (strip_prefix (rev p) (rev p ++ rev t) = Some (rev t)) by (apply strip_prefix_some; auto).
    congruence.
Qed.

(** ** Occurrences *)

Lemma occurs_at_occurs p s i : occurs_at p s i -> occurs p s.
Proof. intros (u & v & H & _); exists u, v; auto. Qed.

Lemma find_some p s i :
  find p s = Some i -> occurs_at p s i /\ forall j, j < i -> ~ occurs_at p s j.
Proof.
  revert i; induction s as [|c s IH]; intros i; cbn.
  - destruct (starts_with p []) eqn:E; [|congruence]. intros H; inversion H; subst.
    apply starts_with_iff in E as [t E]. split; [|intros; lia].
    exists [], t. auto.
  - destruct (starts_with p (c :: s)) eqn:E.
    + intros H; inversion H; subst. apply starts_with_iff in E as [t E].
      split; [|intros; lia]. exists [], t; auto.
    + destruct (find p s) eqn:F; cbn; [|congruence]. intros H; inversion H; subst.
      destruct (IH _ eq_refl) as [(u & v & -> & L) M]. split.
      * exists (c :: u), v. cbn. auto.
      * intros [|j] Hj (u' & v' & E' & L').
        -- destruct u'; cbn in L'; [|lia]. cbn in E'.
           assert (starts_with p (c :: u ++ p ++ v) = true) by (apply starts_with_iff; eauto).
           congruence.
        -- destruct u' as [|d u']; cbn in L'; [lia|]. cbn in E'. inversion E'; subst.
           apply (M j); [lia|]. exists u', v'. split; auto.
Qed.

Lemma find_none p s : find p s = None -> ~ occurs p s.
Proof.
  induction s as [|c s IH]; cbn.
  - destruct (starts_with p []) eqn:E; [congruence|]. intros _ (u & v & H).
    destruct u; cbn in H; [|congruence]. apply starts_with_false in E. apply E; eauto.
  - destruct (starts_with p (c :: s)) eqn:E; [congruence|].
    destruct (find p s) eqn:F; cbn; [congruence|]. intros _ (u & v & H).
    destruct u as [|d u]; cbn in H.
    + apply starts_with_false in E. apply E; eauto.
    + inversion H; subst. apply IH; auto. exists u, v; auto.
Qed.

Lemma contains_iff p s : contains p s = true <-> occurs p s.
Proof.
  unfold contains. destruct (find p s) eqn:E.
  - split; auto. intros _. apply find_some in E as [E _]. eapply occurs_at_occurs; eauto.
  - split; [congruence|]. intros H; exfalso. eapply find_none; eauto.
Qed.
Lemma contains_false p s : contains p s = false <-> ~ occurs p s.
Proof. rewrite <- contains_iff. destruct (contains p s); split; congruence. Qed.

Lemma find_bound p s i : find p s = Some i -> i + length p <= length s.
Proof.
  intros H. apply find_some in H as [(u & v & -> & <-) _]. rewrite !app_length. lia.
Qed.

Lemma find_unique p s i :
  occurs_at p s i -> (forall j, j < i -> ~ occurs_at p s j) -> find p s = Some i.
Proof.
  intros H M. destruct (find p s) eqn:E.
  - apply find_some in E as [H' M']. destruct (Nat.lt_trichotomy n i) as [L|[->|L]]; auto.
    + exfalso; eapply M; eauto.
    + exfalso; eapply M'; eauto.
  - exfalso. eapply find_none; eauto. eapply occurs_at_occurs; eauto.
Qed.

Lemma occurs_app_l p s t : occurs p s -> occurs p (s ++ t).
Proof. intros (u & v & ->). exists u, (v ++ t). rewrite <- !app_assoc; auto. Qed.
Lemma occurs_app_r p s t : occurs p t -> occurs p (s ++ t).
Proof. intros (u & v & ->). exists (s ++ u), v. rewrite <- !app_assoc; auto. Qed.
Lemma occurs_cons p c t : occurs p t -> occurs p (c :: t).
Proof. apply (occurs_app_r p [c] t). Qed.
Lemma occurs_self p : occurs p p.
Proof. exists [], []. rewrite app_nil_r; auto. Qed.
Lemma occurs_trans p q s : occurs p q -> occurs q s -> occurs p s.
Proof.
  intros (u & v & ->) (a & b & ->). exists (a ++ u), (v ++ b). rewrite <- !app_assoc; auto.
Qed.
Lemma occurs_nil_inv p : occurs p [] -> p = [].
Proof.
  intros (u & v & H). symmetry in H. apply app_eq_nil in H as [_ H]. apply app_eq_nil in H as [H _]; auto.
Qed.
Lemma not_occurs_cons p c s :
  ~ occurs p s -> starts_with p (c :: s) = false -> ~ occurs p (c :: s).
Proof.
  intros H1 H2 (u & v & H). destruct u as [|d u]; cbn in H.
  - apply starts_with_false in H2; apply H2; eauto.
  - inversion H; subst. apply H1. exists u, v; auto.
Qed.

(** Two-byte patterns: an occurrence is a pair of adjacent bytes. *)
Lemma occurs2_cons x y c s :
  occurs [x; y] (c :: s) <-> (c = x /\ (exists t, s = y :: t)) \/ occurs [x; y] s.
Proof.
  split.
  - intros (u & v & H). destruct u as [|d u]; cbn in H; inversion H; subst.
    + left; eauto.
    + right; exists u, v; auto.
  - intros [[-> [t ->]]|H]; [exists [], t; auto|apply occurs_cons; auto].
Qed.
Lemma occurs1_iff x s : occurs [x] s <-> In x s.
Proof.
  split.
  - intros (u & v & ->). apply in_or_app; right; left; auto.
  - intros H. apply in_split in H as (u & v & ->). exists u, v; auto.
Qed.

(** ** trim only removes a prefix and a suffix *)
Lemma trim_start_suffix_n n : forall s, length s <= n -> exists p, s = p ++ trim_start s.
Proof.
  induction n as [|n IH]; intros s Hn.
  - destruct s; [exists []; auto|cbn in Hn; lia].
  - destruct s as [|a r]; [exists []; auto|]. cbn [trim_start]. cbn in Hn.
    destruct (ws1 a).
    + destruct (IH r) as [p Hp]; [lia|]. exists (a :: p). cbn. congruence.
    + destruct r as [|b r2]; [exists []; auto|]. cbn in Hn.
      destruct (ws2 a b).
      * destruct (IH r2) as [p Hp]; [lia|]. exists (a :: b :: p). cbn. congruence.
      * destruct r2 as [|c r3]; [exists []; auto|]. cbn in Hn.
        destruct (ws3 a b c); [|exists []; auto].
        destruct (IH r3) as [p Hp]; [lia|]. exists (a :: b :: c :: p). cbn. congruence.
Qed.
Lemma trim_rev_suffix_n n : forall s, length s <= n -> exists p, s = p ++ trim_rev s.
Proof.
  induction n as [|n IH]; intros s Hn.
  - destruct s; [exists []; auto|cbn in Hn; lia].
  - destruct s as [|a r]; [exists []; auto|]. cbn [trim_rev]. cbn in Hn.
    destruct (ws1 a).
    + destruct (IH r) as [p Hp]; [lia|]. exists (a :: p). cbn. congruence.
    + destruct r as [|b r2]; [exists []; auto|]. cbn in Hn.
      destruct (ws2 b a).
      * destruct (IH r2) as [p Hp]; [lia|]. exists (a :: b :: p). cbn. congruence.
      * destruct r2 as [|c r3]; [exists []; auto|]. cbn in Hn.
        destruct (ws3 c b a); [|exists []; auto].
        destruct (IH r3) as [p Hp]; [lia|]. exists (a :: b :: c :: p). cbn. congruence.
Qed.
Lemma trim_start_suffix s : exists p, s = p ++ trim_start s.
Proof. eapply trim_start_suffix_n; eauto. Qed.
Lemma trim_end_prefix s : exists q, s = trim_end s ++ q.
Proof.
  unfold trim_end. destruct (trim_rev_suffix_n (length (rev s)) (rev s) (le_n _)) as [p Hp].
  exists (rev p). rewrite <- rev_app_distr, <- Hp, rev_involutive. auto.
Qed.
Lemma trim_infix s : exists p q, s = p ++ trim s ++ q.
Proof.
  unfold trim. destruct (trim_start_suffix s) as [p Hp].
  destruct (trim_end_prefix (trim_start s)) as [q Hq]. exists p, q. congruence.
Qed.
Lemma occurs_trim p s : occurs p (trim s) -> occurs p s.
Proof.
  intros H. destruct (trim_infix s) as (a & b & E). rewrite E.
  apply occurs_app_r, occurs_app_l; auto.
Qed.
Lemma trim_length s : length (trim s) <= length s.
Proof.
  destruct (trim_infix s) as (a & b & E). rewrite E at 2. rewrite !app_length. lia.
Qed.
Lemma trim_start_idem_n n : forall s, length s <= n -> trim_start (trim_start s) = trim_start s.
Proof.
  induction n as [|n IH]; intros s Hn.
  - destruct s; [auto|cbn in Hn; lia].
  - destruct s as [|a r]; [auto|]. cbn in Hn. cbn [trim_start].
    destruct (ws1 a) eqn:E1; [apply IH; lia|].
    destruct r as [|b r2].
    { cbn. rewrite E1. auto. }
    cbn in Hn. destruct (ws2 a b) eqn:E2; [apply IH; lia|].
    destruct r2 as [|c r3].
    { cbn. rewrite E1, E2. auto. }
    cbn in Hn. destruct (ws3 a b c) eqn:E3; [apply IH; lia|].
    cbn. rewrite E1, E2, E3. auto.
Qed.
Lemma trim_nil : trim [] = [].
Proof. reflexivity. Qed.

Lemma occurs_skipn p n s : occurs p (skipn n s) -> occurs p s.
Proof. intros H. rewrite <- (firstn_skipn n s). apply occurs_app_r; auto. Qed.
Lemma occurs_firstn p n s : occurs p (firstn n s) -> occurs p s.
Proof. intros H. rewrite <- (firstn_skipn n s). apply occurs_app_l; auto. Qed.

(** ** slices *)
Lemma skipn_skipn {A} m n (s : list A) : skipn m (skipn n s) = skipn (n + m) s.
Proof. revert s; induction n as [|n IH]; intros [|x s]; cbn; auto using skipn_nil. Qed.
Lemma slice_nil_eq n s : slice n n s = [].
Proof. unfold slice. rewrite Nat.sub_diag. auto. Qed.
Lemma slice_split a b c s : a <= b <= c -> slice a b s ++ slice b c s = slice a c s.
Proof.
  unfold slice. intros H.
  replace (c - a) with ((b - a) + (c - b)) by lia.
  assert (E : skipn b s = skipn (b - a) (skipn a s)).
  { rewrite skipn_skipn. f_equal. lia. }
  rewrite E. generalize (skipn a s) (b - a) (c - b). clear.
  intros s m n. revert s. induction m as [|m IH]; intros [|x s]; cbn; auto.
  - rewrite !firstn_nil. auto.
  - f_equal. apply IH.
Qed.
Lemma slice_skipn a b s : a <= b -> slice a b s ++ skipn b s = skipn a s.
Proof.
  unfold slice. intros H.
  assert (E : skipn b s = skipn (b - a) (skipn a s)).
  { rewrite skipn_skipn. f_equal. lia. }
  rewrite E. apply firstn_skipn.
Qed.
Lemma occurs_slice p a b s : occurs p (slice a b s) -> occurs p s.
Proof. intros H. eapply occurs_skipn, occurs_firstn; eauto. Qed.
Lemma slice_length a b s : a <= b -> b <= length s -> length (slice a b s) = b - a.
Proof. intros. unfold slice. rewrite firstn_length, skipn_length. lia. Qed.
Lemma slice_app_mid u v w : slice (length u) (length u + length v) (u ++ v ++ w) = v.
Proof.
  unfold slice. rewrite skipn_app, Nat.sub_diag, skipn_all. cbn.
  replace (length u + length v - length u) with (length v) by lia.
  rewrite firstn_app, firstn_all, Nat.sub_diag. cbn. apply app_nil_r.
Qed.

(** ** join *)
Lemma join_cons sep x y r : join sep (x :: y :: r) = x ++ sep ++ join sep (y :: r).
Proof. reflexivity. Qed.
