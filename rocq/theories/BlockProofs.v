(** * Block extraction, code position and comments (utils.rs 172-253, 464-552) *)

From Verif Require Import Bytes BytesFacts Json Utils Spec.

(** ** Specification: well-formed template text *)

Scheme wf_item_mut := Induction for wf_item Sort Prop
  with wf_items_mut := Induction for wf_items Sort Prop.
Combined Scheme wf_item_ind2 from wf_item_mut, wf_items_mut.

(** ** Scanning lemmas *)
Lemma starts_byte_cons c d s : starts_byte c (d :: s) <-> d = c.
Proof. split; [intros [r E]; congruence|intros ->; exists s; auto]. Qed.
Lemma starts_byte_nil c : ~ starts_byte c [].
Proof. intros [r E]; discriminate. Qed.
Lemma ends_byte_nil c : ~ ends_byte c [].
Proof. intros [[|] E]; discriminate. Qed.
Lemma ends_byte_snoc c d s : ends_byte c (s ++ [d]) <-> d = c.
Proof.
  split; [intros [r E]; apply app_inj_tail in E as [_ E]; auto|intros ->; exists s; auto].
Qed.
Lemma ends_byte_app c s t : t <> [] -> ends_byte c (s ++ t) <-> ends_byte c t.
Proof.
  intros N. destruct (exists_last N) as (u & d & ->). rewrite app_assoc, !ends_byte_snoc. tauto.
Qed.
Lemma ends_byte_cons1 c d : ends_byte c [d] <-> d = c.
Proof. apply (ends_byte_snoc c d []). Qed.
Lemma last_app_ne {A} (s t : list A) d : t <> [] -> last (s ++ t) d = last t d.
Proof.
  intros N. destruct (exists_last N) as (u & x & ->). rewrite app_assoc, !last_last. auto.
Qed.
Lemma last_default {A} (s : list A) d d' : s <> [] -> last s d = last s d'.
Proof. intros N. destruct (exists_last N) as (u & x & ->). rewrite !last_last. auto. Qed.
Lemma last_ends c s d : last s d = c -> s <> [] -> ends_byte c s.
Proof.
  intros E N. destruct (exists_last N) as (u & x & ->). rewrite last_last in E. subst. exists u; auto.
Qed.
Lemma last_cons {A} (c : A) t d : last (c :: t) d = last t c.
Proof. destruct t as [|x t]; auto. change (last (c :: x :: t) d) with (last (x :: t) d). apply last_default. discriminate. Qed.
Lemma last_app {A} (s t : list A) d : last (s ++ t) d = last t (last s d).
Proof.
  destruct t as [|x t]; [rewrite app_nil_r; auto|].
  rewrite last_app_ne by discriminate. apply last_default. discriminate.
Qed.
Lemma omap_add a b (o : option nat) :
  option_map (Nat.add a) (option_map (Nat.add b) o) = option_map (Nat.add (a + b)) o.
Proof. destruct o; cbn; auto. f_equal. lia. Qed.
Lemma omap_0 (o : option nat) : option_map (Nat.add 0) o = o.
Proof. destruct o; auto. Qed.
Lemma omap_S (o : option nat) : option_map S o = option_map (Nat.add 1) o.
Proof. destruct o; auto. Qed.

Lemma omap_SS (o : option nat) : option_map S (option_map S o) = option_map (Nat.add 2) o.
Proof. destruct o; auto. Qed.
Lemma omap_SSS (o : option nat) : option_map S (option_map S (option_map S o)) = option_map (Nat.add 3) o.
Proof. destruct o; auto. Qed.

Lemma no_open_pair prev t : ~ occurs (B "{:") (prev :: t) ->
  forall r, t = c_colon :: r -> aeqb prev c_lbrace = false.
Proof.
  intros N r ->. apply aeqb_neq. intros ->. apply N. exists [], r. reflexivity.
Qed.
Lemma not_occurs_tl p c s : ~ occurs p (c :: s) -> ~ occurs p s.
Proof. intros N H. apply N. apply occurs_cons; auto. Qed.

Lemma cb_step prev c r nested : close_bif prev (c :: r) nested =
      if aeqb c c_colon then
        match r with
        | [] => None
        | n :: _ =>
            if aeqb prev c_lbrace then option_map S (close_bif c r (S nested))
            else if aeqb n c_rbrace then
                   match nested with
                   | S k => option_map S (close_bif c r k)
                   | O => Some 2
                   end
            else option_map S (close_bif c r nested)
        end
      else option_map S (close_bif c r nested).
Proof. reflexivity. Qed.
Lemma cc_step prev c r nested : close_comment prev (c :: r) nested =
      if aeqb c c_colon then
        match r with
        | [] => None
        | n :: _ =>
            if aeqb prev c_lbrace && aeqb n c_star then option_map S (close_comment c r (S nested))
            else if aeqb prev c_star && aeqb n c_rbrace then
                   match nested with
                   | S k => option_map S (close_comment c r k)
                   | O => Some 2
                   end
            else option_map S (close_comment c r nested)
        end
      else option_map S (close_comment c r nested).
Proof. reflexivity. Qed.

(** the scan [close_bif] *)
Lemma cb_lit t : forall prev rest n,
  ~ occurs (B "{:") (prev :: t) -> ~ occurs (B ":}") t ->
  ~ (ends_byte ":" t /\ starts_byte "}" rest) ->
  close_bif prev (t ++ rest) n = option_map (Nat.add (length t)) (close_bif (last t prev) rest n).
Proof.
  induction t as [|c t IH]; intros prev rest n N1 N2 N3; [rewrite omap_0; auto|].
  assert (close_bif c (t ++ rest) n = option_map (Nat.add (length t)) (close_bif (last t c) rest n)) as E.
  { apply IH.
    - eapply not_occurs_tl; eauto.
    - eapply not_occurs_tl; eauto.
    - intros [[u ->] S]. apply N3. split; auto. exists (c :: u). auto. }
  assert (option_map S (close_bif c (t ++ rest) n) =
          option_map (Nat.add (length (c :: t))) (close_bif (last (c :: t) prev) rest n)) as E2.
  { rewrite E, omap_S, omap_add, last_cons. auto. }
  cbn [app close_bif]. destruct (aeqb c c_colon) eqn:Ec; auto. apply aeqb_eq in Ec; subst.
  rewrite (no_open_pair _ _ N1 _ eq_refl).
  destruct (t ++ rest) as [|d r] eqn:Er.
  - rewrite <- E2. auto.
  - assert (aeqb d c_rbrace = false) as ->; auto.
    apply aeqb_neq. intros ->. destruct t as [|x t].
    + cbn in Er. apply N3. split; [exists []; auto|subst; exists r; auto].
    + cbn in Er. inversion Er; subst. apply N2. exists [], t. auto.
Qed.
Lemma cb_open prev r n :
  close_bif prev (B "{:" ++ r) n = option_map (Nat.add 2) (close_bif c_colon r (S n)).
Proof.
  cbn [app B list_ascii_of_string]. rewrite cb_step. change (aeqb "{" c_colon) with false. cbv iota.
  rewrite cb_step. change (aeqb ":" c_colon) with true. cbv iota.
  destruct r as [|d r]; auto. change (aeqb "{" c_lbrace) with true. cbv iota.
  change ":"%char with c_colon. rewrite omap_SS. auto.
Qed.
Lemma cb_close prev r n : prev <> "{"%char ->
  close_bif prev (B ":}" ++ r) (S n) = option_map (Nat.add 2) (close_bif c_rbrace r n).
Proof.
  intros N. cbn [app B list_ascii_of_string]. rewrite cb_step.
  change (aeqb ":" c_colon) with true. cbv iota.
  apply aeqb_neq in N. change c_lbrace with "{"%char. rewrite N.
  change (aeqb "}" c_rbrace) with true. cbv iota. rewrite cb_step.
  change (aeqb "}" c_colon) with false. cbv iota.
  change "}"%char with c_rbrace. rewrite omap_SS. auto.
Qed.
Lemma cb_end prev r : prev <> "{"%char -> close_bif prev (B ":}" ++ r) 0 = Some 2.
Proof.
  intros N. cbn [app B list_ascii_of_string]. rewrite cb_step.
  change (aeqb ":" c_colon) with true. cbv iota.
  apply aeqb_neq in N. change c_lbrace with "{"%char. rewrite N.
  change (aeqb "}" c_rbrace) with true. auto.
Qed.

(** the scan [close_comment] *)
Lemma cc_lit t : forall prev rest n,
  ~ occurs (B "{:") (prev :: t) -> ~ occurs (B ":}") t ->
  ~ (ends_byte ":" t /\ starts_byte "}" rest) ->
  close_comment prev (t ++ rest) n =
  option_map (Nat.add (length t)) (close_comment (last t prev) rest n).
Proof.
  induction t as [|c t IH]; intros prev rest n N1 N2 N3; [rewrite omap_0; auto|].
  assert (close_comment c (t ++ rest) n = option_map (Nat.add (length t)) (close_comment (last t c) rest n)) as E.
  { apply IH.
    - eapply not_occurs_tl; eauto.
    - eapply not_occurs_tl; eauto.
    - intros [[u ->] S]. apply N3. split; auto. exists (c :: u). auto. }
  assert (option_map S (close_comment c (t ++ rest) n) =
          option_map (Nat.add (length (c :: t))) (close_comment (last (c :: t) prev) rest n)) as E2.
  { rewrite E, omap_S, omap_add, last_cons. auto. }
  cbn [app close_comment]. destruct (aeqb c c_colon) eqn:Ec; auto. apply aeqb_eq in Ec; subst.
  rewrite (no_open_pair _ _ N1 _ eq_refl).
  destruct (t ++ rest) as [|d r] eqn:Er.
  - rewrite <- E2. auto.
  - cbn [andb]. assert (aeqb d c_rbrace = false) as ->; [|rewrite andb_false_r; auto].
    apply aeqb_neq. intros ->. destruct t as [|x t].
    + cbn in Er. apply N3. split; [exists []; auto|subst; exists r; auto].
    + cbn in Er. inversion Er; subst. apply N2. exists [], t. auto.
Qed.
(* "{:" not followed by '*' *)
Lemma cc_open_bif prev r n : ~ starts_byte "*" r ->
  close_comment prev (B "{:" ++ r) n = option_map (Nat.add 2) (close_comment c_colon r n).
Proof.
  intros N. cbn [app B list_ascii_of_string]. rewrite cc_step. change (aeqb "{" c_colon) with false. cbv iota.
  rewrite cc_step. change (aeqb ":" c_colon) with true. cbv iota.
  destruct r as [|d r]; auto.
  assert (aeqb d c_star = false) as ->. { apply aeqb_neq. intros ->. apply N. exists r. auto. }
  rewrite andb_false_r. change (aeqb "{" c_star) with false. cbn [andb].
  change ":"%char with c_colon. rewrite omap_SS. auto.
Qed.
Lemma cc_open_comment prev r n :
  close_comment prev (B "{:*" ++ r) n = option_map (Nat.add 3) (close_comment c_star r (S n)).
Proof.
  cbn [app B list_ascii_of_string]. rewrite cc_step. change (aeqb "{" c_colon) with false. cbv iota.
  rewrite cc_step.
  change (aeqb ":" c_colon) with true. cbv iota. change (aeqb "{" c_lbrace && aeqb "*" c_star) with true.
  cbv iota. rewrite cc_step. change (aeqb "*" c_colon) with false. cbv iota.
  change "*"%char with c_star. rewrite omap_SSS. auto.
Qed.
(* ":}" not preceded by '*' nor '{' *)
Lemma cc_close_bif prev r n : prev <> "*"%char ->
  close_comment prev (B ":}" ++ r) n = option_map (Nat.add 2) (close_comment c_rbrace r n).
Proof.
  intros N. cbn [app B list_ascii_of_string]. rewrite cc_step.
  change (aeqb ":" c_colon) with true. cbv iota.
  apply aeqb_neq in N. change c_star with "*"%char. rewrite N.
  change (aeqb "}" "*") with false. rewrite andb_false_r. cbn [andb]. rewrite cc_step.
  change (aeqb "}" c_colon) with false. cbv iota.
  change "}"%char with c_rbrace. rewrite omap_SS. auto.
Qed.
Lemma cc_close_comment prev r n :
  close_comment prev (B "*:}" ++ r) (S n) = option_map (Nat.add 3) (close_comment c_rbrace r n).
Proof.
  cbn [app B list_ascii_of_string]. rewrite cc_step.
  change (aeqb "*" c_colon) with false. cbv iota. rewrite cc_step. change (aeqb ":" c_colon) with true. cbv iota.
  change (aeqb "*" c_lbrace && aeqb "}" c_star) with false.
  change (aeqb "*" c_star && aeqb "}" c_rbrace) with true. cbv iota. rewrite cc_step.
  change (aeqb "}" c_colon) with false. cbv iota.
  change "}"%char with c_rbrace. rewrite omap_SSS. auto.
Qed.
Lemma cc_end prev r : close_comment prev (B "*:}" ++ r) 0 = Some 3.
Proof.
  cbn [app B list_ascii_of_string]. rewrite cc_step.
  change (aeqb "*" c_colon) with false. cbv iota. rewrite cc_step. change (aeqb ":" c_colon) with true. cbv iota.
  change (aeqb "*" c_lbrace && aeqb "}" c_star) with false.
  change (aeqb "*" c_star && aeqb "}" c_rbrace) with true. auto.
Qed.

(** ** Boundaries of items *)
Lemma texts_cons i l : texts (i :: l) = text_of i ++ texts l.
Proof. reflexivity. Qed.
Lemma text_ne inc i : wf_item inc i -> text_of i <> [].
Proof. intros H; inversion H; subst; cbn; auto; discriminate. Qed.
Lemma wf_lit_inv inc t : wf_item inc (TLit t) ->
  t <> [] /\ ~ occurs (B "{:") t /\ ~ occurs (B ":}") t.
Proof. intros H; inversion H; subst; auto. Qed.

Lemma nonlit_starts i : ~ is_lit i -> starts_byte "{" (text_of i).
Proof. destruct i; intros N; [exfalso; apply N; eexists; eauto| |]; eexists; reflexivity. Qed.
Lemma nonlit_last i d : ~ is_lit i -> last (text_of i) d = "}"%char.
Proof.
  destruct i; intros N; [exfalso; apply N; eexists; eauto| |]; cbn [text_of];
    rewrite !last_app; reflexivity.
Qed.
Lemma nonlit_ends i c : ~ is_lit i -> ends_byte c (text_of i) -> c = "}"%char.
Proof.
  intros N [r E]. rewrite <- (nonlit_last i c N), E, last_last. auto.
Qed.

(** after an item the next text of the list never completes a delimiter *)
Lemma next_ok inc i l rest :
  wf_items inc (i :: l) -> ~ (ends_byte ":" (texts (i :: l)) /\ starts_byte "}" rest) ->
  ~ (ends_byte ":" (text_of i) /\ starts_byte "}" (texts l ++ rest)).
Proof.
  intros W N [H1 H2]. inversion W as [|? ? ? Wi Wl H5]; subst.
  destruct i as [t|b|b]; [|apply nonlit_ends in H1; [discriminate|intros [? X]; discriminate X]..].
  destruct l as [|j l].
  - apply N. rewrite texts_cons. cbn [texts flat_map]. rewrite app_nil_r. auto.
  - specialize (H5 (ex_intro _ t eq_refl)). apply nonlit_starts in H5 as [r E].
    rewrite texts_cons, E in H2. cbn in H2. apply starts_byte_cons in H2. discriminate.
Qed.
Lemma prev_ok inc i l prev :
  wf_items inc (i :: l) ->
  ~ (last (text_of i) prev = "{"%char /\ starts_byte ":" (texts l)).
Proof.
  intros W [H1 H2]. inversion W as [|? ? ? Wi Wl H5]; subst.
  destruct i as [t|b|b]; [|rewrite nonlit_last in H1 by (intros [? X]; discriminate X); discriminate..].
  destruct l as [|j l]; [apply starts_byte_nil in H2; auto|].
  specialize (H5 (ex_intro _ t eq_refl)). apply nonlit_starts in H5 as [r E].
  rewrite texts_cons, E in H2. cbn in H2. apply starts_byte_cons in H2. discriminate.
Qed.
Lemma ends_texts_tl inc c i l : wf_items inc (i :: l) -> ends_byte c (texts l) -> ends_byte c (texts (i :: l)).
Proof. intros W [r E]. rewrite texts_cons, E. exists (text_of i ++ r). rewrite app_assoc. auto. Qed.

Lemma occurs_prev_lit prev t : ~ occurs (B "{:") t -> ~ (prev = "{"%char /\ starts_byte ":" t) ->
  ~ occurs (B "{:") (prev :: t).
Proof.
  intros N1 N2 H. apply occurs2_cons in H as [H|H]; [|tauto].
  destruct H as [-> [r ->]]. apply N2. split; auto. exists r. auto.
Qed.

Definition scans (close : ascii -> bytes -> nat -> option nat) (t : bytes) : Prop :=
  forall prev rest n,
  ~ (prev = "{"%char /\ starts_byte ":" t) ->
  ~ (ends_byte ":" t /\ starts_byte "}" rest) ->
  close prev (t ++ rest) n = option_map (Nat.add (length t)) (close (last t prev) rest n).

Lemma scans_cons close inc i l : wf_items inc (i :: l) ->
  scans close (text_of i) -> scans close (texts l) -> scans close (texts (i :: l)).
Proof.
  intros W S1 S2 prev rest n N1 N2. rewrite texts_cons, <- app_assoc.
  assert (text_of i <> []) as NE by (inversion W; subst; eapply text_ne; eauto).
  rewrite S1.
  - rewrite S2.
    + rewrite omap_add, app_length, last_app. auto.
    + eapply prev_ok; eauto.
    + intros [H1 H2]. apply N2. split; auto. eapply ends_texts_tl; eauto.
  - intros [-> [r E]]. apply N1. split; auto. rewrite texts_cons, E. exists (r ++ texts l). auto.
  - eapply next_ok; eauto.
Qed.

Lemma wf_scans_bif :
  (forall inc i, wf_item inc i -> scans close_bif (text_of i)) /\
  (forall inc l, wf_items inc l -> scans close_bif (texts l)).
Proof.
  apply wf_item_ind2.
  - intros inc t NE N1 N2 prev rest n H1 H2. cbn [text_of]. apply cb_lit; auto.
    apply occurs_prev_lit; auto.
  - intros inc b W S Ns Ne Nc prev rest n H1 H2. cbn [text_of].
    change (flat_map text_of b) with (texts b).
    rewrite <- !app_assoc, cb_open. rewrite S; [|intros [X _]; discriminate X|intros [_ [? X]]; discriminate X].
    rewrite cb_close.
    + rewrite !omap_add. rewrite !app_length, !last_app. cbn [B list_ascii_of_string length last].
      first [reflexivity | f_equal; f_equal; lia].
    + intros E. apply Ne. destruct (texts b) as [|x r] eqn:Eb; [discriminate E|].
      eapply last_ends; eauto. discriminate.
  - intros inc b W S prev rest n H1 H2. cbn [text_of].
    change (flat_map text_of b) with (texts b).
    change (B "{:*") with (B "{:" ++ B "*"). rewrite <- !app_assoc, cb_open.
    rewrite (cb_lit (B "*")).
    2:{ intros (u & v & E). destruct u as [|? [|? [|]]]; discriminate E. }
    2:{ intros (u & v & E). destruct u as [|? [|]]; discriminate E. }
    2:{ intros [H _]. apply ends_byte_cons1 in H. discriminate. }
    rewrite S; [|intros [X _]; discriminate X|intros [_ [? X]]; discriminate X].
    change (B "*:}") with (B "*" ++ B ":}"). rewrite <- app_assoc.
    rewrite (cb_lit (B "*")).
    2:{ intros (u & v & E). destruct u as [|? [|? [|]]]; discriminate E. }
    2:{ intros (u & v & E). destruct u as [|? [|]]; discriminate E. }
    2:{ intros [H _]. apply ends_byte_cons1 in H. discriminate. }
    rewrite cb_close by discriminate.
    rewrite !omap_add. rewrite !app_length, !last_app. cbn [B list_ascii_of_string length last].
    first [reflexivity | f_equal; f_equal; lia].
  - intros inc prev rest n _ _. cbn. rewrite omap_0. auto.
  - intros inc i l W S W2 S2 A. eapply scans_cons; eauto. econstructor; eauto.
Qed.

Lemma wf_scans_comment :
  (forall inc i, wf_item inc i -> inc = true -> scans close_comment (text_of i)) /\
  (forall inc l, wf_items inc l -> inc = true -> scans close_comment (texts l)).
Proof.
  apply wf_item_ind2.
  - intros inc t NE N1 N2 _ prev rest n H1 H2. cbn [text_of]. apply cc_lit; auto.
    apply occurs_prev_lit; auto.
  - intros inc b W S Ns Ne Nc -> prev rest n H1 H2. cbn [text_of].
    change (flat_map text_of b) with (texts b).
    rewrite <- !app_assoc, cc_open_bif.
    2:{ destruct (texts b) as [|x r]; intros [? X]; [discriminate X|].
        apply Ns. cbn in X. inversion X; subst. eexists; eauto. }
    rewrite S; [|auto|intros [X _]; discriminate X|intros [_ [? X]]; discriminate X].
    rewrite cc_close_bif.
    + rewrite !omap_add. rewrite !app_length, !last_app. cbn [B list_ascii_of_string length last].
      first [reflexivity | f_equal; f_equal; lia].
    + intros E. apply (Nc eq_refl). destruct (texts b) as [|x r] eqn:Eb; [discriminate E|].
      eapply last_ends; eauto. discriminate.
  - intros inc b W S _ prev rest n H1 H2. cbn [text_of].
    change (flat_map text_of b) with (texts b). rewrite <- !app_assoc, cc_open_comment.
    rewrite S; [|auto|intros [X _]; discriminate X|intros [_ [? X]]; discriminate X].
    rewrite cc_close_comment.
    rewrite !omap_add. rewrite !app_length, !last_app. cbn [B list_ascii_of_string length last].
    first [reflexivity | f_equal; f_equal; lia].
  - intros inc _ prev rest n _ _. cbn. rewrite omap_0. auto.
  - intros inc i l W S W2 S2 A ->. eapply scans_cons; eauto. econstructor; eauto.
Qed.

(** ** C16 *)
Lemma close_body_bif b rest : wf_item false (TBif b) ->
  close_body (texts b ++ B ":}" ++ rest) = Some (length (texts b) + 2).
Proof.
  intros W. inversion W as [|? ? W2 Ns Ne Nc|]; subst.
  assert (close_bif c_colon (texts b ++ B ":}" ++ rest) 0 = Some (length (texts b) + 2)) as E.
  { rewrite (proj2 wf_scans_bif _ _ W2); [|intros [X _]; discriminate X|intros [_ [? X]]; discriminate X].
    rewrite cb_end; auto.
    intros E. apply Ne. destruct (texts b) as [|x r] eqn:Eb; [discriminate E|].
    eapply last_ends; eauto. discriminate. }
  unfold close_body. destruct (texts b) as [|x r] eqn:Eb; auto.
  cbn [app] in *. assert (aeqb x c_star = false) as ->; auto.
  apply aeqb_neq. intros ->. apply Ns. exists r. auto.
Qed.
Lemma close_body_comment b rest : wf_item false (TComment b) ->
  close_body (B "*" ++ texts b ++ B "*:}" ++ rest) = Some (length (texts b) + 4).
Proof.
  intros W. inversion W as [| |? ? W2]; subst. unfold close_body. cbn [app B list_ascii_of_string].
  change (aeqb "*" c_star) with true. cbv iota.
  change ("*"%char :: texts b ++ "*"%char :: ":"%char :: "}"%char :: rest)
    with (B "*" ++ texts b ++ B "*:}" ++ rest).
  rewrite (cc_lit (B "*")).
  2:{ intros (u & v & E). destruct u as [|? [|? [|]]]; discriminate E. }
  2:{ intros (u & v & E). destruct u as [|? [|]]; discriminate E. }
  2:{ intros [H _]. apply ends_byte_cons1 in H. discriminate. }
  rewrite (proj2 wf_scans_comment _ _ W2); [|auto|intros [X _]; discriminate X|intros [_ [? X]]; discriminate X].
  rewrite cc_end. cbn [option_map length B list_ascii_of_string]. f_equal. lia.
Qed.

Lemma scan_skip k : forall pos s, k <= length s -> scan_blocks k pos s = scan_blocks 0 (pos + k) (skipn k s).
Proof.
  induction k as [|k IH]; intros pos s H; [rewrite Nat.add_0_r; auto|].
  destruct s as [|c s]; [cbn in H; lia|]. cbn [scan_blocks skipn]. cbn in H. rewrite IH by lia.
  f_equal. lia.
Qed.
Lemma scan_lit t : forall pos rest,
  ~ occurs (B "{:") t -> ~ (ends_byte "{" t /\ starts_byte ":" rest) ->
  scan_blocks 0 pos (t ++ rest) = scan_blocks 0 (pos + length t) rest.
Proof.
  induction t as [|c t IH]; intros pos rest N1 N2; [rewrite Nat.add_0_r; auto|].
  cbn [app scan_blocks].
  assert (starts_with BIF_OPEN (c :: t ++ rest) = false) as ->.
  { apply starts_with_false. intros [r E]. inversion E; subst. destruct t as [|d t].
    - cbn in H1. apply N2. split; [exists []; auto|subst; eexists; reflexivity].
    - cbn in H1. inversion H1; subst. apply N1. exists [], t. auto. }
  rewrite IH.
  - f_equal. cbn. lia.
  - eapply not_occurs_tl; eauto.
  - intros [[u ->] S]. apply N2. split; auto. exists (c :: u). auto.
Qed.

Lemma scan_block pos body e rest :
  close_body (body ++ rest) = Some e -> e = length body ->
  scan_blocks 0 pos (B "{:" ++ body ++ rest) =
  (pos, pos + 2 + e) :: scan_blocks 0 (pos + 2 + e) rest.
Proof.
  intros H ->. cbn [app B list_ascii_of_string].
  set (s := ("{"%char :: ":"%char :: body ++ rest)).
  assert (scan_blocks 0 pos s =
    if starts_with BIF_OPEN s then
      match close_body (skipn 2 s) with
      | Some e => (pos, pos + 2 + e) :: scan_blocks (1 + e) (S pos) (":"%char :: body ++ rest)
      | None => scan_blocks 1 (S pos) (":"%char :: body ++ rest)
      end
    else scan_blocks 0 (S pos) (":"%char :: body ++ rest)) as -> by reflexivity.
  change (starts_with BIF_OPEN s) with true. cbv iota.
  change (skipn 2 s) with (body ++ rest). rewrite H. f_equal.
  rewrite scan_skip by (cbn; rewrite app_length; lia). cbn [plus skipn].
  rewrite skipn_app, Nat.sub_diag, skipn_all. cbn. f_equal. lia.
Qed.

Lemma scan_items l : forall pos, wf_items false l -> scan_blocks 0 pos (texts l) = spans pos l.
Proof.
  induction l as [|i l IH]; intros pos W; auto.
  inversion W as [|? ? ? Wi Wl A]; subst. destruct i as [t|b|b].
  - cbn [texts flat_map text_of spans]. change (flat_map text_of l) with (texts l).
    apply wf_lit_inv in Wi as (NE & N1 & N2). rewrite scan_lit; [apply IH; auto|auto|].
    intros [_ H2]. destruct l as [|j l]; [apply starts_byte_nil in H2; auto|].
    specialize (A (ex_intro _ t eq_refl)). apply nonlit_starts in A as [r E].
    rewrite texts_cons, E in H2. apply starts_byte_cons in H2. discriminate.
  - rewrite texts_cons. cbn [text_of spans].
    change (flat_map text_of b) with (texts b). rewrite <- !app_assoc.
    replace (texts b ++ B ":}" ++ texts l) with ((texts b ++ B ":}") ++ texts l) by (rewrite app_assoc; auto).
    erewrite scan_block; [|rewrite <- app_assoc; apply close_body_bif; auto
                          |rewrite app_length; reflexivity].
    rewrite IH by auto. rewrite !app_length. cbn [B list_ascii_of_string length].
    replace (pos + 2 + (length (texts b) + 2)) with (pos + (2 + (length (texts b) + 2))) by lia. auto.
  - rewrite texts_cons. cbn [text_of spans].
    change (flat_map text_of b) with (texts b). change (B "{:*") with (B "{:" ++ B "*").
    rewrite <- !app_assoc.
    replace (B "*" ++ texts b ++ B "*:}" ++ texts l)
      with ((B "*" ++ texts b ++ B "*:}") ++ texts l) by (rewrite <- !app_assoc; auto).
    erewrite scan_block; [|rewrite <- !app_assoc; apply close_body_comment; auto
                          |rewrite !app_length; cbn [B list_ascii_of_string length]; lia].
    rewrite IH by auto. rewrite !app_length. cbn [B list_ascii_of_string length].
    replace (pos + 2 + (length (texts b) + 4)) with (pos + (2 + (1 + (length (texts b) + 3)))) by lia. auto.
Qed.

Lemma find_none_intro p s : ~ occurs p s -> find p s = None.
Proof.
  intros N. destruct (find p s) eqn:E; auto. exfalso. apply N. apply contains_iff.
  unfold contains. rewrite E. auto.
Qed.

Lemma gaps_items l : forall pre lit,
  wf_items false l -> ~ occurs (B ":}") lit ->
  (lit <> [] -> match l with j :: _ => ~ is_lit j | [] => True end) ->
  check_gaps (pre ++ lit ++ texts l) (length pre) (spans (length pre + length lit) l) = None.
Proof.
  induction l as [|i l IH]; intros pre lit W N A.
  - cbn [texts flat_map spans check_gaps]. rewrite app_nil_r.
    rewrite skipn_app, skipn_all, Nat.sub_diag. cbn [app skipn].
    rewrite find_none_intro; auto.
  - inversion W as [|? ? ? Wi Wl A2]; subst.
    assert (forall e, ~ is_lit i -> e = length (text_of i) ->
      check_gaps (pre ++ lit ++ texts (i :: l)) (length pre)
        ((length pre + length lit, length pre + length lit + e) :: spans (length pre + length lit + e) l) = None) as X.
    { intros e Ni ->. cbn [check_gaps]. rewrite slice_app_mid.
      rewrite find_none_intro by auto.
      specialize (IH (pre ++ lit ++ text_of i) [] Wl).
      rewrite !app_length in IH. cbn [length app] in IH. rewrite Nat.add_0_r in IH.
      rewrite texts_cons. rewrite <- !app_assoc in IH.
      rewrite <- Nat.add_assoc. apply IH; [|congruence].
      intros (u & v & E). symmetry in E. apply app_eq_nil in E as [_ E]. discriminate. }
    destruct i as [t|b|b].
    + destruct lit as [|x lit].
      * cbn [spans text_of]. rewrite texts_cons. cbn [text_of app length].
        rewrite Nat.add_0_r. apply wf_lit_inv in Wi as (NE & N1 & N2).
        apply (IH pre t); auto. intros _. apply A2. eexists; eauto.
      * exfalso. apply A; [discriminate|]. eexists; eauto.
    + cbn [spans]. apply X; auto. intros [? E]; discriminate E.
    + cbn [spans]. apply X; auto. intros [? E]; discriminate E.
Qed.

Lemma extract_items l : wf_items false l -> extract_blocks (texts l) = Blocks (spans 0 l).
Proof.
  intros W. unfold extract_blocks. rewrite scan_items by auto.
  pose proof (gaps_items l [] [] W) as G. cbn [app length] in G.
  change (0 + 0) with 0 in G. rewrite G; auto.
  - intros (u & v & E). symmetry in E. apply app_eq_nil in E as [_ E]. discriminate.
  - congruence.
Qed.

(** ** C17 *)
Lemma close_bif_sound s : forall prev n e, close_bif prev s n = Some e ->
  exists u v, s = u ++ B ":}" ++ v /\ length u + 2 = e.
Proof.
  assert (forall c s o, (forall e, o = Some e -> exists u v, s = u ++ B ":}" ++ v /\ length u + 2 = e) ->
    forall e, option_map S o = Some e -> exists u v, c :: s = u ++ B ":}" ++ v /\ length u + 2 = e) as ST.
  { intros c s0 [x|] H e E; [|discriminate]. inversion E; subst.
    destruct (H x eq_refl) as (u & v & -> & <-). exists (c :: u), v. split; auto. }
  induction s as [|c s IH]; intros prev n e H; [discriminate|].
  cbn [close_bif] in H. destruct (aeqb c c_colon) eqn:Ec.
  - destruct s as [|d s]; [discriminate|].
    destruct (aeqb prev c_lbrace); [eapply ST; eauto|].
    destruct (aeqb d c_rbrace) eqn:Ed; [|eapply ST; eauto].
    destruct n; [|eapply ST; eauto].
    apply aeqb_eq in Ec, Ed. subst. inversion H; subst. exists [], s. auto.
  - eapply ST; eauto.
Qed.
Lemma close_comment_sound s : forall prev n e, close_comment prev s n = Some e ->
  exists u v, s = u ++ B ":}" ++ v /\ length u + 2 = e.
Proof.
  assert (forall c s o, (forall e, o = Some e -> exists u v, s = u ++ B ":}" ++ v /\ length u + 2 = e) ->
    forall e, option_map S o = Some e -> exists u v, c :: s = u ++ B ":}" ++ v /\ length u + 2 = e) as ST.
  { intros c s0 [x|] H e E; [|discriminate]. inversion E; subst.
    destruct (H x eq_refl) as (u & v & -> & <-). exists (c :: u), v. split; auto. }
  induction s as [|c s IH]; intros prev n e H; [discriminate|].
  cbn [close_comment] in H. destruct (aeqb c c_colon) eqn:Ec.
  - destruct s as [|d s]; [discriminate|].
    destruct (aeqb prev c_lbrace && aeqb d c_star); [eapply ST; eauto|].
    destruct (aeqb prev c_star && aeqb d c_rbrace) eqn:Ed; [|eapply ST; eauto].
    destruct n; [|eapply ST; eauto].
    apply andb_true_iff in Ed as [_ Ed].
    apply aeqb_eq in Ec, Ed. subst. inversion H; subst. exists [], s. auto.
  - eapply ST; eauto.
Qed.
Lemma close_body_sound s e : close_body s = Some e ->
  exists u v, s = u ++ B ":}" ++ v /\ length u + 2 = e.
Proof.
  unfold close_body. destruct s as [|c s]; [apply close_bif_sound|].
  destruct (aeqb c c_star); [apply close_comment_sound|apply close_bif_sound].
Qed.

Lemma ordered_weaken src p q l : q <= p -> ordered_spans src p l -> ordered_spans src q l.
Proof. intros H O. inversion O; subst; econstructor; eauto; lia. Qed.

Lemma scan_ordered s : forall k pre, k <= length s ->
  ordered_spans (pre ++ s) (length pre + k) (scan_blocks k (length pre) s).
Proof.
  induction s as [|c s IH]; intros k pre Hk.
  - cbn in *. constructor. rewrite app_length. cbn. lia.
  - assert (forall k', k' <= length s -> ordered_spans (pre ++ c :: s) (length pre + S k') (scan_blocks k' (S (length pre)) s)) as X.
    { intros k' Hk'. specialize (IH k' (pre ++ [c]) Hk'). rewrite app_length in IH. cbn in IH.
      rewrite Nat.add_1_r, <- app_assoc in IH. cbn in IH. replace (length pre + S k') with (S (length pre) + k') by lia.
      auto. }
    destruct k as [|k]; [|cbn in *; apply X; lia].
    cbn [scan_blocks]. destruct (starts_with BIF_OPEN (c :: s)) eqn:SW.
    + apply starts_with_iff in SW as [t E].
      assert (skipn 2 (c :: s) = t) as -> by (rewrite E; auto).
      destruct (close_body t) as [e|] eqn:Ee.
      * apply close_body_sound in Ee as (u & v & -> & <-).
        assert (length s = 1 + (length u + (2 + length v))) as Ls.
        { apply (f_equal (@length _)) in E. rewrite !app_length in E. cbn in E. lia. }
        eapply os_cons with (u := u).
        -- lia.
        -- lia.
        -- rewrite app_length. cbn [length]. lia.
        -- rewrite E. replace (length pre + 2 + (length u + 2))
             with (length pre + length (B "{:" ++ u ++ B ":}")).
           2:{ rewrite !app_length. cbn. lia. }
           replace (pre ++ BIF_OPEN ++ u ++ B ":}" ++ v) with (pre ++ (B "{:" ++ u ++ B ":}") ++ v).
           2:{ rewrite <- !app_assoc. auto. }
           apply slice_app_mid.
        -- replace (length pre + 2 + (length u + 2)) with (length pre + S (1 + (length u + 2))) by lia.
           apply X. lia.
      * eapply ordered_weaken; [|apply (X 1)]; [lia|].
        apply (f_equal (@length _)) in E. rewrite app_length in E. cbn in E. lia.
    + eapply ordered_weaken; [|apply (X 0)]; lia.
Qed.

Lemma check_gaps_none src l : forall p, check_gaps src p l = None ->
  Forall (fun g => ~ occurs (B ":}") g) (gaps src p l).
Proof.
  induction l as [|[a b] l IH]; intros p H; cbn in *.
  - constructor; auto. apply find_none. destruct (find BIF_CLOSE (skipn p src)) eqn:E; [discriminate|auto].
  - destruct (find BIF_CLOSE (slice p a src)) eqn:E; [discriminate|].
    constructor; auto. apply find_none; auto.
Qed.
Lemma check_gaps_some src l : forall p q, ordered_spans src p l -> check_gaps src p l = Some q ->
  occurs_at (B ":}") src q.
Proof.
  assert (forall a p i s, a <= length s -> occurs_at p (skipn a s) i -> occurs_at p s (a + i)) as SK.
  { intros a p i s La (u & v & E & <-). exists (firstn a s ++ u), v.
    rewrite <- app_assoc, <- E, firstn_skipn. split; auto. rewrite app_length, firstn_length_le; auto. }
  assert (forall p s i, find p s = Some i -> occurs_at p s i) as FO.
  { intros p s i F. apply find_some in F. tauto. }
  induction l as [|[a b] l IH]; intros p q O H; cbn in H; inversion O; subst.
  - destruct (find BIF_CLOSE (skipn p src)) eqn:E; [|discriminate]. inversion H; subst.
    apply SK; auto.
  - destruct (find BIF_CLOSE (slice p a src)) eqn:E; [|eapply IH; eauto].
    inversion H; subst. apply SK; [lia|]. apply FO in E as (u0 & v & E & <-).
    exists u0, (v ++ skipn a src). split; auto.
    rewrite <- (slice_skipn p a) by lia. rewrite E, <- !app_assoc. auto.
Qed.

Lemma extract_ordered src l : extract_blocks src = Blocks l ->
  ordered_spans src 0 l /\ Forall (fun g => ~ occurs (B ":}") g) (gaps src 0 l).
Proof.
  unfold extract_blocks. destruct (check_gaps src 0 (scan_blocks 0 0 src)) eqn:E; [discriminate|].
  intros H; inversion H; subst. split.
  - apply (scan_ordered src 0 []). lia.
  - apply check_gaps_none; auto.
Qed.
Lemma extract_unmatched src p : extract_blocks src = Unmatched p -> occurs_at (B ":}") src p.
Proof.
  unfold extract_blocks. destruct (check_gaps src 0 (scan_blocks 0 0 src)) eqn:E; [|discriminate].
  intros H; inversion H; subst. eapply check_gaps_some; eauto.
  apply (scan_ordered src 0 []). lia.
Qed.
Lemma interleave_all src l : forall p, ordered_spans src p l -> interleave src p l = skipn p src.
Proof.
  induction l as [|[a b] l IH]; intros p O; auto. inversion O; subst. cbn.
  rewrite IH by auto. rewrite app_assoc, slice_split by lia. apply slice_skipn. lia.
Qed.

(** ** C19: get_code_position *)

Definition cp_ok (t rest : bytes) : Prop :=
  ~ (ends_byte "{" t /\ starts_byte ":" rest) /\
  ~ (ends_byte ":" t /\ starts_byte "}" rest) /\
  ~ (ends_byte ">" t /\ starts_byte ">" rest).

Lemma cp_step lvl i c d r :
  code_pos lvl i (c :: d :: r) =
      if aeqb c c_lbrace && aeqb d c_colon then code_pos (lvl + 1) (i + 2) r
      else if aeqb c c_colon && aeqb d c_rbrace then code_pos (lvl - 1) (i + 2) r
      else if aeqb c c_gt && aeqb d c_gt then
             if (lvl =? 0)%Z then Some i else code_pos lvl (i + 2) r
      else code_pos lvl (i + 1) (d :: r).
Proof. reflexivity. Qed.
Lemma cp_single lvl i c : code_pos lvl i [c] = None.
Proof. reflexivity. Qed.
Lemma cp_nil lvl i : code_pos lvl i [] = None.
Proof. reflexivity. Qed.

Lemma pair_false a b c d : ~ (a = c /\ b = d) -> aeqb a c && aeqb b d = false.
Proof.
  intros N. destruct (aeqb a c) eqn:E1; auto. destruct (aeqb b d) eqn:E2; auto.
  apply aeqb_eq in E1, E2. tauto.
Qed.
Lemma occurs_pair c d r : occurs [c; d] (c :: d :: r).
Proof. exists [], r. auto. Qed.

Lemma cp_lit_n n : forall t lvl i rest, length t <= n ->
  ~ occurs (B "{:") t -> ~ occurs (B ":}") t -> (lvl <> 0%Z \/ ~ occurs (B ">>") t) -> cp_ok t rest ->
  code_pos lvl i (t ++ rest) = code_pos lvl (i + length t) rest.
Proof.
  induction n as [|n IH]; intros t lvl i rest Hn N1 N2 N3 (K1 & K2 & K3).
  { destruct t; [rewrite Nat.add_0_r; auto|cbn in Hn; lia]. }
  destruct t as [|c t]; [rewrite Nat.add_0_r; auto|]. cbn in Hn.
  assert (forall x, ends_byte x t -> ends_byte x (c :: t)) as EB.
  { intros x [u Eu]. rewrite Eu. exists (c :: u). auto. }
  assert (lvl <> 0%Z \/ ~ occurs (B ">>") t) as N3'.
  { destruct N3 as [?|N3]; [tauto|right; eapply not_occurs_tl; eauto]. }
  assert (cp_ok t rest) as K' by (repeat split; intros [? ?]; intuition).
  assert (code_pos lvl (i + 1) (t ++ rest) = code_pos lvl (i + length (c :: t)) rest) as ST.
  { rewrite (IH t); auto; try lia; try (eapply not_occurs_tl; eauto; fail). f_equal. cbn. lia. }
  destruct t as [|d t].
  - cbn [app] in *. destruct rest as [|d r]; [auto|].
    rewrite cp_step. rewrite !pair_false.
    + exact ST.
    + intros [-> ->]. apply K3. split; [exists []; auto|exists r; auto].
    + intros [-> ->]. apply K2. split; [exists []; auto|exists r; auto].
    + intros [-> ->]. apply K1. split; [exists []; auto|exists r; auto].
  - cbn [app] in *. rewrite cp_step.
    rewrite (pair_false c d c_lbrace) by (intros [-> ->]; apply N1; apply (occurs_pair "{"%char ":"%char)).
    rewrite (pair_false c d c_colon) by (intros [-> ->]; apply N2; apply (occurs_pair ":"%char "}"%char)).
    destruct (aeqb c c_gt && aeqb d c_gt) eqn:E; auto.
    apply andb_true_iff in E as [E1 E2]. apply aeqb_eq in E1, E2. subst.
    destruct N3 as [N3|N3]; [|exfalso; apply N3; apply (occurs_pair ">"%char ">"%char)].
    apply Z.eqb_neq in N3 as N3b. rewrite N3b.
    rewrite (IH t).
    + f_equal. cbn. lia.
    + cbn in Hn. lia.
    + do 2 eapply not_occurs_tl; eauto.
    + do 2 eapply not_occurs_tl; eauto.
    + tauto.
    + assert (forall x, ends_byte x t -> ends_byte x (c_gt :: c_gt :: t)) as EB2.
      { intros x [u Eu]. rewrite Eu. exists (c_gt :: c_gt :: u). auto. }
      repeat split; intros [? ?]; intuition.
Qed.
Lemma cp_lit t lvl i rest :
  ~ occurs (B "{:") t -> ~ occurs (B ":}") t -> (lvl <> 0%Z \/ ~ occurs (B ">>") t) -> cp_ok t rest ->
  code_pos lvl i (t ++ rest) = code_pos lvl (i + length t) rest.
Proof. apply cp_lit_n with (n := length t); auto. Qed.

Lemma cp_open lvl i r : code_pos lvl i (B "{:" ++ r) = code_pos (lvl + 1) (i + 2) r.
Proof. reflexivity. Qed.
Lemma cp_close lvl i r : code_pos lvl i (B ":}" ++ r) = code_pos (lvl - 1) (i + 2) r.
Proof. reflexivity. Qed.

Definition cp_scans (lvl : Z) (t : bytes) : Prop := forall i rest, cp_ok t rest ->
  code_pos lvl i (t ++ rest) = code_pos lvl (i + length t) rest.

Lemma cp_ok_bif c r t : starts_byte c r -> c <> ">"%char -> c <> "}"%char -> (c = ":"%char -> ~ ends_byte "{" t) ->
  cp_ok t r.
Proof.
  intros [u ->] N1 N2 N3. repeat split; intros [E S]; apply starts_byte_cons in S; subst; tauto.
Qed.

Lemma wf_cp_scans :
  (forall inc i, wf_item inc i -> forall lvl, (0 <= lvl)%Z -> (lvl <> 0%Z \/ no_code i) -> cp_scans lvl (text_of i)) /\
  (forall inc l, wf_items inc l -> forall lvl, (0 <= lvl)%Z -> (lvl <> 0%Z \/ Forall no_code l) -> cp_scans lvl (texts l)).
Proof.
  apply wf_item_ind2.
  - intros inc t NE N1 N2 lvl P N3 i rest K. apply cp_lit; auto.
  - intros inc b W S Ns Ne Nc lvl P _ i rest K. cbn [text_of]. change (flat_map text_of b) with (texts b).
    rewrite <- !app_assoc, cp_open. rewrite S.
    + rewrite cp_close. replace (lvl + 1 - 1)%Z with lvl by lia. f_equal. rewrite !app_length. cbn [B list_ascii_of_string length]. lia.
    + lia.
    + left. lia.
    + apply (cp_ok_bif ":"); try discriminate; auto. eexists; reflexivity.
  - intros inc b W S lvl P _ i rest K. cbn [text_of]. change (flat_map text_of b) with (texts b).
    change (B "{:*") with (B "{:" ++ B "*"). change (B "*:}") with (B "*" ++ B ":}").
    rewrite <- !app_assoc, cp_open.
    assert (~ occurs (B "{:") (B "*")) as X1 by (intros (u & v & E); destruct u as [|? [|]]; discriminate E).
    assert (~ occurs (B ":}") (B "*")) as X2 by (intros (u & v & E); destruct u as [|? [|]]; discriminate E).
    assert (forall r, cp_ok (B "*") r) as X3.
    { intros r. repeat split; intros [E _]; apply ends_byte_cons1 in E; discriminate. }
    rewrite (cp_lit (B "*")); auto; [|left; lia]. rewrite S; [|lia|left; lia|].
    2:{ apply (cp_ok_bif "*"); try discriminate; auto. eexists; reflexivity. }
    rewrite (cp_lit (B "*")); auto; [|left; lia].
    rewrite cp_close. replace (lvl + 1 - 1)%Z with lvl by lia. f_equal.
    rewrite !app_length. cbn [B list_ascii_of_string length]. lia.
  - intros inc lvl P _ i rest K. rewrite Nat.add_0_r. auto.
  - intros inc i l W S W2 S2 A lvl P N3 j rest (K1 & K2 & K3).
    assert (wf_items inc (i :: l)) as Wil by (econstructor; eauto).
    assert (forall c, ends_byte c (texts l) -> ends_byte c (texts (i :: l))) as EB.
    { intros c. apply (ends_texts_tl inc); auto. }
    rewrite texts_cons, <- app_assoc. rewrite S; auto.
    + rewrite S2; auto.
      * rewrite app_length. f_equal. lia.
      * destruct N3 as [?|F]; auto. inversion F; auto.
      * repeat split; intros [? ?]; intuition.
    + destruct N3 as [?|F]; auto. inversion F; auto.
    + destruct l as [|k l].
      * cbn [texts flat_map app]. rewrite texts_cons in K1, K2, K3. cbn [texts flat_map] in *. rewrite app_nil_r in *.
        repeat split; auto.
      * destruct i as [t|b|b].
        -- apply (cp_ok_bif "{"); try discriminate.
           specialize (A (ex_intro _ t eq_refl)). apply nonlit_starts in A as [r E].
           rewrite texts_cons, E. eexists; reflexivity.
        -- repeat split; intros [E _]; apply nonlit_ends in E; try discriminate; intros [? X]; discriminate X.
        -- repeat split; intros [E _]; apply nonlit_ends in E; try discriminate; intros [? X]; discriminate X.
Qed.

Lemma code_position_split l rest :
  wf_items false l -> Forall no_code l -> ~ ends_byte ">" (texts l) ->
  get_code_position (texts l ++ B ">>" ++ rest) = Some (length (texts l)).
Proof.
  intros W F N. unfold get_code_position.
  assert (contains BIF_CODE (texts l ++ B ">>" ++ rest) = true) as ->.
  { apply contains_iff. exists (texts l), rest. auto. }
  cbn [negb]. rewrite (proj2 wf_cp_scans _ _ W); [|lia|auto|].
  - reflexivity.
  - repeat split; intros [E S]; apply starts_byte_cons in S; try discriminate; auto.
Qed.
Lemma code_position_none l :
  wf_items false l -> Forall no_code l -> get_code_position (texts l) = None.
Proof.
  intros W F. unfold get_code_position. destruct (negb (contains BIF_CODE (texts l))); auto.
  rewrite <- (app_nil_r (texts l)). rewrite (proj2 wf_cp_scans _ _ W); [reflexivity|lia|auto|].
  repeat split; intros [_ S]; apply starts_byte_nil in S; auto.
Qed.

Lemma code_pos_at_n n : forall s lvl i p, length s <= n -> code_pos lvl i s = Some p ->
  exists u v, s = u ++ B ">>" ++ v /\ i + length u = p.
Proof.
  induction n as [|n IH]; intros s lvl i p Hn H.
  { destruct s; [discriminate|cbn in Hn; lia]. }
  destruct s as [|c [|d r]]; try discriminate. rewrite cp_step in H. cbn in Hn.
  assert (forall lvl', code_pos lvl' (i + 2) r = Some p ->
    exists u v, c :: d :: r = u ++ B ">>" ++ v /\ i + length u = p) as T2.
  { intros lvl' E. apply IH in E as (u & v & -> & <-); [|lia]. exists (c :: d :: u), v. split; auto. cbn. lia. }
  destruct (aeqb c c_lbrace && aeqb d c_colon); [eauto|].
  destruct (aeqb c c_colon && aeqb d c_rbrace); [eauto|].
  destruct (aeqb c c_gt && aeqb d c_gt) eqn:E.
  - destruct (lvl =? 0)%Z; [|eauto]. apply andb_true_iff in E as [E1 E2]. apply aeqb_eq in E1, E2. subst.
    inversion H; subst. exists [], r. split; [auto|cbn; lia].
  - apply IH in H as (u & v & E2 & <-); [|cbn; lia]. exists (c :: u), v. rewrite E2. split; [auto|cbn; lia].
Qed.
Lemma code_position_at s p : get_code_position s = Some p -> occurs_at (B ">>") s p.
Proof.
  unfold get_code_position. destruct (negb (contains BIF_CODE s)); [discriminate|].
  intros H. apply (code_pos_at_n (length s)) in H as (u & v & E & <-); auto. exists u, v. auto.
Qed.

(** ** C55, C56: remove_comments *)

Scheme wf_note_mut := Induction for wf_note Sort Prop
  with wf_notes_mut := Induction for wf_notes Sort Prop.
Combined Scheme wf_note_ind2 from wf_note_mut, wf_notes_mut.

Lemma rci_step prev c r nested i cur : rc_inner prev (c :: r) nested i cur =
      if aeqb c c_colon then
        match r with
        | [] => RcPanic
        | n :: _ =>
            if aeqb prev c_lbrace && aeqb n c_star then rc_inner c r (S nested) (S i) (S i)
            else if aeqb n c_rbrace && aeqb prev c_star then
                   match nested with
                   | S k => rc_inner c r k (S i) (S i)
                   | O => RcClosed (i + 2)
                   end
            else rc_inner c r nested (S i) (S i)
        end
      else rc_inner c r nested (S i) cur.
Proof. reflexivity. Qed.

Lemma rci_text t : forall prev x rest n i cur,
  ~ occurs (B "{:*") (prev :: t ++ [x]) -> ~ occurs (B "*:}") (prev :: t ++ [x]) ->
  exists cur', rc_inner prev (t ++ x :: rest) n i cur = rc_inner (last t prev) (x :: rest) n (i + length t) cur'.
Proof.
  induction t as [|c t IH]; intros prev x rest n i cur N1 N2.
  - exists cur. rewrite Nat.add_0_r. auto.
  - assert (forall cur, exists cur', rc_inner c (t ++ x :: rest) n (S i) cur =
       rc_inner (last (c :: t) prev) (x :: rest) n (i + length (c :: t)) cur') as ST.
    { intros cur0. destruct (IH c x rest n (S i) cur0) as [cur' E].
      - eapply not_occurs_tl; eauto.
      - eapply not_occurs_tl; eauto.
      - exists cur'. rewrite E, last_cons. f_equal. cbn. lia. }
    cbn [app]. rewrite rci_step. destruct (aeqb c c_colon) eqn:Ec; [|apply ST].
    apply aeqb_eq in Ec. subst.
    assert (exists d r r', t ++ x :: rest = d :: r /\ t ++ [x] = d :: r') as (d & r & r' & E1 & E2).
    { destruct t as [|d t]; cbn; eauto. }
    rewrite E1. rewrite !pair_false, <- E1.
    + apply ST.
    + intros [-> ->]. apply N2. cbn [app]. rewrite E2. exists [], r'. auto.
    + intros [-> ->]. apply N1. cbn [app]. rewrite E2. exists [], r'. auto.
Qed.

Lemma occurs3_window a b c prev t x :
  ~ occurs [a; b; c] t -> ~ (prev = a /\ exists r, t ++ [x] = b :: c :: r) ->
  ~ (x = c /\ exists r, t = r ++ [a; b]) ->
  ~ occurs [a; b; c] (prev :: t ++ [x]).
Proof.
  intros N1 N2 N3 (u & v & E). destruct u as [|d u]; cbn in E; inversion E; subst.
  - apply N2. split; eauto.
  - destruct v as [|y v] using rev_ind.
    + change (u ++ [a; b; c]) with (u ++ [a; b] ++ [c]) in H1. rewrite app_assoc in H1.
      apply app_inj_tail in H1 as [-> ->]. apply N3; eauto.
    + clear IHv. change (u ++ a :: b :: c :: v ++ [y]) with (u ++ [a; b; c] ++ v ++ [y]) in H1.
      rewrite !app_assoc in H1. apply app_inj_tail in H1 as [H1 _].
      apply N1. exists u, v. rewrite H1, <- app_assoc. auto.
Qed.

Definition note_pre (prev : ascii) (t : bytes) : Prop :=
  t = [] \/ starts_byte "{" t \/ (prev <> "{"%char /\ (prev = "*"%char -> ~ exists r, t = B ":}" ++ r)).
Definition note_post (t rest : bytes) : Prop :=
  starts_byte "{" rest \/ (starts_byte "*" rest /\ ~ exists r, t = r ++ B "{:").

Definition rci_scans (t : bytes) : Prop := forall prev rest n i cur,
  note_pre prev t -> note_post t rest ->
  exists cur', rc_inner prev (t ++ rest) n i cur = rc_inner (last t prev) rest n (i + length t) cur'.

Lemma rci_open prev r n i cur :
  rc_inner prev (B "{:*" ++ r) n i cur = rc_inner c_star r (S n) (i + 3) (S (S i)).
Proof.
  cbn [app B list_ascii_of_string]. rewrite rci_step. change (aeqb "{" c_colon) with false. cbv iota.
  rewrite rci_step. change (aeqb ":" c_colon) with true. cbv iota.
  change (aeqb "{" c_lbrace && aeqb "*" c_star) with true. cbv iota.
  rewrite rci_step. change (aeqb "*" c_colon) with false. cbv iota.
  replace (S (S (S i))) with (i + 3) by lia. auto.
Qed.
Lemma rci_close prev r n i cur :
  rc_inner prev (B "*:}" ++ r) (S n) i cur = rc_inner c_rbrace r n (i + 3) (S (S i)).
Proof.
  cbn [app B list_ascii_of_string]. rewrite rci_step. change (aeqb "*" c_colon) with false. cbv iota.
  rewrite rci_step. change (aeqb ":" c_colon) with true. cbv iota.
  change (aeqb "*" c_lbrace && aeqb "}" c_star) with false. cbv iota.
  change (aeqb "}" c_rbrace && aeqb "*" c_star) with true. cbv iota.
  rewrite rci_step. change (aeqb "}" c_colon) with false. cbv iota.
  replace (S (S (S i))) with (i + 3) by lia. auto.
Qed.
Lemma rci_end prev r i cur : rc_inner prev (B "*:}" ++ r) 0 i cur = RcClosed (i + 3).
Proof.
  cbn [app B list_ascii_of_string]. rewrite rci_step. change (aeqb "*" c_colon) with false. cbv iota.
  rewrite rci_step. change (aeqb ":" c_colon) with true. cbv iota.
  change (aeqb "*" c_lbrace && aeqb "}" c_star) with false. cbv iota.
  change (aeqb "}" c_rbrace && aeqb "*" c_star) with true. cbv iota. f_equal. lia.
Qed.

Lemma ctexts_cons p l : ctexts (p :: l) = ctext p ++ ctexts l.
Proof. reflexivity. Qed.

Definition rci_part (p : cpart) : Prop :=
  match p with
  | CText t => rci_scans t
  | CNote b => forall prev rest n i cur, exists cur',
      rc_inner prev (ctext (CNote b) ++ rest) n i cur =
      rc_inner "}"%char rest n (i + length (ctext (CNote b))) cur'
  end.

Lemma wf_rci_scans :
  (forall p, wf_note p -> rci_part p) /\ (forall l, wf_notes l -> rci_scans (ctexts l)).
Proof.
  apply wf_note_ind2.
  - intros t NE N1 N2 prev rest n i cur P Q. cbn [ctext].
    assert (exists x r, rest = x :: r /\ x <> "}"%char /\ (x = "*"%char -> ~ exists r, t = r ++ B "{:")) as (x & r & -> & X1 & X2).
    { destruct Q as [[r ->]|[[r ->] Q]]; eexists; exists r; split; try reflexivity; split; try discriminate; auto. }
    apply rci_text.
    + apply occurs3_window; auto; [|intros [-> H]; apply X2; auto].
      intros [-> [r' E]]. destruct t as [|c t]; [congruence|]. cbn in E. inversion E; subst.
      destruct P as [P|[[? P]|[P _]]]; [discriminate P|discriminate P|auto].
    + apply occurs3_window; auto; [|intros [-> _]; auto].
      intros [-> [r' E]]. destruct t as [|c t]; [congruence|]. cbn in E. inversion E; subst.
      destruct P as [P|[[? P]|[_ P]]]; [discriminate P|discriminate P|].
      destruct t as [|d t]; cbn in H1; inversion H1; subst; [auto|].
      apply P; auto. exists t. auto.
  - intros b W S Nb Ne prev rest n i cur. cbn [ctext]. change (flat_map ctext b) with (ctexts b).
    rewrite <- !app_assoc, rci_open.
    destruct (S c_star (B "*:}" ++ rest) (Datatypes.S n) (i + 3) (Datatypes.S (Datatypes.S i))) as [cur' E].
    { right; right. split; [discriminate|auto]. }
    { right. split; [eexists; reflexivity|auto]. }
    rewrite E, rci_close. eexists. rewrite !app_length. cbn [B list_ascii_of_string length].
    replace (i + (3 + (length (ctexts b) + 3))) with (i + 3 + length (ctexts b) + 3) by lia. reflexivity.
  - intros prev rest n i cur _ _. exists cur. cbn. rewrite Nat.add_0_r. auto.
  - intros p l W S W2 S2 A prev rest n i cur P Q. rewrite ctexts_cons, <- app_assoc.
    assert (forall p0, ~ is_text p0 -> starts_byte "{" (ctext p0)) as NT.
    { intros [t|b0] Nt; [exfalso; apply Nt; eexists; eauto|eexists; reflexivity]. }
    assert (note_post (ctexts l) rest) as Ql.
    { destruct Q as [Q|[Q1 Q2]]; [left; auto|right; split; auto].
      intros [r E]. apply Q2. exists (ctext p ++ r). rewrite ctexts_cons, E, app_assoc. auto. }
    destruct p as [t|b].
    + assert (note_post t (ctexts l ++ rest)) as Qt.
      { destruct l as [|q l].
        - cbn [ctexts flat_map app] in *. rewrite app_nil_r in Q. auto.
        - specialize (A (ex_intro _ t eq_refl)). left. apply NT in A as [r E].
          rewrite ctexts_cons, E. eexists; reflexivity. }
      destruct (S prev (ctexts l ++ rest) n i cur) as [cur1 E1]; auto.
      { destruct P as [P|[[r P]|[P1 P2]]].
        - left. apply app_eq_nil in P as [P _]. auto.
        - cbn in P. destruct t as [|c t]; [left; auto|].
          right; left. inversion P; subst. eexists; reflexivity.
        - right; right. split; auto. intros Ep [r E]. apply (P2 Ep). rewrite ctexts_cons. cbn [ctext]. rewrite E, <- app_assoc. eauto. }
      cbn [ctext]. rewrite E1.
      destruct (S2 (last t prev) rest n (i + length t) cur1) as [cur2 E2]; auto.
      { destruct l as [|q l]; [left; auto|].
        specialize (A (ex_intro _ t eq_refl)). apply NT in A as [r E].
        right; left. rewrite ctexts_cons, E. eexists; reflexivity. }
      exists cur2. rewrite E2, app_length, last_app. f_equal. lia.
    + destruct (S prev (ctexts l ++ rest) n i cur) as [cur1 E1]. rewrite E1.
      destruct (S2 "}"%char rest n (i + length (ctext (CNote b))) cur1) as [cur2 E2]; auto.
      { right; right. split; discriminate. }
      exists cur2. rewrite E2, app_length, last_app.
      assert (last (ctext (CNote b)) prev = "}"%char) as -> by (cbn [ctext]; rewrite !last_app; reflexivity).
      f_equal. lia.
Qed.

Lemma rco_step pos cur c s : rc_outer 0 pos cur (c :: s) =
  if starts_with BIF_COMMENT_OPEN (c :: s) then
    match rc_inner c_star (skipn 3 (c :: s)) 0 0 0 with
    | RcClosed e =>
        match rc_outer (2 + e) (S pos) (pos + 3 + e) s with
        | Some (bl, c') => Some ((pos, pos + 3 + e) :: bl, c')
        | None => None
        end
    | RcUnclosed e => Some ([], pos + 3 + e)
    | RcPanic => None
    end
  else rc_outer 0 (S pos) cur s.
Proof. reflexivity. Qed.

Lemma rco_skip k : forall pos cur s, k <= length s -> rc_outer k pos cur s = rc_outer 0 (pos + k) cur (skipn k s).
Proof.
  induction k as [|k IH]; intros pos cur s H; [rewrite Nat.add_0_r; auto|].
  destruct s as [|c s]; [cbn in H; lia|]. cbn [rc_outer skipn]. cbn in H. rewrite IH by lia.
  f_equal. lia.
Qed.
Lemma rco_text t : forall pos cur rest,
  ~ occurs (B "{:*") t -> (rest = [] \/ starts_byte "{" rest) ->
  rc_outer 0 pos cur (t ++ rest) = rc_outer 0 (pos + length t) cur rest.
Proof.
  induction t as [|c t IH]; intros pos cur rest N1 N2; [rewrite Nat.add_0_r; auto|].
  cbn [app]. rewrite rco_step.
  assert (starts_with BIF_COMMENT_OPEN (c :: t ++ rest) = false) as ->.
  { apply starts_with_false. intros [r E]. inversion E; subst.
    destruct t as [|d [|e t]]; cbn in H1.
    - destruct N2 as [->|[r' ->]]; discriminate H1.
    - destruct N2 as [->|[r' ->]]; discriminate H1.
    - inversion H1; subst. apply N1. exists [], t. auto. }
  rewrite IH; auto.
  - f_equal. cbn. lia.
  - eapply not_occurs_tl; eauto.
Qed.
Lemma rco_note b rest pos cur : wf_note (CNote b) ->
  let e := pos + length (ctext (CNote b)) in
  rc_outer 0 pos cur (ctext (CNote b) ++ rest) =
  match rc_outer 0 e e rest with Some (bl, c') => Some ((pos, e) :: bl, c') | None => None end.
Proof.
  intros W e. inversion W as [|? Wb N1 N2]; subst.
  destruct (proj2 wf_rci_scans b Wb c_star (B "*:}" ++ rest) 0 0 0) as [cur' E].
  { right; right. split; [discriminate|auto]. }
  { right. split; [eexists; reflexivity|auto]. }
  rewrite rci_end in E.
  assert (ctext (CNote b) ++ rest = "{"%char :: ":"%char :: "*"%char :: ctexts b ++ B "*:}" ++ rest) as ET.
  { cbn [ctext]. change (flat_map ctext b) with (ctexts b). rewrite <- !app_assoc. reflexivity. }
  assert (length (ctext (CNote b)) = 3 + length (ctexts b) + 3) as EL.
  { cbn [ctext]. change (flat_map ctext b) with (ctexts b). rewrite !app_length.
    cbn [B list_ascii_of_string length]. lia. }
  rewrite ET, rco_step.
  match goal with |- context [starts_with BIF_COMMENT_OPEN ?x] => change (starts_with BIF_COMMENT_OPEN x) with true end.
  cbv iota. cbn [skipn]. rewrite E.
  assert (pos + 3 + (0 + length (ctexts b) + 3) = e) as -> by (unfold e; rewrite EL; lia).
  rewrite rco_skip by (cbn [length]; rewrite !app_length; cbn [B list_ascii_of_string length]; lia).
  assert (S pos + (2 + (0 + length (ctexts b) + 3)) = e) as -> by (unfold e; rewrite EL; lia).
  assert (skipn (2 + (0 + length (ctexts b) + 3)) (":"%char :: "*"%char :: ctexts b ++ B "*:}" ++ rest) = rest) as ->.
  { cbn [plus skipn]. rewrite app_assoc.
    replace (length (ctexts b) + 3) with (length (ctexts b ++ B "*:}")) by (rewrite app_length; auto).
    rewrite skipn_app, skipn_all, Nat.sub_diag. auto. }
  auto.
Qed.

Lemma skipn_pre {A} (u v : list A) : skipn (length u) (u ++ v) = v.
Proof. rewrite skipn_app, skipn_all, Nat.sub_diag. auto. Qed.

Lemma remove_comments_go l : wf_top l -> forall pre lit,
  exists bl c', rc_outer 0 (length pre + length lit) (length pre) (ctexts l) = Some (bl, c') /\
  rc_build (pre ++ lit ++ ctexts l) (length pre) bl ++ skipn c' (pre ++ lit ++ ctexts l) = lit ++ outside l.
Proof.
  induction 1 as [|t l N1 N2 W IH|b l Wn W IH]; intros pre lit.
  - exists [], (length pre). split; auto. cbn [rc_build ctexts outside flat_map app]. rewrite !app_nil_r, skipn_pre. auto.
  - rewrite ctexts_cons. cbn [ctext]. rewrite rco_text; auto.
    + destruct (IH pre (lit ++ t)) as (bl & c' & E1 & E2). rewrite app_length in E1.
      exists bl, c'. rewrite <- Nat.add_assoc. split; auto. rewrite <- !app_assoc in E2. auto.
    + destruct l as [|[t2|b2] l]; [left; auto|exfalso; apply N2; eexists; eauto|right; eexists; reflexivity].
  - rewrite ctexts_cons. rewrite rco_note; auto. cbv zeta.
    destruct (IH (pre ++ lit ++ ctext (CNote b)) []) as (bl & c' & E1 & E2).
    rewrite !app_length in E1. cbn [length] in E1. rewrite Nat.add_0_r in E1. rewrite Nat.add_assoc in E1.
    rewrite E1. eexists _, _. split; [reflexivity|].
    cbn [rc_build]. rewrite slice_app_mid, <- app_assoc. f_equal.
    rewrite !app_length, Nat.add_assoc in E2. cbn [app] in E2. rewrite <- !app_assoc in E2. rewrite E2. auto.
Qed.
Lemma remove_comments_exact l : wf_top l -> remove_comments (ctexts l) = Some (outside l).
Proof.
  intros W. unfold remove_comments. destruct (remove_comments_go l W [] []) as (bl & c' & E1 & E2).
  cbn [length plus] in E1. rewrite E1. f_equal. exact E2.
Qed.

Lemma rci_panic s : forall prev n i cur, rc_inner prev s n i cur = RcPanic -> ends_byte ":" s.
Proof.
  induction s as [|c s IH]; intros prev n i cur H; [discriminate|]. rewrite rci_step in H.
  assert (forall p n i cur, rc_inner p s n i cur = RcPanic -> ends_byte ":" (c :: s)) as ST.
  { intros p n' i' cur' E. apply IH in E as [u ->]. exists (c :: u). auto. }
  destruct (aeqb c c_colon) eqn:Ec; [|eauto].
  destruct s as [|d s]; [exists []; apply aeqb_eq in Ec; subst; auto|].
  destruct (aeqb prev c_lbrace && aeqb d c_star); [eauto|].
  destruct (aeqb d c_rbrace && aeqb prev c_star); [|eauto].
  destruct n; [discriminate|eauto].
Qed.
Lemma rco_panic s : forall k pos cur, rc_outer k pos cur s = None ->
  ends_byte ":" s /\ occurs (B "{:*") s.
Proof.
  induction s as [|c s IH]; intros k pos cur H; [discriminate|].
  assert (forall k pos cur, rc_outer k pos cur s = None -> ends_byte ":" (c :: s) /\ occurs (B "{:*") (c :: s)) as ST.
  { intros k' p' c' E. apply IH in E as [[u ->] O]. split; [exists (c :: u); auto|apply occurs_cons; auto]. }
  destruct k as [|k]; [|cbn in H; eauto]. rewrite rco_step in H.
  destruct (starts_with BIF_COMMENT_OPEN (c :: s)) eqn:E; [|eauto].
  apply starts_with_iff in E as [t E].
  destruct (rc_inner c_star (skipn 3 (c :: s)) 0 0 0) eqn:R; try discriminate.
  - destruct (rc_outer (2 + e) (S pos) (pos + 3 + e) s) as [[? ?]|] eqn:R2; [discriminate|eauto].
  - apply rci_panic in R as [u R]. rewrite E in *. cbn [skipn app BIF_COMMENT_OPEN] in R. subst t.
    split; [exists (BIF_COMMENT_OPEN ++ u); rewrite app_assoc; auto|exists [], (u ++ [":"%char]); auto].
Qed.
Lemma remove_comments_panic s : remove_comments s = None -> ends_byte ":" s /\ occurs (B "{:*") s.
Proof.
  unfold remove_comments. destruct (rc_outer 0 0 0 s) as [[? ?]|] eqn:E; [discriminate|].
  intros _. eapply rco_panic; eauto.
Qed.
