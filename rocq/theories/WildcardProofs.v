(** * Wildcard matching (utils.rs 566-608) *)

From Verif Require Import Bytes BytesFacts Json Utils ConstantsGen Spec.

(** ** Specification *)

(** ** chars *)
Lemma chars_concat s : concat (chars s) = s.
Proof.
  induction s as [|c s IH]; cbn; auto.
  destruct (chars s) as [|[|d h] t] eqn:E; cbn in *.
  - subst; auto.
  - congruence.
  - destruct (is_cont d); cbn; congruence.
Qed.
Lemma chars_inj s t : chars s = chars t -> s = t.
Proof. intros H. rewrite <- (chars_concat s), H. apply chars_concat. Qed.
Lemma chars_nonempty s : Forall (fun c => c <> []) (chars s).
Proof.
  induction s as [|c s IH]; cbn; auto.
  destruct (chars s) as [|[|d h] t]; cbn in *.
  - repeat constructor; discriminate.
  - constructor; [discriminate|exact IH].
  - inversion IH; subst. destruct (is_cont d); repeat (constructor; try discriminate); auto.
Qed.

(** ** match_rec computes [wild] *)
Lemma beq_cases f :
  f = B "\" \/ f = B "." \/ f = B "?" \/ f = B "*" \/ f = B "~" \/
  (f <> B "\" /\ f <> B "." /\ f <> B "?" /\ f <> B "*" /\ f <> B "~").
Proof.
  destruct (beq_spec f (B "\")); [tauto|]. destruct (beq_spec f (B ".")); [tauto|].
  destruct (beq_spec f (B "?")); [tauto|]. destruct (beq_spec f (B "*")); [tauto|].
  destruct (beq_spec f (B "~")); tauto.
Qed.

Lemma mr_esc rest text : match_rec (B "\" :: rest) text =
  match rest, text with e :: rest', t :: text' => match_rec rest' text' && beq t e | _, _ => false end.
Proof. reflexivity. Qed.
Lemma mr_dot rest text : match_rec (B "." :: rest) text =
  match_rec rest text || match text with _ :: text' => match_rec rest text' | [] => false end.
Proof. reflexivity. Qed.
Lemma mr_one rest text : match_rec (B "?" :: rest) text =
  match text with _ :: text' => match_rec rest text' | [] => false end.
Proof. reflexivity. Qed.
Lemma mr_star rest text : match_rec (B "*" :: rest) text =
  match_rec rest text || match text with _ :: text' => match_rec (B "*" :: rest) text' | [] => false end.
Proof. destruct text; reflexivity. Qed.
Lemma mr_tilde rest text : match_rec (B "~" :: rest) text = is_empty text.
Proof. reflexivity. Qed.

Lemma match_star rest text :
  match_rec (B "*" :: rest) text = true <-> exists u t, text = u ++ t /\ match_rec rest t = true.
Proof.
  induction text as [|c text IH].
  - rewrite mr_star. split.
    + intros H. exists [], []. rewrite orb_false_r in H. auto.
    + intros (u & t & E & H). symmetry in E. apply app_eq_nil in E as [-> ->]. rewrite H. auto.
  - rewrite mr_star, orb_true_iff. split.
    + intros [H|H]; [exists [], (c :: text); auto|].
      apply IH in H as (u & t & -> & H). exists (c :: u), t. auto.
    + intros ([|d u] & t & E & H); cbn in E.
      * subst. auto.
      * inversion E; subst. right. apply IH. eauto.
Qed.

Lemma match_rec_lit f rest text :
  f <> B "\" -> f <> B "." -> f <> B "?" -> f <> B "*" -> f <> B "~" ->
  match_rec (f :: rest) text =
  match text with t :: text' => if beq f t then match_rec rest text' else false | [] => false end.
Proof.
  intros H1 H2 H3 H4 H5. cbn [match_rec].
  apply beq_neq in H1, H2, H3, H4, H5. rewrite H1, H2, H3, H4, H5. auto.
Qed.

Lemma match_rec_sound_n n : forall pat text,
  length pat <= n -> match_rec pat text = true -> wild pat text.
Proof.
  induction n as [|n IH]; intros pat text Hn H.
  - destruct pat; cbn in Hn; [|lia]. cbn in H. destruct text; [constructor|discriminate].
  - destruct pat as [|f rest].
    { cbn in H. destruct text; [constructor|discriminate]. }
    cbn in Hn.
    destruct (beq_cases f) as [->|[->|[->|[->|[->|(N1 & N2 & N3 & N4 & N5)]]]]].
    + rewrite mr_esc in H. destruct rest as [|e rest]; [discriminate|]. destruct text as [|t text]; [discriminate|].
      rewrite andb_true_iff in H. destruct H as [H E]. apply beq_eq in E; subst.
      constructor. apply IH; auto. cbn in Hn; lia.
    + rewrite mr_dot, orb_true_iff in H. destruct H as [H|H].
      * apply w_opt_none. apply IH; auto; lia.
      * destruct text; [discriminate|]. apply w_opt_one. apply IH; auto; lia.
    + rewrite mr_one in H. destruct text; [discriminate|]. apply w_any_one. apply IH; auto; lia.
    + apply match_star in H as (u & t & -> & H). apply w_many. apply IH; auto; lia.
    + rewrite mr_tilde in H. destruct text; [constructor|discriminate].
    + rewrite match_rec_lit in H by auto. destruct text as [|t text]; [discriminate|].
      destruct (beq_spec f t); [subst|discriminate]. apply w_lit; auto. apply IH; auto; lia.
Qed.

Lemma match_rec_complete pat text : wild pat text -> match_rec pat text = true.
Proof.
  induction 1.
  - reflexivity.
  - rewrite match_rec_lit by auto. rewrite beq_refl. auto.
  - rewrite mr_esc, IHwild, beq_refl. auto.
  - rewrite mr_one. auto.
  - rewrite mr_dot, IHwild. auto.
  - rewrite mr_dot, IHwild. apply orb_true_r.
  - apply match_star. eauto.
  - reflexivity.
Qed.

Lemma match_rec_iff pat text : match_rec pat text = true <-> wild pat text.
Proof. split; [apply match_rec_sound_n with (n := length pat); auto|apply match_rec_complete]. Qed.

Lemma wildcard_match_iff text pattern :
  wildcard_match text pattern = true <-> wild (chars pattern) (chars text).
Proof. apply match_rec_iff. Qed.

(** ** C02 *)

Lemma chars_bytes s c a : In c (chars s) -> In a c -> In a s.
Proof.
  intros H1 H2. rewrite <- (chars_concat s). apply in_concat. eauto.
Qed.

Lemma wild_literal p t :
  Forall (fun c => c <> B "\" /\ c <> B "." /\ c <> B "?" /\ c <> B "*" /\ c <> B "~") p ->
  wild p t -> p = t.
Proof.
  intros F W. revert F.
  induction W as [|c p t M1 M2 M3 M4 M5 W IH|c p t W IH|c p t W IH|p t W IH|c p t W IH|u p t W IH|p];
    intros F; auto; apply Forall_cons_iff in F as [(N1 & N2 & N3 & N4 & N5) F'];
    try (exfalso; congruence).
  f_equal; auto.
Qed.
Lemma wild_refl_literal p :
  Forall (fun c => c <> B "\" /\ c <> B "." /\ c <> B "?" /\ c <> B "*" /\ c <> B "~") p -> wild p p.
Proof.
  induction 1 as [|c p (N1 & N2 & N3 & N4 & N5) F]; constructor; auto.
Qed.

Lemma literal_chars w : (forall a, In a w -> wildcard_byte a = false) ->
  Forall (fun c => c <> B "\" /\ c <> B "." /\ c <> B "?" /\ c <> B "*" /\ c <> B "~") (chars w).
Proof.
  intros H. apply Forall_forall. intros c Hc.
  repeat split; intros ->;
  match goal with Hc : In (B ?s) _ |- _ =>
    match s with String ?a _ =>
      assert (In a w) as Hin by (eapply chars_bytes; [exact Hc|left; reflexivity]);
      specialize (H _ Hin); vm_compute in H; discriminate end end.
Qed.

Lemma wildcard_literal text word :
  (forall a, In a word -> wildcard_byte a = false) ->
  wildcard_match text word = true <-> text = word.
Proof.
  intros H. rewrite wildcard_match_iff. pose proof (literal_chars _ H) as F. split.
  - intros W. apply wild_literal in W; auto. symmetry. apply chars_inj; auto.
  - intros ->. apply wild_refl_literal; auto.
Qed.

(** ** C03: chars of well-formed text *)
Definition ascii7 (a : ascii) : bool := (N_of_ascii a <? 128)%N.

(** no continuation byte follows an ASCII byte *)
Fixpoint aligned (s : bytes) : Prop :=
  match s with
  | a :: r =>
      match r with b :: _ => ascii7 a = true -> is_cont b = false | [] => True end /\ aligned r
  | [] => True
  end.

Lemma utf8_first a r : utf8_valid (a :: r) = true -> is_cont a = false.
Proof.
  unfold is_cont. intros H. destruct ((128 <=? N_of_ascii a)%N && (N_of_ascii a <? 192)%N) eqn:E; auto.
  exfalso. apply andb_true_iff in E as [E1 E2]. apply N.leb_le in E1. apply N.ltb_lt in E2.
  cbn [utf8_valid] in H. unfold in_range in H.
  destruct ((0 <=? N_of_ascii a) && (N_of_ascii a <=? 127))%N eqn:E3.
  { apply andb_true_iff in E3 as [_ E3]. apply N.leb_le in E3. lia. }
  destruct r as [|b r]; [discriminate|].
  destruct ((194 <=? N_of_ascii a) && (N_of_ascii a <=? 223))%N eqn:E4.
  { apply andb_true_iff in E4 as [E4 _]. apply N.leb_le in E4. lia. }
  destruct r as [|c r]; [discriminate|].
  destruct ((224 <=? N_of_ascii a) && (N_of_ascii a <=? 239))%N eqn:E5.
  { apply andb_true_iff in E5 as [E5 _]. apply N.leb_le in E5. lia. }
  destruct r as [|d r]; [discriminate|].
  destruct ((240 <=? N_of_ascii a) && (N_of_ascii a <=? 244))%N eqn:E6; [|discriminate].
  apply andb_true_iff in E6 as [E6 _]. apply N.leb_le in E6. lia.
Qed.

Lemma in_range_not7 lo hi a : (128 <= lo)%N -> in_range lo hi a = true -> ascii7 a = false.
Proof.
  unfold in_range, ascii7. intros H E. apply andb_true_iff in E as [E _]. apply N.leb_le in E.
  apply N.ltb_ge. lia.
Qed.

Lemma aligned_cons a s : ascii7 a = false -> aligned s -> aligned (a :: s).
Proof. intros H A. split; auto. destruct s; [exact I|congruence]. Qed.

Lemma utf8_aligned_n n : forall s, length s <= n -> utf8_valid s = true -> aligned s.
Proof.
  induction n as [|n IH]; intros s Hn H.
  - destruct s; [exact I|cbn in Hn; lia].
  - destruct s as [|a r]; [exact I|]. cbn in Hn. cbn [utf8_valid] in H.
    destruct (in_range 0 127 a) eqn:R0.
    + assert (aligned r) as A by (apply IH; auto; lia).
      split; auto. destruct r as [|b r]; [exact I|]. intros _. eapply utf8_first; eauto.
    + assert (ascii7 a = false) as Na.
      { unfold in_range in R0. unfold ascii7. apply andb_false_iff in R0 as [R0|R0].
        - apply N.leb_gt in R0. lia.
        - apply N.leb_gt in R0. apply N.ltb_ge. lia. }
      destruct r as [|b r]; [discriminate|].
      destruct (in_range 194 223 a).
      { apply andb_true_iff in H as [H1 H2]. apply in_range_not7 in H1; [|lia].
        apply aligned_cons; auto. apply aligned_cons; auto. apply IH; auto. cbn in Hn; lia. }
      destruct r as [|c r]; [discriminate|].
      destruct (in_range 224 239 a).
      { apply andb_true_iff in H as [H1 H2]. apply andb_true_iff in H1 as [H1 H3].
        apply in_range_not7 in H3; [|lia].
        assert (ascii7 b = false) as Nb.
        { destruct (in_range 224 224 a); [apply in_range_not7 in H1; auto; lia|].
          destruct (in_range 237 237 a); apply in_range_not7 in H1; auto; lia. }
        repeat (apply aligned_cons; auto). apply IH; auto. cbn in Hn; lia. }
      destruct r as [|d r]; [discriminate|].
      repeat rewrite andb_true_iff in H. destruct H as [[[[_ H1] H2] H3] H4].
      apply in_range_not7 in H2; [|lia]. apply in_range_not7 in H3; [|lia].
      assert (ascii7 b = false) as Nb.
      { destruct (in_range 240 240 a); [apply in_range_not7 in H1; auto; lia|].
        destruct (in_range 244 244 a); apply in_range_not7 in H1; auto; lia. }
      repeat (apply aligned_cons; auto). apply IH; auto. cbn in Hn; lia.
Qed.
Lemma utf8_aligned s : utf8_valid s = true -> aligned s.
Proof. apply utf8_aligned_n with (n := length s); auto. Qed.

Lemma aligned_tail a s : aligned (a :: s) -> aligned s.
Proof. intros [_ H]. exact H. Qed.

Lemma chars_cons_ascii a s : ascii7 a = true -> aligned (a :: s) -> chars (a :: s) = [a] :: chars s.
Proof.
  intros H A. cbn [chars].
  destruct (chars s) as [|[|d h] t] eqn:E; auto.
  assert (exists r, s = d :: r) as [r ->].
  { rewrite <- (chars_concat s), E. cbn. eauto. }
  cbn in A. destruct A as [A _]. rewrite A; auto.
Qed.

(** An ASCII char followed by anything is a char of its own wherever it stands. *)
Lemma aligned_app_r u s : aligned (u ++ s) -> aligned s.
Proof. induction u as [|a u IH]; cbn [app]; auto. intros H. apply aligned_tail in H. auto. Qed.

Lemma chars_app_ascii u a s : ascii7 a = true -> aligned (a :: s) ->
  chars (u ++ a :: s) = chars u ++ [a] :: chars s.
Proof.
  intros H A. induction u as [|c u IH].
  - cbn [app]. rewrite chars_cons_ascii; auto.
  - cbn [app chars]. rewrite IH. destruct (chars u) as [|[|d h] t] eqn:E; cbn; auto.
    + assert (is_cont a = false) as ->; auto.
      unfold ascii7 in H. unfold is_cont. apply N.ltb_lt in H.
      destruct (128 <=? N_of_ascii a)%N eqn:E2; auto. apply N.leb_le in E2. lia.
    + destruct (is_cont d); auto.
Qed.

Lemma wild_star p t : wild (B "*" :: p) t <-> exists u v, t = u ++ v /\ wild p v.
Proof.
  split.
  - intros H. apply match_rec_complete in H. apply match_star in H as (u & v & -> & H).
    exists u, v. split; auto. apply match_rec_iff; auto.
  - intros (u & v & -> & H). constructor; auto.
Qed.
Lemma wild_star_all t : wild [B "*"] t.
Proof. rewrite <- (app_nil_r t). constructor. constructor. Qed.

Lemma default_traversal_words :
  split_whitespace (get_from_key (idx (idx DEFAULT_SCHEMA (B "inherit")) (B "declare")) (B "traversal"))
  = traversal_words.
Proof. vm_compute. reflexivity. Qed.

Lemma chars_first_ascii a s r : chars s = [a] :: r -> exists s', s = a :: s'.
Proof. intros H. rewrite <- (chars_concat s), H. cbn. eauto. Qed.

Lemma wild_esc_inv e p t : wild (B "\" :: e :: p) t -> exists t', t = e :: t' /\ wild p t'.
Proof.
  intros H. apply match_rec_iff in H. rewrite mr_esc in H. destruct t as [|c t]; [discriminate|].
  apply andb_true_iff in H as [H1 H2]. apply beq_eq in H2 as ->. exists t. split; auto.
  apply match_rec_iff; auto.
Qed.
Lemma wild_slash_inv p t : wild (B "/" :: p) t -> exists t', t = B "/" :: t' /\ wild p t'.
Proof.
  intros H. apply match_rec_iff in H. cbn [match_rec] in H.
  change (beq (B "/") (B "\")) with false in H. change (beq (B "/") (B ".")) with false in H.
  change (beq (B "/") (B "?")) with false in H. change (beq (B "/") (B "*")) with false in H.
  change (beq (B "/") (B "~")) with false in H. cbn [match_rec] in H.
  destruct t as [|c t]; [discriminate|].
  destruct (beq_spec (B "/") c) as [<-|]; [|discriminate]. exists t. split; auto.
  apply match_rec_iff; auto.
Qed.

Lemma traversal_match p : aligned p ->
  (exists w, In w traversal_words /\ wildcard_match p w = true) <-> traversal_path p.
Proof.
  intros A. unfold traversal_path. split.
  - intros (w & [<-|[<-|[<-|[]]]] & H); apply wildcard_match_iff in H.
    + change (chars (B "/*")) with [B "/"; B "*"] in H.
      apply wild_slash_inv in H as (t' & H & _). left. eapply chars_first_ascii; eauto.
    + change (chars (B "\\*")) with [B "\"; B "\"; B "*"] in H.
      apply wild_esc_inv in H as (t' & H & _). right; left. eapply chars_first_ascii; eauto.
    + change (chars (B "*\.\.*")) with [B "*"; B "\"; B "."; B "\"; B "."; B "*"] in H.
      apply wild_star in H as (u & v & E & H).
      apply wild_esc_inv in H as (t' & -> & H). apply wild_esc_inv in H as (t2 & -> & _).
      right; right. rewrite <- (chars_concat p), E. exists (concat u), (concat t2).
      rewrite concat_app. reflexivity.
  - intros [[r ->]|[[r ->]|(u & v & ->)]].
    + exists (B "/*"). split; [left; auto|]. apply wildcard_match_iff.
      rewrite chars_cons_ascii by (auto; reflexivity).
      change (chars (B "/*")) with [B "/"; B "*"]. apply w_lit; try discriminate. apply wild_star_all.
    + exists (B "\\*"). split; [right; left; auto|]. apply wildcard_match_iff.
      rewrite chars_cons_ascii by (auto; reflexivity).
      change (chars (B "\\*")) with [B "\"; B "\"; B "*"].
      apply (w_escaped [("\"%char)]). apply wild_star_all.
    + exists (B "*\.\.*"). split; [right; right; left; auto|]. apply wildcard_match_iff.
      change (chars (B "*\.\.*")) with [B "*"; B "\"; B "."; B "\"; B "."; B "*"].
      change (u ++ B ".." ++ v) with (u ++ "."%char :: "."%char :: v) in *.
      apply aligned_app_r in A.
      rewrite chars_app_ascii by (auto; reflexivity).
      rewrite chars_cons_ascii by (try reflexivity; eapply aligned_tail; eauto).
      apply w_many. apply (w_escaped ["."%char]). apply (w_escaped ["."%char]). apply wild_star_all.
Qed.

(** chars lists the characters *)
Lemma is_cont_range a : is_cont a = in_range 128 191 a.
Proof.
  unfold is_cont, in_range. destruct (128 <=? N_of_ascii a)%N eqn:E; cbn; auto.
  destruct (N.ltb_spec (N_of_ascii a) 192), (N.leb_spec (N_of_ascii a) 191); auto; lia.
Qed.
Lemma chars_conts r : forall l, Forall one_char l -> Forall (fun b => in_range 128 191 b = true) r ->
  r <> [] -> chars (concat l) = l -> chars (r ++ concat l) = r :: l.
Proof.
  induction r as [|b r IH]; intros l Hl Hr NE E; [congruence|].
  apply Forall_cons_iff in Hr as [Hb Hr]. cbn [app chars].
  destruct r as [|b' r].
  - cbn [app]. rewrite E. destruct l as [|c l]; auto.
    apply Forall_cons_iff in Hl as [(a & x & -> & Ha & _) _]. rewrite is_cont_range, Ha. auto.
  - rewrite IH by (auto; discriminate). apply Forall_cons_iff in Hr as [Hb' _].
    rewrite is_cont_range, Hb'. auto.
Qed.
Lemma chars_concat_id l : Forall one_char l -> chars (concat l) = l.
Proof.
  induction l as [|c l IH]; intros H; auto. apply Forall_cons_iff in H as [(a & r & -> & Ha & Hr) Hl].
  specialize (IH Hl). cbn [concat app chars]. destruct r as [|b r].
  - cbn [app]. rewrite IH. destruct l as [|d l]; auto.
    apply Forall_cons_iff in Hl as [(x & y & -> & Hx & _) _]. rewrite is_cont_range, Hx. auto.
  - rewrite (chars_conts (b :: r) l Hl Hr) by (auto; discriminate).
    apply Forall_cons_iff in Hr as [Hb _]. rewrite is_cont_range, Hb. auto.
Qed.
Lemma characters_chars s l : characters s l -> chars s = l.
Proof. intros [<- F]. apply chars_concat_id, F. Qed.
Lemma wildcard_match_characters text pattern tl pl :
  characters text tl -> characters pattern pl ->
  wildcard_match text pattern = true <-> wild pl tl.
Proof.
  intros H1 H2. rewrite wildcard_match_iff, (characters_chars _ _ H1), (characters_chars _ _ H2). tauto.
Qed.
(** valid UTF-8 has characters *)
Lemma utf8_characters_n n : forall s, length s <= n -> utf8_valid s = true -> exists l, characters s l.
Proof.
  induction n as [|n IH]; intros s Hn V.
  { destruct s; [|cbn in Hn; lia]. exists []. split; auto. }
  destruct s as [|a r]; [exists []; split; auto|]. cbn [length] in Hn. pose proof (utf8_first a r V) as Fa.
  rewrite is_cont_range in Fa. cbn [utf8_valid] in V.
  assert (forall x rest, Forall (fun b => in_range 128 191 b = true) x -> r = x ++ rest ->
          utf8_valid rest = true -> exists l, characters (a :: r) l) as K.
  { intros x rest Hx -> Vr. destruct (IH rest) as (l & E & F); auto.
    { rewrite app_length in Hn. lia. }
    exists ((a :: x) :: l). split; [cbn; rewrite E; auto|]. constructor; auto. exists a, x. auto. }
  assert (forall b lo hi, (128 <= lo)%N -> (hi <= 191)%N -> in_range lo hi b = true -> in_range 128 191 b = true) as W.
  { intros b lo hi H1 H2 H. unfold in_range in *. apply andb_true_iff in H as [X Y].
    apply N.leb_le in X. apply N.leb_le in Y. apply andb_true_iff; split; apply N.leb_le; lia. }
  destruct (in_range 0 127 a).
  { apply (K [] r); auto. }
  destruct r as [|b r2]; [discriminate|]. destruct (in_range 194 223 a).
  { apply andb_true_iff in V as [V1 V2]. apply (K [b] r2); auto. }
  destruct r2 as [|c r3]; [discriminate|]. destruct (in_range 224 239 a).
  { apply andb_true_iff in V as [V1 V2]. apply andb_true_iff in V1 as [V0 V1].
    apply (K [b; c] r3); auto. constructor; auto.
    destruct (in_range 224 224 a); [eapply W; [| |exact V0]; lia|].
    destruct (in_range 237 237 a); [eapply W; [| |exact V0]; lia|auto]. }
  destruct r3 as [|d r4]; [discriminate|].
  apply andb_true_iff in V as [V1 V2]. apply andb_true_iff in V1 as [V1 V3]. apply andb_true_iff in V1 as [V1 V4].
  apply andb_true_iff in V1 as [_ V1].
  apply (K [b; c; d] r4); auto. constructor; auto.
  destruct (in_range 240 240 a); [eapply W; [| |exact V1]; lia|].
  destruct (in_range 244 244 a); [eapply W; [| |exact V1]; lia|auto].
Qed.
Lemma utf8_characters s : utf8_valid s = true -> exists l, characters s l.
Proof. apply (utf8_characters_n (length s)); lia. Qed.
