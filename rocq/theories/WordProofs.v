(** * The white-space separated words of a text *)

From Verif Require Import Bytes Json Utils ConstantsGen State Engine Template Spec SpecEngine BytesFacts TemplateProofs TextProofs NumberProofs.

(** the first byte of a white-space char is none of its other bytes *)
Definition lead (a : ascii) : bool := (N_of_ascii a <? 128)%N || (192 <=? N_of_ascii a)%N.

Lemma white_shape c : white c -> exists a r, c = a :: r /\ lead a = true /\ Forall (fun b => lead b = false) r.
Proof.
  intros (n & H & ->). cbn [white_points In] in H.
  repeat (destruct H as [<-|H]; [do 2 eexists; (split; [vm_compute; reflexivity|]); (split; [reflexivity|]); repeat (constructor; try reflexivity)|]).
  destruct H.
Qed.

(** a white-space char does not end inside another *)
Lemma white_no_straddle c d x r r' : white c -> white d -> x <> [] -> x ++ c ++ r = d ++ r' -> exists z, x = d ++ z.
Proof.
  intros Hc Hd Hx E. destruct (white_shape c Hc) as (a & l & -> & La & _).
  destruct (white_shape d Hd) as (b & m & -> & _ & Fm).
  destruct x as [|y x]; [congruence|]. cbn in E. injection E as <- E. clear Hx Hc Hd. revert m r' Fm E.
  induction x as [|z x IH]; intros m r' Fm E.
  - destruct m as [|b m]; [exists []; reflexivity|]. cbn in E. injection E as <- _.
    inversion Fm; congruence.
  - destruct m as [|b m]; [exists (z :: x); reflexivity|]. cbn in E. injection E as <- E.
    inversion Fm; subst. destruct (IH _ _ H2 E) as (w & Ew). exists w. cbn. injection Ew as ->. reflexivity.
Qed.

Lemma white_ne c : white c -> c <> [].
Proof. intro H. destruct (white_shape c H) as (a & r & -> & _). discriminate. Qed.

(** the three steps of the scan *)
Lemma go_white cur c r : white c -> split_ws_go 0 cur (c ++ r) = flush cur (split_ws_go 0 [] r).
Proof.
  intro H. destruct (white_cases c H) as [(a & -> & E)|[(a & b & -> & E)|(a & b & d & -> & E)]]; cbn [app split_ws_go].
  - rewrite E. reflexivity.
  - destruct (ws1 a) eqn:E1; [|rewrite E; reflexivity].
    exfalso. unfold ws1, ws2 in *. destruct (N.eqb_spec (N_of_ascii a) 194) as [E'|]; [|discriminate]. rewrite E' in E1. discriminate.
  - destruct (ws1 a) eqn:E1; [|destruct (ws2 a b) eqn:E2; [|rewrite E; reflexivity]]; exfalso; unfold ws1, ws2, ws3 in *.
    + destruct (N.eqb_spec (N_of_ascii a) 225) as [E'|]; [rewrite E' in E1; discriminate|].
      destruct (N.eqb_spec (N_of_ascii a) 226) as [E'|]; [rewrite E' in E1; discriminate|].
      destruct (N.eqb_spec (N_of_ascii a) 227) as [E'|]; [rewrite E' in E1; discriminate|]. cbn in E. discriminate.
    + destruct (N.eqb_spec (N_of_ascii a) 194) as [E'|]; [|discriminate]. rewrite E' in E. discriminate.
Qed.

Lemma go_push cur a r : (forall c r', white c -> a :: r <> c ++ r') -> split_ws_go 0 cur (a :: r) = split_ws_go 0 (a :: cur) r.
Proof.
  intro H. cbn [split_ws_go].
  destruct (ws1 a) eqn:E1. { exfalso. apply (H [a] r); [apply ws1_white; exact E1|reflexivity]. }
  destruct r as [|b r]; [reflexivity|].
  destruct (ws2 a b) eqn:E2. { exfalso. apply (H [a; b] r); [apply ws2_white; exact E2|reflexivity]. }
  destruct r as [|c r]; [reflexivity|].
  destruct (ws3 a b c) eqn:E3. { exfalso. apply (H [a; b; c] r); [apply ws3_white; exact E3|reflexivity]. }
  reflexivity.
Qed.

Lemma white_start_dec s : (exists c r, white c /\ s = c ++ r) \/ (forall c r, white c -> s <> c ++ r).
Proof.
  destruct s as [|a s]; [right; intros c r H E; apply white_ne in H; destruct c; [congruence|discriminate]|].
  destruct (ws1 a) eqn:E1. { left. exists [a], s. split; [apply ws1_white; exact E1|reflexivity]. }
  assert (forall c r, white c -> a :: s = c ++ r -> exists b s', s = b :: s' /\ ((ws2 a b = true) \/ exists d s'', s' = d :: s'' /\ ws3 a b d = true)) as HW.
  { intros c r H E. destruct (white_cases c H) as [(x & -> & Ex)|[(x & y & -> & Ex)|(x & y & z & -> & Ex)]]; cbn in E; injection E as <- E; [congruence| |].
    - exists y, r. split; [exact E|left; exact Ex].
    - exists y, (z :: r). split; [exact E|right]. exists z, r. split; [reflexivity|exact Ex]. }
  destruct s as [|b s]; [right; intros c r H E; destruct (HW c r H E) as (? & ? & ? & _); discriminate|].
  destruct (ws2 a b) eqn:E2. { left. exists [a; b], s. split; [apply ws2_white; exact E2|reflexivity]. }
  destruct s as [|d s].
  { right; intros c r H E; destruct (HW c r H E) as (x & y & E' & [?|(? & ? & ? & _)]); injection E' as <- <-; [congruence|discriminate]. }
  destruct (ws3 a b d) eqn:E3. { left. exists [a; b; d], s. split; [apply ws3_white; exact E3|reflexivity]. }
  right; intros c r H E; destruct (HW c r H E) as (x & y & E' & [?|(z & ? & E'' & ?)]); injection E' as <- <-; [congruence|].
  injection E'' as <- <-. congruence.
Qed.

Definition no_white (w : bytes) : Prop := forall c, white c -> ~ occurs c w.
Definition white_or_end (v : bytes) : Prop := v = [] \/ exists c v', v = c ++ v' /\ white c.

Lemma go_word w v : white_or_end v -> no_white w -> forall cur, split_ws_go 0 cur (w ++ v) = split_ws_go 0 (rev w ++ cur) v.
Proof.
  intros HV. induction w as [|a w IH]; intros HN cur; [reflexivity|].
  cbn [app rev]. rewrite go_push.
  - rewrite IH, <- app_assoc; [reflexivity|]. intros c Hc (x & y & E). apply (HN c Hc). exists (a :: x), y. rewrite E. reflexivity.
  - intros d r Hd E. destruct HV as [->|(c & v' & -> & Hc)].
    + rewrite app_nil_r in E. apply (HN d Hd). exists [], r. exact E.
    + destruct (white_no_straddle c d (a :: w) v' r Hc Hd ltac:(discriminate) E) as (z & Ez).
      apply (HN d Hd). exists [], z. exact Ez.
Qed.

Lemma go_skip c rest : white c -> forall n u cur, length u <= n -> exists l, split_ws_go 0 cur (u ++ c ++ rest) = l ++ split_ws_go 0 [] rest.
Proof.
  intro Hc. induction n as [|n IH]; intros u cur Hn.
  - destruct u; [|cbn in Hn; lia]. cbn [app]. rewrite go_white by exact Hc.
    unfold flush. destruct cur; [exists []; reflexivity|eexists [_]; reflexivity].
  - destruct u as [|a u]; [apply (IH [] cur); cbn; lia|]. cbn in Hn.
    destruct (white_start_dec ((a :: u) ++ c ++ rest)) as [(d & r & Hd & E)|H].
    + destruct (white_no_straddle c d (a :: u) rest r Hc Hd ltac:(discriminate) E) as (z & Ez).
      rewrite Ez, <- app_assoc, go_white by exact Hd.
      assert (length z <= n) as Hz.
      { apply (f_equal (@length ascii)) in Ez. rewrite app_length in Ez. cbn in Ez. pose proof (white_ne d Hd). destruct d; [congruence|cbn in Ez; lia]. }
      destruct (IH z [] Hz) as (l & ->). unfold flush. destruct cur; [exists l; reflexivity|exists (rev (a0 :: cur) :: l); reflexivity].
    + cbn [app] in H |- *. rewrite go_push by exact H. apply IH. lia.
Qed.

Lemma go_words n : forall s cur w, length s <= n ->
  (forall x y, rev cur = x ++ y -> y <> [] -> forall c r, white c -> y ++ s <> c ++ r) ->
  In w (split_ws_go 0 cur s) ->
  (exists w' v, w = rev cur ++ w' /\ s = w' ++ v /\ w <> [] /\ no_white w /\ white_or_end v) \/
  (exists u c v, s = (u ++ c) ++ w ++ v /\ white c /\ w <> [] /\ no_white w /\ white_or_end v).
Proof.
  assert (forall s cur, white_or_end s -> (forall x y, rev cur = x ++ y -> y <> [] -> forall c r, white c -> y ++ s <> c ++ r) ->
    no_white (rev cur)) as HNW.
  { intros s cur _ H c Hc (x & y & E). apply (H x (c ++ y) E) with (c := c) (r := y ++ s); [|exact Hc|rewrite <- app_assoc; reflexivity].
    intro E'. apply white_ne in Hc. destruct c; [congruence|discriminate]. }
  induction n as [|n IH]; intros s cur w Hn HI HIn.
  - destruct s; [|cbn in Hn; lia]. cbn [split_ws_go] in HIn. unfold flush in HIn.
    destruct cur as [|a cur]; [destruct HIn|]. destruct HIn as [<-|[]]. left. exists [], []. rewrite app_nil_r.
    split; [reflexivity|]. split; [reflexivity|]. split.
    { cbn. intro E. apply app_eq_nil in E as [_ E]. discriminate. }
    split; [apply (HNW []); [left; reflexivity|exact HI]|left; reflexivity].
  - destruct s as [|a s]; [apply (IH [] cur w); [cbn; lia|exact HI|exact HIn]|]. cbn in Hn.
    destruct (white_start_dec (a :: s)) as [(c & r & Hc & E)|H].
    + assert (white_or_end (a :: s)) as HWE by (right; exists c, r; split; assumption).
      pose proof (HNW _ _ HWE HI) as HN. rewrite E in HIn |- *. rewrite go_white in HIn by exact Hc.
      assert (length r <= n) as Hr.
      { apply (f_equal (@length ascii)) in E. rewrite app_length in E. cbn in E. pose proof (white_ne c Hc). destruct c; [congruence|cbn in E; lia]. }
      assert (w = rev cur /\ cur <> [] \/ In w (split_ws_go 0 [] r)) as [[-> HC]|HIn2].
      { unfold flush in HIn. destruct cur; [right; exact HIn|]. destruct HIn as [<-|HIn]; [left; split; [reflexivity|discriminate]|right; exact HIn]. }
      * left. exists [], (c ++ r). rewrite app_nil_r. split; [reflexivity|]. split; [reflexivity|]. split.
        { intro E'. apply (f_equal (@rev ascii)) in E'. rewrite rev_involutive in E'. contradiction. }
        split; [exact HN|]. right. exists c, r. split; [reflexivity|exact Hc].
      * right. destruct (IH r [] w Hr) as [(w' & v & -> & -> & H1 & H2 & H3)|(u & d & v & -> & H1 & H2 & H3 & H4)].
        { intros x y Ex Hy. symmetry in Ex. apply app_eq_nil in Ex as [_ ->]. congruence. }
        { exact HIn2. }
        { exists [], c, v. repeat split; try assumption. }
        { exists (c ++ u), d, v. rewrite <- !app_assoc. repeat split; try assumption. }
    + rewrite go_push in HIn by exact H.
      destruct (IH s (a :: cur) w) as [(w' & v & -> & -> & H1 & H2 & H3)|(u & d & v & -> & H1 & H2 & H3 & H4)]; [lia| |exact HIn| |].
      * intros x y Ex Hy c r Hc E. cbn [rev] in Ex.
        destruct (exists_last Hy) as (y0 & b & ->). rewrite app_assoc in Ex. apply app_inj_tail in Ex as [Ex <-].
        rewrite <- app_assoc in E. cbn [app] in E. destruct y0 as [|b0 y0]; [exact (H c r Hc E)|].
        exact (HI x (b0 :: y0) Ex ltac:(discriminate) c r Hc E).
      * left. exists (a :: w'), v. cbn [rev]. rewrite <- app_assoc. repeat split; try assumption.
        intro E. apply H1. cbn [rev]. rewrite <- app_assoc. exact E.
        cbn [rev] in H2. rewrite <- app_assoc in H2. exact H2.
      * right. exists (a :: u), d, v. repeat split; assumption.
Qed.

Theorem words_exact w t : In w (split_whitespace t) <-> word_of w t.
Proof.
  unfold split_whitespace. split.
  - intro H. destruct (go_words (length t) t [] w (le_n _)) as [(w' & v & -> & -> & H1 & H2 & H3)|(u & c & v & -> & H1 & H2 & H3 & H4)].
    + intros x y Ex Hy. symmetry in Ex. apply app_eq_nil in Ex as [_ ->]. congruence.
    + exact H.
    + exists [], v. split; [reflexivity|]. split; [exact H1|]. split; [exact H2|]. split; [left; reflexivity|exact H3].
    + exists (u ++ c), v. split; [reflexivity|]. split; [exact H2|]. split; [exact H3|]. split; [right; exists u, c; auto|exact H4].
  - intros (u & v & -> & H1 & H2 & H3 & H4).
    assert (In w (split_ws_go 0 [] (w ++ v))) as HW.
    { rewrite go_word by assumption. rewrite app_nil_r. 
      assert (rev w <> []) as HR by (intro E; apply (f_equal (@rev ascii)) in E; rewrite rev_involutive in E; contradiction).
      assert (forall l, In w (flush (rev w) l)) as HF.
      { intro l. unfold flush. destruct (rev w) eqn:E; [congruence|]. left. rewrite <- E. apply rev_involutive. }
      destruct H4 as [->|(c & v' & -> & Hc)]; [cbn [split_ws_go]; apply HF|]. rewrite go_white by exact Hc. apply HF. }
    destruct H3 as [->|(u' & c & -> & Hc)]; [exact HW|].
    rewrite <- app_assoc. destruct (go_skip c (w ++ v) Hc (length u') u' [] (le_n _)) as (l & ->). apply in_or_app. right. exact HW.
Qed.

(** a word is not empty *)
Lemma word_ne w t : In w (split_whitespace t) -> w <> [].
Proof. intro H. apply words_exact in H as (u & v & _ & H & _). exact H. Qed.

(** ** Words, pieces and printed numbers *)

Lemma split_all_white u r : all_white u -> split_whitespace (u ++ r) = split_whitespace r.
Proof.
  intros (l & -> & H). induction H as [|c l Hc H IH]; [reflexivity|].
  cbn [concat]. rewrite <- app_assoc. unfold split_whitespace in *. rewrite go_white by exact Hc. exact IH.
Qed.
Lemma words_split t l : words t l -> split_whitespace t = l.
Proof.
  induction 1 as [t H|u w v l HU HW HN HV H IH].
  - rewrite <- (app_nil_r t), split_all_white by exact H. reflexivity.
  - rewrite split_all_white by exact HU. unfold split_whitespace in *.
    assert (white_or_end v) as HE by (destruct HV as [->|(c & r & Hc & ->)]; [left; reflexivity|right; eauto]).
    rewrite go_word by assumption. rewrite app_nil_r.
    assert (forall x, flush (rev w) x = w :: x) as HF.
    { intro x. unfold flush. destruct (rev w) eqn:E; [|rewrite <- E, rev_involutive; reflexivity].
      apply (f_equal (@rev ascii)) in E. rewrite rev_involutive in E. contradiction. }
    destruct HV as [->|(c & r & Hc & ->)].
    + cbn [split_ws_go]. rewrite HF. cbn in IH. congruence.
    + rewrite go_white by exact Hc. rewrite HF. f_equal. rewrite go_white in IH by exact Hc. exact IH.
Qed.
Lemma all_white_nil : all_white []. Proof. exists []. split; [reflexivity|constructor]. Qed.
Lemma all_white_cons c u : white c -> all_white u -> all_white (c ++ u).
Proof. intros Hc (l & -> & H). exists (c :: l). split; [reflexivity|constructor; assumption]. Qed.
(** the word at the start of a text that does not start with white space *)
Lemma word_prefix n : forall s, length s <= n -> exists w v, s = w ++ v /\ no_white w /\ white_or_end v /\
  ((forall c r, white c -> s <> c ++ r) -> s <> [] -> w <> []).
Proof.
  induction n as [|n IH]; intros s Hn.
  - destruct s; [|cbn in Hn; lia]. exists [], []. split; [reflexivity|]. split; [|split; [left; reflexivity|congruence]].
    intros c Hc (x & y & E). symmetry in E. apply app_eq_nil in E as [_ E]. apply app_eq_nil in E as [E _]. exact (white_ne c Hc E).
  - destruct s as [|a s]; [apply (IH []); cbn; lia|]. destruct (white_start_dec (a :: s)) as [(c & r & Hc & E)|H].
    + exists [], (a :: s). split; [reflexivity|]. split.
      { intros d Hd (x & y & E'). symmetry in E'. apply app_eq_nil in E' as [_ E']. apply app_eq_nil in E' as [E' _]. exact (white_ne d Hd E'). }
      split; [right; exists c, r; auto|]. intros HH _. destruct (HH c r Hc E).
    + cbn in Hn. destruct (IH s) as (w & v & -> & HN & HV & _); [lia|]. exists (a :: w), v.
      split; [reflexivity|]. split; [|split; [exact HV|discriminate]].
      intros c Hc (x & y & E). destruct x as [|b x].
      * apply (H c (y ++ v) Hc). cbn [app] in E |- *. rewrite app_assoc, <- E. reflexivity.
      * cbn in E. injection E as <- E. apply (HN c Hc). exists x, y. exact E.
Qed.
Lemma words_total n : forall t, length t <= n -> exists l, words t l.
Proof.
  induction n as [|n IH]; intros t Hn.
  - destruct t; [|cbn in Hn; lia]. exists []. constructor. apply all_white_nil.
  - destruct t as [|a t]; [apply (IH []); cbn; lia|]. cbn in Hn.
    destruct (white_start_dec (a :: t)) as [(c & r & Hc & E)|H].
    + destruct (IH r) as (l & Hl).
      { apply (f_equal (@length ascii)) in E. rewrite app_length in E. cbn in E. pose proof (white_ne c Hc). destruct c; [congruence|cbn in E; lia]. }
      exists l. rewrite E. inversion Hl as [t' HT|u w v l' HU HW HN HV HL]; subst.
      * constructor. apply all_white_cons; assumption.
      * rewrite app_assoc. constructor; try assumption. apply all_white_cons; assumption.
    + destruct (word_prefix (S n) (a :: t)) as (w & v & E & HN & HV & HW); [cbn; lia|].
      assert (w <> []) as HW' by (apply HW; [exact H|discriminate]).
      destruct (IH v) as (l & Hl).
      { apply (f_equal (@length ascii)) in E. rewrite app_length in E. cbn in E. destruct w; [congruence|cbn in E; lia]. }
      exists (w :: l). rewrite E. apply (wo_word []); try assumption; [apply all_white_nil|].
      destruct HV as [->|(c & r & -> & Hc)]; [left; reflexivity|right; eauto].
Qed.
Theorem words_iff t l : split_whitespace t = l <-> words t l.
Proof.
  split; [|apply words_split]. intros <-. destruct (words_total (length t) t (le_n _)) as (l & H).
  rewrite (words_split _ _ H). exact H.
Qed.

(** *)
Lemma split_go_skipn pat k s : k <= length s -> split_go pat k s = split_go pat 0 (skipn k s).
Proof.
  revert k. induction s as [|c s IH]; intros [|k] H; try reflexivity.
  cbn [split_go skipn]. apply IH. cbn in H. lia.
Qed.
Lemma split_pieces n : forall d s, d <> [] -> length s <= n -> pieces d s (split_go d 0 s).
Proof.
  induction n as [|n IH]; intros d s HD Hn.
  - destruct s; [|cbn in Hn; lia]. apply pc_last. intros (u & v & E). symmetry in E. apply app_eq_nil in E as [_ E].
    apply app_eq_nil in E as [E _]. contradiction.
  - destruct s as [|c s]; [apply (IH d []); [exact HD|cbn; lia]|]. cbn in Hn. cbn [split_go].
    destruct (starts_with d (c :: s)) eqn:E.
    + apply starts_with_iff in E as (r & E). rewrite E.
      assert (length d - 1 <= length s) as HL.
      { apply (f_equal (@length ascii)) in E. rewrite app_length in E. cbn in E. lia. }
      rewrite split_go_skipn by exact HL.
      assert (skipn (length d - 1) s = r) as ->.
      { destruct d as [|a d]; [congruence|]. cbn in E. injection E as -> E. rewrite E. cbn [length]. rewrite Nat.sub_succ, Nat.sub_0_r.
        rewrite skipn_app, skipn_all, Nat.sub_diag. reflexivity. }
      apply (pc_cut d []). { cbn. intros i H. lia. }
      apply IH; [exact HD|]. apply (f_equal (@length ascii)) in E. rewrite app_length in E. destruct d; [congruence|cbn in E; lia].
    + assert (forall r, c :: s <> d ++ r) as HNS.
      { intros r E'. rewrite (proj2 (starts_with_iff _ _)) in E; [discriminate|]. exists r. exact E'. }
      assert (length s <= n) as HL by lia. specialize (IH d s HD HL). inversion IH as [s' HO E1 E2|u v l HU HP E1 E2]; subst.
      * apply pc_last. intros (u & v & E'). destruct u as [|b u]; [exact (HNS v E')|]. cbn in E'. injection E' as <- E'. apply HO. exists u, v. exact E'.
      * change (c :: u ++ d ++ v) with ((c :: u) ++ d ++ v). apply pc_cut; [|exact HP].
        intros [|i] Hi (x & y & E' & Hx).
        { destruct x; [|discriminate]. exact (HNS y E'). }
        destruct x as [|b x]; [discriminate|]. cbn in E'. injection E' as <- E'. cbn in Hi, Hx. apply (HU i); [lia|]. exists x, y. split; [exact E'|lia].
Qed.
Lemma pieces_det d s l1 : d <> [] -> pieces d s l1 -> forall l2, pieces d s l2 -> l1 = l2.
Proof.
  intros NE H. induction H as [s N|u v l M H IH]; intros l2 H2.
  - inversion H2; subst; [reflexivity|]. exfalso. apply N. exists u, v. reflexivity.
  - inversion H2 as [s' N|u2 v2 l2' M2 R2 E0]; subst.
    + exfalso. apply N. exists u, v. reflexivity.
    + assert (length u = length u2) as L.
      { destruct (Nat.lt_trichotomy (length u) (length u2)) as [HL|[HL|HL]]; [|exact HL|]; exfalso.
        - apply (M2 (length u)); [exact HL|]. exists u, v. split; [congruence|reflexivity].
        - apply (M (length u2)); [exact HL|]. exists u2, v2. split; [congruence|reflexivity]. }
      symmetry in E0. destruct (app_eq_len _ _ _ _ L E0) as [<- E1]. apply app_inv_head in E1. subst. f_equal. apply IH. exact R2.
Qed.
Theorem pieces_iff d s l : d <> [] -> (split d s = l <-> pieces d s l).
Proof.
  intro HD. pose proof (split_pieces (length s) d s HD (le_n _)) as H. split; [intros <-; exact H|].
  intro H2. exact (pieces_det _ _ _ HD H _ H2).
Qed.

Lemma dec_N_plain n : plain_decimal (dec_N n) n.
Proof.
  split; [apply (proj1 (digits1_iff _ _)), digits1_dec|]. split; [apply dec_ne|].
  assert (Decimal.unorm (N.to_uint n) = N.to_uint n) as HU by (rewrite <- DecimalN.Unsigned.to_of, DecimalN.Unsigned.of_to; reflexivity).
  unfold dec_N, DecimalString.NilZero.string_of_uint. destruct (N.to_uint n) eqn:E; try (right; intros r H; discriminate H); [left; reflexivity|].
  unfold Decimal.unorm in HU. cbn [Decimal.nzhead] in HU. left. destruct (Decimal.nzhead u) eqn:EN; try discriminate HU.
  - injection HU as <-. reflexivity.
  - exfalso. rewrite HU in EN. exact (DecimalFacts.nzhead_nonzero _ _ EN).
Qed.
Lemma dec_Z_plain z : plain_integer (dec_Z z) z.
Proof.
  unfold plain_integer. destruct z as [|p|p]; cbn [Z.ltb Z.compare].
  - rewrite dec_Z_zero. apply dec_N_plain.
  - rewrite dec_Z_pos. apply (dec_N_plain (N.pos p)).
  - exists (dec_N (N.pos p)). split; [apply dec_Z_neg|apply (dec_N_plain (N.pos p))].
Qed.
Lemma decimal_zero s : decimal s 0 -> (forall r, s <> "0"%char :: r) -> s = [].
Proof.
  remember 0%N as z eqn:Ez. induction 1 as [|s n d HD IH Hd]; intro H; [reflexivity|].
  assert (n = 0%N /\ d = 0%N) as [-> ->] by lia. exfalso.
  destruct s as [|a s]; [exact (H [] eq_refl)|].
  specialize (IH eq_refl). rewrite IH in H; [exact (H [] eq_refl)|]. intros r E. injection E as -> ->. exact (H _ eq_refl).
Qed.
Lemma decimal_snoc_inv s n : decimal s n -> s = [] /\ n = 0%N \/ exists t m d, s = t ++ [ascii_of_N (48 + d)] /\ decimal t m /\ (d < 10)%N /\ n = (10 * m + d)%N.
Proof. intros H. inversion H; subst; [left; auto|right; eauto 8]. Qed.
Lemma decimal_canonical s n : decimal s n -> forall t, decimal t n -> (forall r, s <> "0"%char :: r) -> (forall r, t <> "0"%char :: r) -> s = t.
Proof.
  induction 1 as [|s n d HD IH Hd]; intros t HT H1 H2; [symmetry; apply decimal_zero; assumption|].
  destruct (decimal_snoc_inv _ _ HT) as [[-> E]|(t' & m & e & -> & HT' & He & E)].
  - exfalso. assert (n = 0%N /\ d = 0%N) as [-> ->] by lia.
    assert (s = []) as ->; [|exact (H1 [] eq_refl)]. apply decimal_zero; [exact HD|]. intros r ->. exact (H1 _ eq_refl).
  - assert (n = m /\ d = e) as [<- <-].
    { split; lia. }
    f_equal. apply IH; [exact HT'| |].
    + intros r ->. exact (H1 _ eq_refl).
    + intros r ->. exact (H2 _ eq_refl).
Qed.
Lemma plain_decimal_det s t n : plain_decimal s n -> plain_decimal t n -> s = t.
Proof.
  intros (H1 & N1 & [->|H2]) (H3 & N3 & [->|H4]).
  - reflexivity.
  - assert (n = 0%N) as ->. { pose proof (proj2 (digits1_iff (B "0") n) (conj H1 N1)) as E. vm_compute in E. congruence. }
    destruct (N3 (decimal_zero _ H3 H4)).
  - assert (n = 0%N) as ->. { pose proof (proj2 (digits1_iff (B "0") n) (conj H3 N3)) as E. vm_compute in E. congruence. }
    destruct (N1 (decimal_zero _ H1 H2)).
  - exact (decimal_canonical _ _ H1 _ H3 H2 H4).
Qed.

Lemma plain_integer_det s t z : plain_integer s z -> plain_integer t z -> s = t.
Proof.
  unfold plain_integer. destruct (z <? 0)%Z; [|apply plain_decimal_det].
  intros (x & -> & Hx) (y & -> & Hy). rewrite (plain_decimal_det _ _ _ Hx Hy). reflexivity.
Qed.
Lemma range_words_iff t l : split_whitespace (replace (B "..") (B " ") t) = l <-> range_words t l.
Proof.
  assert (B ".." <> []) as HN by discriminate. pose proof (replace_replaced (B "..") (B " ") t HN) as HR. split.
  - intros <-. eexists. split; [exact HR|]. apply words_iff. reflexivity.
  - intros (q & HQ & HW). rewrite (replaced_det _ _ _ _ HN HR _ HQ). apply words_iff. exact HW.
Qed.
