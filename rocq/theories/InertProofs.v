(** * Text without template delimiters *)

From Verif Require Import Bytes Json Utils ConstantsGen State Engine Spec BytesFacts EscapeProofs TextProofs.

Lemma occurs2_app x y u w : occurs [x; y] (u ++ w) ->
  occurs [x; y] u \/ occurs [x; y] w \/ (ends_byte x u /\ starts_byte y w).
Proof.
  induction u as [|c u IH]; cbn [app]; intro H; [right; left; exact H|].
  apply occurs2_cons in H as [[-> [t Ht]]|H].
  - destruct u as [|d u]; cbn [app] in Ht.
    + right. right. split; [exists []; reflexivity|exists t; exact Ht].
    + injection Ht as -> _. left. exists [], u. reflexivity.
  - destruct (IH H) as [H1|[H1|[[r ->] H2]]].
    + left. apply occurs_cons. exact H1.
    + right. left. exact H1.
    + right. right. split; [exists (c :: r); reflexivity|exact H2].
Qed.

Lemma ends_last x u c : ends_byte x (u ++ [c]) -> x = c.
Proof. intros [r H]. apply app_inj_tail in H as [_ H]. congruence. Qed.
Lemma not_at_prefix p u v : p <> [] -> (forall i, i < length u -> ~ occurs_at p (u ++ p ++ v) i) -> ~ occurs p u.
Proof.
  intros HP H (a & b & E). apply (H (length a)).
  - rewrite E, !app_length. destruct p; [congruence|cbn; lia].
  - exists a, (b ++ p ++ v). split; [|reflexivity]. rewrite E, <- !app_assoc. reflexivity.
Qed.

(** a delimiter replaced by a text that neither contains nor completes one *)
Lemma replaced_gone x y q s t : replaced [x; y] q s t -> ~ occurs [x; y] q -> ~ starts_byte y q -> ~ ends_byte x q -> q <> [] ->
  ~ occurs [x; y] t.
Proof.
  intros H H1 H2 H3 H4. induction H as [s H|u v v' H HR IH]; [exact H|].
  intro HO. apply occurs2_app in HO as [HO|[HO|[_ HO]]].
  - revert HO. eapply not_at_prefix; [discriminate|exact H].
  - apply occurs2_app in HO as [HO|[HO|[HO _]]]; [contradiction|contradiction|contradiction].
  - destruct q as [|c q]; [congruence|]. destruct HO as [r E]. apply H2. injection E as -> _. exists q. reflexivity.
Qed.

(** replacing another delimiter does not create one *)
Lemma replaced_other a b c q s t : replaced [a; b] (a :: q) s t -> ~ occurs [c; a] (a :: q) -> ~ ends_byte c (a :: q) ->
  ~ occurs [c; a] s -> ~ occurs [c; a] t.
Proof.
  intros H H1 H2. induction H as [s H|u v v' H HR IH]; [auto|]. intros HN HO.
  assert (~ occurs [c; a] v) as HV by (intro E; apply HN; apply occurs_app_r, (occurs_app_r _ [a; b]); exact E).
  apply occurs2_app in HO as [HO|[HO|[HO _]]].
  - apply HN. apply occurs_app_l. exact HO.
  - apply occurs2_app in HO as [HO|[HO|[HO _]]]; [contradiction| |contradiction]. exact (IH HV HO).
  - apply HN. destruct HO as [r ->]. exists r, (b :: v). rewrite <- app_assoc. reflexivity.
Qed.

Ltac no2 := let H := fresh in intro H; apply contains_iff in H; vm_compute in H; discriminate.

Lemma encode_bifs_clean s : ~ occurs (B "{:") (encode_bifs s) /\ ~ occurs (B ":}") (encode_bifs s).
Proof.
  unfold encode_bifs. set (t := replace BIF_OPEN BIF_SANITIZE_OPEN s).
  assert (replaced BIF_OPEN BIF_SANITIZE_OPEN s t) as H1 by (apply replace_replaced; discriminate).
  assert (replaced BIF_CLOSE BIF_SANITIZE_CLOSE t (replace BIF_CLOSE BIF_SANITIZE_CLOSE t)) as H2
    by (apply replace_replaced; discriminate).
  set (u := replace BIF_CLOSE BIF_SANITIZE_CLOSE t) in *.
  assert (~ occurs (B "{:") t) as HT.
  { apply (replaced_gone _ _ _ _ _ H1); [no2|intros [r E]; discriminate| |discriminate].
    intro E. apply (ends_last _ (B "&#123;") ":"%char) in E. discriminate. }
  split.
  - apply (replaced_other ":"%char "}"%char "{"%char (B "&#125;") t u H2); [no2| |exact HT].
    intro E. apply (ends_last _ (B ":&#125") ";"%char) in E. discriminate.
  - apply (replaced_gone _ _ _ _ _ H2); [no2|intros [r E]; discriminate| |discriminate].
    intro E. apply (ends_last _ (B ":&#125") ";"%char) in E. discriminate.
Qed.

Lemma replaced_in pat rep s t a : replaced pat rep s t -> In a t -> In a rep \/ In a s.
Proof.
  induction 1 as [s H|u v v' H HR IH]; [auto|]. intro HI.
  apply in_app_or in HI as [HI|HI]; [right; apply in_or_app; auto|].
  apply in_app_or in HI as [HI|HI]; [auto|]. destruct (IH HI) as [HJ|HJ]; [auto|].
  right. apply in_or_app. right. apply in_or_app. right. exact HJ.
Qed.
Lemma encode_bifs_in s a : In a (encode_bifs s) -> In a (B "&#123;:5") \/ In a s.
Proof.
  unfold encode_bifs. intro H.
  apply (replaced_in BIF_CLOSE BIF_SANITIZE_CLOSE (replace BIF_OPEN BIF_SANITIZE_OPEN s)) in H as [H|H];
    [|apply (replaced_in BIF_OPEN BIF_SANITIZE_OPEN s) in H as [H|H]; [|right; exact H|apply replace_replaced; discriminate]
     |apply replace_replaced; discriminate]; left; cbn in *; tauto.
Qed.

Lemma inert_clean s : inert true s -> ~ occurs (B "{:") s /\ ~ occurs (B ":}") s.
Proof.
  intro H. pose proof (inert_no_active true s H) as HA. split; intros (u & v & ->).
  - apply (HA "{"%char); [cbn; tauto|]. apply in_or_app. right. left. reflexivity.
  - apply (HA "}"%char); [cbn; tauto|]. apply in_or_app. right. right. left. reflexivity.
Qed.

Lemma mark_clean (up : bool) w : ~ occurs (B "{:") w /\ ~ occurs (B ":}") w ->
  ~ occurs (B "{:") (trim ((if up then BACKSPACE else []) ++ w)) /\ ~ occurs (B ":}") (trim ((if up then BACKSPACE else []) ++ w)).
Proof.
  intros [H1 H2]. split; intro H; apply occurs_trim in H; destruct up; try contradiction;
    apply occurs2_app in H as [H|[H|[H _]]]; try contradiction; try (revert H; no2);
    apply (ends_last _ (B "&#922") "4"%char) in H; discriminate.
Qed.

(** ** The tag filter keeps delimiters apart *)
Definition other (x : ascii) : Prop := x = "{"%char \/ x = ":"%char \/ x = "}"%char.

Definition pending (e : option bytes) : bytes := match e with Some e => c_amp :: rev e | None => [] end.

Lemma other_neq x c : other x -> In c (B "&<>/;'" ++ [c_quot]) -> x <> c.
Proof. intros H HI ->. cbn in HI. unfold other in H. destruct H as [-> | [-> | -> ]]; intuition discriminate. Qed.

Lemma entity_cases e : (exists d, unescape_entity false e = [d] /\ In d (B "&<>/;'" ++ [c_quot])) \/
  unescape_entity false e = c_amp :: e ++ [c_semi].
Proof.
  unfold unescape_entity. repeat match goal with
  | |- context [if ?b then _ else _] => destruct b; [left; eexists; split; [reflexivity|cbn; tauto]|]
  end. right. reflexivity.
Qed.

Lemma unescape_pair x y (HX : other x) (HY : other y) s : forall e, ~ occurs [x; y] (pending e ++ s) ->
  ~ occurs [x; y] (unescape_go false e s) /\ (starts_byte y (unescape_go false e s) -> starts_byte y (pending e ++ s)).
Proof.
  induction s as [|c r IH]; intros e HN.
  - destruct e as [e|]; cbn [unescape_go pending] in *; rewrite app_nil_r in *; auto.
  - destruct e as [e|]; cbn [unescape_go].
    + destruct (aeqb c c_semi) eqn:EC.
      * apply aeqb_eq in EC. subst c.
        assert (~ occurs [x; y] (pending None ++ r)) as HR
          by (intro E; apply HN; cbn [pending app] in *; apply occurs_cons, occurs_app_r, occurs_cons; exact E).
        destruct (IH None HR) as [H1 H2].
        destruct (entity_cases (rev e)) as [(d & -> & Hd)| -> ].
        -- cbn [app]. split.
           ++ intro H. apply occurs2_cons in H as [[-> _]|H]; [exact (other_neq _ _ HX Hd eq_refl)|contradiction].
           ++ intros [t E]. injection E as -> _. exfalso. exact (other_neq _ _ HY Hd eq_refl).
        -- split.
           ++ intro H. apply occurs2_app in H as [H|[H|[H _]]].
              ** apply HN. cbn [pending]. change ((c_amp :: rev e) ++ c_semi :: r) with ((c_amp :: rev e) ++ [c_semi] ++ r).
                 rewrite app_assoc. apply occurs_app_l. exact H.
              ** contradiction.
              ** rewrite app_comm_cons in H. apply ends_last in H. revert H. apply other_neq; [exact HX|cbn; tauto].
           ++ intros [t E]. injection E as E _. exfalso. revert E. apply not_eq_sym, other_neq; [exact HY|cbn; tauto].
      * assert (pending (Some (c :: e)) ++ r = pending (Some e) ++ c :: r) as EP
          by (cbn [pending rev]; cbn [app]; rewrite <- app_assoc; reflexivity).
        specialize (IH (Some (c :: e))). rewrite EP in IH. apply IH. exact HN.
    + cbn [pending app] in HN. destruct (aeqb c c_amp) eqn:EC.
      * apply aeqb_eq in EC. subst c. apply (IH (Some [])). exact HN.
      * destruct (IH None) as [H1 H2]; [intro E; apply HN, occurs_cons; exact E|]. cbn [pending app] in *. split.
        -- intro H. apply occurs2_cons in H as [[-> HS]|H]; [|contradiction]. apply HN, occurs2_cons. left.
           split; [reflexivity|]. destruct (H2 HS) as [t ->]. eauto.
        -- intros [t E]. injection E as -> _. exists r. reflexivity.
Qed.

Lemma escape_char_amp c : needs_escape false c = true -> exists w, escape_char false c = c_amp :: w ++ [c_semi] /\
  forall x, other x -> ~ In x (escape_char false c).
Proof.
  intro E. assert (c = c_amp \/ c = c_lt \/ c = c_gt \/ c = c_quot \/ c = c_apos \/ c = c_slash) as HC.
  { unfold needs_escape in E. cbn [andb] in E. rewrite orb_false_r in E.
    repeat (apply orb_prop in E as [E|E]); apply aeqb_eq in E; subst c; tauto. }
  assert (forall w x, other x -> existsb (fun a => existsb (aeqb a) (B "{:}")) w = false -> ~ In x w) as HN.
  { intros w x HO HE HI. assert (existsb (fun a => existsb (aeqb a) (B "{:}")) w = true) as HT.
    { apply existsb_exists. exists x. split; [exact HI|]. destruct HO as [-> | [-> | -> ]]; reflexivity. }
    congruence. }
  destruct HC as [-> | [-> | [-> | [-> | [-> | -> ]]]]].
  1: exists (B "amp"). 2: exists (B "lt"). 3: exists (B "gt"). 4: exists (B "quot"). 5: exists (B "#x27"). 6: exists (B "#x2F").
  all: split; [reflexivity|intros x HO; apply HN; [exact HO|reflexivity]].
Qed.

Lemma escape_pair x y (HX : other x) (HY : other y) s : ~ occurs [x; y] s -> ~ occurs [x; y] (flat_map (escape_char false) s) /\
  (starts_byte y (flat_map (escape_char false) s) -> starts_byte y s).
Proof.
  induction s as [|c r IH]; intro HN; [split; [exact HN|auto]|].
  destruct IH as [H1 H2]; [intro E; apply HN, occurs_cons; exact E|]. cbn [flat_map].
  destruct (needs_escape false c) eqn:E.
  - destruct (escape_char_amp c E) as (w & Ew & HE). split.
    + intro H. apply occurs2_app in H as [H|[H|[H _]]]; [|contradiction|].
      * destruct H as (u & v & H). apply (HE x HX). rewrite H. apply in_or_app. right. left. reflexivity.
      * rewrite Ew, app_comm_cons in H. apply ends_last in H. revert H. apply other_neq; [exact HX|cbn; tauto].
    + rewrite Ew. intros [t Et]. injection Et as Et _. exfalso. revert Et. apply not_eq_sym, other_neq; [exact HY|cbn; tauto].
  - rewrite (needs_escape_false _ _ E). cbn [app]. split.
    + intro H. apply occurs2_cons in H as [[-> HS]|H]; [|contradiction]. apply HN, occurs2_cons. left.
      split; [reflexivity|]. destruct (H2 HS) as [t ->]. eauto.
    + intros [t Et]. injection Et as -> _. exists r. reflexivity.
Qed.

Lemma encode_tags_pair x y s : other x -> other y -> ~ occurs [x; y] s -> ~ occurs [x; y] (encode_tags s).
Proof.
  intros HX HY H. unfold encode_tags. rewrite escape_flat, unescape_is_go.
  apply (escape_pair x y HX HY), (unescape_pair x y HX HY s None). exact H.
Qed.
Lemma encode_tags_clean s : ~ occurs (B "{:") s /\ ~ occurs (B ":}") s ->
  ~ occurs (B "{:") (encode_tags s) /\ ~ occurs (B ":}") (encode_tags s).
Proof. intros [H1 H2]. split; apply encode_tags_pair; unfold other; auto. Qed.
Lemma encode_tags_active s c : In c (active false) -> ~ In c (encode_tags s).
Proof. intros H. apply (inert_no_active false); [apply refilter_inert|exact H]. Qed.
Lemma encode_bifs_active s c : In c (active false) -> ~ In c s -> ~ In c (encode_bifs s).
Proof.
  intros H HN HI. apply encode_bifs_in in HI as [HI|HI]; [|contradiction].
  cbn in H, HI. intuition (subst; discriminate).
Qed.
