(** * Lemmas for C99 *)
From Verif Require Import Bytes ClientJs SpecClient.

Section tree_induction.
Context (P : tree -> Prop) (H : forall e l, Forall P l -> P (Tree e l)).
Fixpoint tree_ind' (t : tree) : P t :=
  match t with Tree e l => H e l ((fix go l := match l return Forall P l with [] => Forall_nil P | t :: l => Forall_cons t (tree_ind' t) (go l) end) l) end.
End tree_induction.

Lemma flats_app a b : flats (a ++ b) = flats a ++ flats b.
Proof. apply flat_map_app. Qed.
Lemma keys_app a b : keys (a ++ b) = keys a ++ keys b.
Proof. apply map_app. Qed.

(** ** Replacing an element *)
Lemma put_absent_tree k new t : ~ In k (keys (flat t)) -> put_tree k new t = [t].
Proof.
  induction t as [e l IH] using tree_ind'. cbn [flat keys map put_tree]. intro N. destruct (Nat.eqb_spec (key e) k) as [E|E]; [destruct N; left; exact E|].
  f_equal. f_equal. assert (~ In k (keys (flat_map flat l))) as N' by (intro HI; apply N; right; exact HI). clear N E.
  induction IH as [|t l Ht _ IHl]; [reflexivity|]. cbn [flat_map] in *. rewrite keys_app in N'. rewrite Ht; [|intro HI; apply N', in_or_app; left; exact HI].
  cbn [app]. rewrite IHl; [reflexivity|]. intro HI. apply N', in_or_app. right. exact HI.
Qed.
Lemma put_absent k new d : ~ In k (keys (flats d)) -> put k new d = d.
Proof.
  unfold put. induction d as [|t d IH]; intro N; [reflexivity|]. cbn [flats flat_map] in *. rewrite keys_app in N.
  rewrite put_absent_tree; [|intro HI; apply N, in_or_app; left; exact HI]. cbn [app]. rewrite IH; [reflexivity|]. intro HI. apply N, in_or_app. right. exact HI.
Qed.
Lemma nodup_app {A} (a b : list A) : NoDup (a ++ b) -> NoDup a /\ NoDup b /\ forall x, In x a -> ~ In x b.
Proof.
  induction a as [|x a IH]; cbn [app]; intro H; [split; [constructor|split; [exact H|intros y []]]|]. inversion H as [|? ? N H']; subst. destruct (IH H') as (H1 & H2 & H3).
  split; [constructor; [intro HI; apply N, in_or_app; left; exact HI|exact H1]|]. split; [exact H2|]. intros y [<- |HI]; [intro HB; apply N, in_or_app; right; exact HB|apply H3; exact HI].
Qed.
Lemma turns_left k new d d' p : turns k new d d' -> turns k new (p ++ d) (p ++ d').
Proof. intro T. inversion T as [pre e l post E|pre e l l' post T']; subst; rewrite !(app_assoc p); [apply tn_here; reflexivity|apply tn_below; exact T']. Qed.
Lemma turns_right k new d d' p : turns k new d d' -> turns k new (d ++ p) (d' ++ p).
Proof.
  intro T. inversion T as [pre e l post E|pre e l l' post T']; subst; rewrite <- !app_assoc; cbn [app]; rewrite <- ?app_assoc; [apply tn_here; reflexivity|apply tn_below; exact T'].
Qed.
Lemma turns_flats k new d d' : turns k new d d' -> exists pre e l post, flats d = pre ++ flat (Tree e l) ++ post /\ key e = k /\ flats d' = pre ++ flats (new (Tree e l)) ++ post.
Proof.
  induction 1 as [pre e l post E|pre e l l' post T (pre' & e' & l'' & post' & E1 & E2 & E3)].
  - exists (flats pre), e, l, (flats post). rewrite !flats_app. change (flats (Tree e l :: post)) with (flat (Tree e l) ++ flats post). split; [reflexivity|]. split; [exact E|reflexivity].
  - exists (flats pre ++ e :: pre'), e', l'', (post' ++ flats post). rewrite !flats_app. change (flats (Tree e l :: post)) with (e :: flats l ++ flats post).
    change (flats (Tree e l' :: post)) with (e :: flats l' ++ flats post). rewrite E1, E3, <- !app_assoc. cbn [app]. rewrite <- ?app_assoc. split; [reflexivity|]. split; [exact E2|reflexivity].
Qed.
Lemma put_present_tree k new t : NoDup (keys (flat t)) -> In k (keys (flat t)) -> turns k (fun _ => new) [t] (put_tree k new t).
Proof.
  induction t as [e l IH] using tree_ind'. intros ND HI. cbn [put_tree]. destruct (Nat.eqb_spec (key e) k) as [E|E].
  { pose proof (tn_here k (fun _ => new) [] e l [] E) as T. cbn [app] in T. rewrite app_nil_r in T. exact T. }
  cbn [flat keys map] in ND, HI. destruct HI as [HI|HI]; [contradiction|]. inversion ND as [|? ? N ND']; subst. clear ND N. fold (keys (flat_map flat l)) in *.
  refine (tn_below k (fun _ => new) [] e l _ [] _).
  clear e E. induction IH as [|t l Ht _ IHl]; [destruct HI|]. change (keys (flat_map flat (t :: l))) with (keys (flat t ++ flat_map flat l)) in *. rewrite keys_app in HI, ND'.
  destruct (nodup_app _ _ ND') as (N1 & N2 & N3). cbn [flat_map]. apply in_app_or in HI as [HI|HI].
  - change (flat_map (put_tree k new) l) with (put k new l). rewrite put_absent by (apply N3; exact HI). apply (turns_right _ _ _ _ l (Ht N1 HI)).
  - rewrite put_absent_tree by (intro HB; exact (N3 _ HB HI)). apply (turns_left _ _ _ _ [t] (IHl HI N2)).
Qed.
Lemma put_present k new d : NoDup (keys (flats d)) -> In k (keys (flats d)) -> turns k (fun _ => new) d (put k new d).
Proof.
  intros ND HI.
  induction d as [|t l IHl]; [destruct HI|]. change (keys (flats (t :: l))) with (keys (flat t ++ flats l)) in *. rewrite keys_app in HI, ND.
  destruct (nodup_app _ _ ND) as (N1 & N2 & N3). change (put k new (t :: l)) with (put_tree k new t ++ put k new l). apply in_app_or in HI as [HI|HI].
  - rewrite put_absent by (apply N3; exact HI). apply (turns_right _ _ _ _ l (put_present_tree _ _ _ N1 HI)).
  - rewrite put_absent_tree by (intro HB; exact (N3 _ HB HI)). apply (turns_left _ _ _ _ [t] (IHl N2 HI)).
Qed.

(** ** Emptying an element *)
Lemma empty_absent_tree k t : ~ In k (keys (flat t)) -> empty_tree k t = t.
Proof.
  induction t as [e l IH] using tree_ind'. cbn [flat keys map empty_tree]. intro N. destruct (Nat.eqb_spec (key e) k) as [E|E]; [destruct N; left; exact E|].
  f_equal. assert (~ In k (keys (flat_map flat l))) as N' by (intro HI; apply N; right; exact HI). clear N E.
  induction IH as [|t l Ht _ IHl]; [reflexivity|]. cbn [flat_map map] in *. rewrite keys_app in N'. rewrite Ht; [|intro HI; apply N', in_or_app; left; exact HI].
  rewrite IHl; [reflexivity|]. intro HI. apply N', in_or_app. right. exact HI.
Qed.
Lemma empty_absent k d : ~ In k (keys (flats d)) -> empty k d = d.
Proof.
  unfold empty. induction d as [|t d IH]; intro N; [reflexivity|]. cbn [flats flat_map map] in *. rewrite keys_app in N.
  rewrite empty_absent_tree; [|intro HI; apply N, in_or_app; left; exact HI]. rewrite IH; [reflexivity|]. intro HI. apply N, in_or_app. right. exact HI.
Qed.
Lemma empty_present_tree k t : NoDup (keys (flat t)) -> In k (keys (flat t)) -> turns k childless [t] [empty_tree k t].
Proof.
  induction t as [e l IH] using tree_ind'. intros ND HI. cbn [empty_tree]. destruct (Nat.eqb_spec (key e) k) as [E|E].
  { exact (tn_here k childless [] e l [] E). }
  cbn [flat keys map] in ND, HI. destruct HI as [HI|HI]; [contradiction|]. inversion ND as [|? ? N ND']; subst. clear ND N. fold (keys (flat_map flat l)) in *.
  refine (tn_below k childless [] e l _ [] _).
  clear e E. induction IH as [|t l Ht _ IHl]; [destruct HI|]. change (keys (flat_map flat (t :: l))) with (keys (flat t ++ flat_map flat l)) in *. rewrite keys_app in HI, ND'.
  destruct (nodup_app _ _ ND') as (N1 & N2 & N3). cbn [map]. apply in_app_or in HI as [HI|HI].
  - change (map (empty_tree k) l) with (empty k l). rewrite empty_absent by (apply N3; exact HI). apply (turns_right _ _ _ _ l (Ht N1 HI)).
  - rewrite empty_absent_tree by (intro HB; exact (N3 _ HB HI)). apply (turns_left _ _ _ _ [t] (IHl HI N2)).
Qed.
Lemma empty_present k d : NoDup (keys (flats d)) -> In k (keys (flats d)) -> turns k childless d (empty k d).
Proof.
  intros ND HI.
  induction d as [|t l IHl]; [destruct HI|]. change (keys (flats (t :: l))) with (keys (flat t ++ flats l)) in *. rewrite keys_app in HI, ND.
  destruct (nodup_app _ _ ND) as (N1 & N2 & N3). change (empty k (t :: l)) with (empty_tree k t :: empty k l). apply in_app_or in HI as [HI|HI].
  - rewrite empty_absent by (apply N3; exact HI). apply (turns_right _ _ _ _ l (empty_present_tree _ _ N1 HI)).
  - rewrite empty_absent_tree by (intro HB; exact (N3 _ HB HI)). apply (turns_left _ _ _ _ [t] (IHl N2 HI)).
Qed.

(** ** Arming *)
Definition fires (k : nat) (l : list elem) : list bytes := map url (listeners k l).
Lemma flat_clear m t : flat (clear_tree m t) = map (unmark m) (flat t).
Proof.
  induction t as [e l IH] using tree_ind'. cbn [clear_tree flat map]. f_equal. induction IH as [|t l Ht _ IHl]; [reflexivity|].
  cbn [map flat_map]. rewrite Ht, IHl, map_app. reflexivity.
Qed.
Lemma flats_clear m d : flats (clear m d) = map (unmark m) (flats d).
Proof. unfold flats, clear. induction d as [|t d IH]; [reflexivity|]. cbn [map flat_map]. rewrite flat_clear, IH, map_app. reflexivity. Qed.
Lemma has_unmark m m' e : m <> m' -> has m' (unmark m e) = has m' e.
Proof.
  intro N. unfold has, unmark. cbn [marks]. induction (marks e) as [|x l IH]; [reflexivity|]. cbn [filter existsb].
  destruct (mark_eqb m x) eqn:E; cbn [negb existsb]; rewrite IH; [|reflexivity].
  assert (mark_eqb m' x = false) as -> by (destruct m, x, m'; try discriminate; try reflexivity; contradiction N; reflexivity). reflexivity.
Qed.
Lemma filter_unmark m m' l : m <> m' -> filter (has m') (map (unmark m) l) = map (unmark m) (filter (has m') l).
Proof. intro N. induction l as [|e l IH]; [reflexivity|]. cbn [map filter]. rewrite has_unmark by exact N. destruct (has m' e); cbn [map]; rewrite IH; reflexivity. Qed.
Lemma fires_app k a b : fires k (a ++ b) = fires k a ++ fires k b.
Proof. unfold fires, listeners. rewrite filter_app, map_app. reflexivity. Qed.
Lemma fires_unmark k m l : fires k (map (unmark m) l) = fires k l.
Proof. unfold fires, listeners. induction l as [|e l IH]; [reflexivity|]. cbn [map filter unmark key]. destruct (Nat.eqb (key e) k); cbn [map unmark url]; rewrite IH; reflexivity. Qed.
Lemma keys_unmark m l : keys (map (unmark m) l) = keys l.
Proof. unfold keys. rewrite map_map. reflexivity. Qed.
Lemma cleared_all l : map (unmark MVisible) (map (unmark MClick) (map (unmark MAuto) (map (unmark MForm) l))) = map plain_elem l.
Proof.
  rewrite !map_map. apply map_ext. intro e. unfold unmark, plain_elem. cbn [key marks url wrap dom_id]. f_equal. induction (marks e) as [|m l' IH]; [reflexivity|]. destruct m; cbn [filter mark_eqb negb]; exact IH.
Qed.
Definition sendings (c : cause) (d : forest) (l : list elem) : list req := map (fun e => request_of c e d) l.
Lemma fetch_all c l : forall p, fold_left (neutral_fetch c) l p =
  mkPage (doc p) (submit_l p) (click_l p) (observed p) (timers p) (pending p ++ sendings c (doc p) l) (sent p ++ sendings c (doc p) l).
Proof.
  induction l as [|e l IH]; intro p; cbn [fold_left sendings map]; [rewrite !app_nil_r; destruct p; reflexivity|].
  rewrite IH. unfold neutral_fetch, send. cbn [doc submit_l click_l observed timers pending sent]. unfold sendings. rewrite <- !app_assoc. reflexivity.
Qed.
Lemma by_id_clear m w d : option_map key (by_id w (clear m d)) = option_map key (by_id w d).
Proof.
  unfold by_id. rewrite flats_clear. induction (flats d) as [|e l IH]; [reflexivity|]. cbn [map List.find unmark dom_id]. destruct (beq (dom_id e) w); [reflexivity|exact IH].
Qed.
Definition asked (c : cause) (k : nat) (l : list req) : list bytes := map rq_url (filter (fun r => cause_eqb (rq_cause r) c && Nat.eqb (rq_from r) k) l).
Lemma asked_app c k a b : asked c k (a ++ b) = asked c k a ++ asked c k b.
Proof. unfold asked. rewrite filter_app, map_app. reflexivity. Qed.
Lemma asked_sendings c c' k d l : asked c k (sendings c' d l) = if cause_eqb c' c then fires k l else [].
Proof.
  unfold asked, sendings, fires, listeners. induction l as [|e l IH]; [destruct (cause_eqb c' c); reflexivity|]. cbn [map filter request_of rq_cause rq_from].
  destruct (cause_eqb c' c) eqn:E; cbn [andb]; [|exact IH]. destruct (Nat.eqb (key e) k); cbn [map rq_url]; rewrite IH; reflexivity.
Qed.
Lemma clear_plain t : clear_tree MVisible (clear_tree MClick (clear_tree MAuto (clear_tree MForm t))) = plain_tree t.
Proof.
  induction t as [e l IH] using tree_ind'. cbn [clear_tree plain_tree]. f_equal.
  - pose proof (cleared_all [e]) as E. exact (f_equal (fun l => hd e l) E).
  - rewrite !map_map. induction IH as [|t l Ht _ IHl]; [reflexivity|]. cbn [map]. rewrite Ht, IHl. reflexivity.
Qed.
Lemma flat_plain t : flat (plain_tree t) = map plain_elem (flat t).
Proof.
  induction t as [e l IH] using tree_ind'. cbn [plain_tree flat map]. f_equal. induction IH as [|t l Ht _ IHl]; [reflexivity|].
  cbn [map flat_map]. rewrite Ht, IHl, map_app. reflexivity.
Qed.
Lemma flats_plain d : flats (map plain_tree d) = map plain_elem (flats d).
Proof. unfold flats. induction d as [|t d IH]; [reflexivity|]. cbn [map flat_map]. rewrite flat_plain, IH, map_app. reflexivity. Qed.
Lemma plain_id_tree t : Forall (fun e => marks e = []) (flat t) -> plain_tree t = t.
Proof.
  induction t as [e l IH] using tree_ind'. cbn [flat plain_tree]. intro F. inversion F as [|? ? Fe Fl]; subst. f_equal.
  - destruct e; cbn in *; subst; reflexivity.
  - clear F Fe. induction IH as [|t l Ht _ IHl]; [reflexivity|]. cbn [flat_map] in Fl. apply Forall_app in Fl as [F1 F2]. cbn [map]. rewrite Ht, IHl by assumption. reflexivity.
Qed.
Lemma plain_id d : Forall (fun e => marks e = []) (flats d) -> map plain_tree d = d.
Proof.
  induction d as [|t d IH]; [reflexivity|]. change (flats (t :: d)) with (flat t ++ flats d). intro F. apply Forall_app in F as [F1 F2]. cbn [map]. rewrite plain_id_tree, IH by assumption. reflexivity.
Qed.
(** the elements that come with a class, and what they ask for *)
Definition wanted (m : mark) (k : nat) (l : list elem) : list bytes := fires k (filter (has m) l).
Definition same_elem (a b : elem) : Prop := key a = key b /\ url a = url b /\ wrap a = wrap b.
Definition among (arr l : list elem) : Prop := Forall (fun x => exists e, In e arr /\ same_elem e x) l.
Record armed (p q : page) : Prop := {
  am_doc : doc q = map plain_tree (doc p);
  am_submit : forall k, fires k (submit_l q) = fires k (submit_l p) ++ wanted MForm k (flats (doc p));
  am_click : forall k, fires k (click_l q) = fires k (click_l p) ++ wanted MClick k (flats (doc p));
  am_observed : forall k, fires k (observed q) = fires k (observed p) ++ wanted MVisible k (flats (doc p));
  am_among : forall arr, among arr (submit_l p) -> among arr (click_l p) -> among arr (observed p) -> among arr (flats (doc p)) ->
    among arr (submit_l q) /\ among arr (click_l q) /\ among arr (observed q);
  am_timers : timers q = timers p;
  am_sent : exists d, flats d = map (unmark MAuto) (map (unmark MForm) (flats (doc p))) /\
    sent q = sent p ++ sendings CAuto d (map (unmark MForm) (filter (has MAuto) (flats (doc p)))) /\
    pending q = pending p ++ sendings CAuto d (map (unmark MForm) (filter (has MAuto) (flats (doc p)))) }.
Lemma among_app arr a b : among arr a -> among arr b -> among arr (a ++ b).
Proof. intros. apply Forall_app. split; assumption. Qed.
Lemma among_filter arr f l : among arr l -> among arr (filter f l).
Proof. unfold among. rewrite !Forall_forall. intros H x HI. apply filter_In in HI as [HI _]. exact (H x HI). Qed.
Lemma among_unmark arr m l : among arr l -> among arr (map (unmark m) l).
Proof. unfold among. rewrite !Forall_forall. intros H x HI. apply in_map_iff in HI as (y & <- & HI). destruct (H y HI) as (e & HE & S1 & S2 & S3). exists e. split; [exact HE|split; [exact S1|split; [exact S2|exact S3]]]. Qed.
Lemma fev_armed p : armed p (neutral_fev p).
Proof.
  unfold neutral_fev, arm_visibles, arm_clicks, arm_autos, arm_forms. rewrite fetch_all. cbn [doc submit_l click_l observed timers pending sent].
  rewrite !flats_clear. rewrite !filter_unmark by discriminate. split; cbn [doc submit_l click_l observed timers pending sent].
  - unfold clear. rewrite !map_map. apply map_ext. apply clear_plain.
  - intro k. rewrite fires_app. reflexivity.
  - intro k. rewrite fires_app, !fires_unmark. reflexivity.
  - intro k. rewrite fires_app, !fires_unmark. reflexivity.
  - intros arr A1 A2 A3 A4. split; [|split]; (apply among_app; [assumption|]); repeat apply among_unmark; apply among_filter; exact A4.
  - reflexivity.
  - eexists. split; [|split; reflexivity]. rewrite !flats_clear. reflexivity.
Qed.
