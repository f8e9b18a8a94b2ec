(** * C99: the client script asks for what the classes say, as often as they say, and puts the answer in the right place *)
From Verif Require Import Bytes BytesFacts ClientJs SpecClient ClientProofs ClientInv.
From Coq Require Import Permutation.

Lemma story_inv d evs arr p : story d evs arr p -> Inv arr evs p.
Proof. induction 1 as [ND|evs arr p e new S I PO AV]; [apply inv_load; exact ND|apply inv_step; assumption]. Qed.
Lemma concat_repeat_one {A} (x : A) n : concat (repeat [x] n) = repeat x n.
Proof. induction n as [|n IH]; [reflexivity|]. cbn [repeat concat app]. rewrite IH. reflexivity. Qed.
Lemma same_key l a b : NoDup (keys l) -> In a l -> In b l -> key a = key b -> a = b.
Proof.
  induction l as [|x l IH]; intros ND HA HB E; [destruct HA|]. cbn [keys map] in ND. inversion ND as [|? ? N ND']; subst. destruct HA as [->|HA], HB as [->|HB]; [reflexivity| | |apply IH; assumption].
  - destruct N. rewrite E. apply in_map. exact HB.
  - destruct N. rewrite <- E. apply in_map. exact HA.
Qed.

(** No element is ever taken up twice: once the handlers have run, no element of the document carries a class. *)
Theorem C99_unmarked d evs arr p e : story d evs arr p -> In e (flats (doc p)) -> marks e = [].
Proof. intros S HI. pose proof (no_marks _ _ _ (story_inv _ _ _ _ S)) as F. rewrite Forall_forall in F. exact (F e HI). Qed.
Print Assumptions C99_unmarked.

(** An element with the class for automatic requests is requested exactly once; any other not at all. *)
Theorem C99_auto d evs arr p e : story d evs arr p -> In e arr -> requested CAuto (key e) p = if has MAuto e then [url e] else [].
Proof. intros S HI. pose proof (story_inv _ _ _ _ S) as I. change (requested CAuto (key e) p) with (asked CAuto (key e) (sent p)). rewrite (autos _ _ _ I). apply wanted_one; [exact (nd_arr _ _ _ I)|exact HI]. Qed.
Print Assumptions C99_auto.

(** An element with the class for clicks is requested once for every click. *)
Theorem C99_click d evs arr p e : story d evs arr p -> In e arr -> requested CClick (key e) p = if has MClick e then repeat (url e) (clicks (key e) evs) else [].
Proof.
  intros S HI. pose proof (story_inv _ _ _ _ S) as I. change (requested CClick (key e) p) with (asked CClick (key e) (sent p)). rewrite (clicked _ _ _ I), wanted_one by (exact (nd_arr _ _ _ I) || exact HI).
  destruct (has MClick e); [apply concat_repeat_one|apply concat_repeat_nil].
Qed.
Print Assumptions C99_click.

(** An element with the class for visibility is requested the first time it comes into view and never again. *)
Theorem C99_visible d evs arr p e : story d evs arr p -> In e arr ->
  requested CVisible (key e) p = repeat (url e) (views (key e) evs) /\ views (key e) evs <= 1 /\ (has MVisible e = false -> views (key e) evs = 0) /\
  (has MVisible e = true -> views (key e) evs = 0 -> In (key e) (keys (observed p))).
Proof.
  intros S HI. pose proof (story_inv _ _ _ _ S) as I. change (requested CVisible (key e) p) with (asked CVisible (key e) (sent p)). pose proof (watched _ _ _ I (key e)) as W. pose proof (viewed _ _ _ I (key e)) as V.
  rewrite wanted_one in W by (exact (nd_arr _ _ _ I) || exact HI). rewrite <- V. destruct (has MVisible e).
  - destruct (asked CVisible (key e) (sent p)) as [|u r] eqn:A; cbn [app length] in *.
    + split; [reflexivity|]. split; [lia|]. split; [discriminate|]. intros _ _. destruct (fires_in (key e) (observed p) (url e)) as (x & HX & EX & _); [rewrite W; left; reflexivity|]. rewrite <- EX. apply in_map. exact HX.
    + injection W as -> W. apply app_eq_nil in W as [-> _]. cbn [length repeat]. split; [reflexivity|]. split; [lia|]. split; [discriminate|]. intros _ E. discriminate E.
  - apply app_eq_nil in W as [-> _]. cbn [length repeat]. split; [reflexivity|]. split; [lia|]. split; [reflexivity|discriminate].
Qed.
Print Assumptions C99_visible.

(** A form with the class is sent once for every submission (after its delay), to its action. *)
Theorem C99_form d evs arr p e : story d evs arr p -> In e arr -> exists n, requested CForm (key e) p = repeat (url e) n /\ n + waiting (key e) p = if has MForm e then submissions (key e) evs else 0.
Proof.
  intros S HI. pose proof (story_inv _ _ _ _ S) as I. change (requested CForm (key e) p) with (asked CForm (key e) (sent p)). pose proof (forms _ _ _ I (key e)) as F. rewrite wanted_one in F by (exact (nd_arr _ _ _ I) || exact HI).
  assert (length (asked CForm (key e) (timers p)) = waiting (key e) p) as WL.
  { unfold asked, waiting. rewrite map_length. f_equal. pose proof (timers_form _ _ _ I) as TF. clear - TF. induction TF as [|r l HR _ IH]; [reflexivity|]. cbn [filter]. rewrite HR, IH. reflexivity. }
  destruct (has MForm e).
  - rewrite concat_repeat_one in F. exists (length (asked CForm (key e) (sent p))). split.
    + apply Forall_eq_repeat. apply Forall_forall. intros u HU. symmetry. apply (repeat_spec (submissions (key e) evs)). apply (Permutation_in u F), in_or_app. left. exact HU.
    + rewrite <- WL. rewrite <- app_length. rewrite (Permutation_length F), repeat_length. reflexivity.
  - rewrite concat_repeat_nil in F. apply Permutation_sym, Permutation_nil, app_eq_nil in F as [F1 F2]. exists 0. rewrite F1. split; [reflexivity|]. rewrite <- WL, F2. reflexivity.
Qed.
Print Assumptions C99_form.

Definition class_of (c : cause) : mark := match c with CForm => MForm | CAuto => MAuto | CClick => MClick | CVisible => MVisible end.
(** Nothing else is ever requested: every request comes from an element that arrived with the class, goes to its URL, and its target is
    that element or, if it names another one, an element of that id. *)
Theorem C99_only d evs arr p r : story d evs arr p -> In r (sent p) ->
  exists e, In e arr /\ key e = rq_from r /\ rq_url r = url e /\ has (class_of (rq_cause r)) e = true /\
    (wrap e = [] -> rq_target r = Some (key e)) /\
    (wrap e <> [] -> forall k, rq_target r = Some k -> exists t, In t arr /\ key t = k /\ dom_id t = wrap e).
Proof.
  intros S HI. pose proof (story_inv _ _ _ _ S) as I. pose proof (reqs _ _ _ I) as R. rewrite Forall_forall in R. destruct (R r HI) as (e & HE & E1 & E2 & E3 & E4). exists e. split; [exact HE|]. split; [exact E1|]. split; [symmetry; exact E2|].
  split; [|split; assumption].
  assert (In (rq_url r) (asked (rq_cause r) (key e) (sent p))) as HA.
  { unfold asked. apply in_map. apply filter_In. split; [exact HI|]. rewrite E1, Nat.eqb_refl, andb_true_r. destruct (rq_cause r); reflexivity. }
  assert (exists n, In (rq_url r) (concat (repeat (wanted (class_of (rq_cause r)) (key e) arr) n))) as (n & HN).
  { destruct (rq_cause r); cbn [class_of].
    - exists (submissions (key e) evs). apply (Permutation_in _ (forms _ _ _ I (key e))), in_or_app. left. exact HA.
    - exists 1. cbn [repeat concat]. rewrite app_nil_r, <- (autos _ _ _ I). exact HA.
    - exists (clicks (key e) evs). rewrite <- (clicked _ _ _ I). exact HA.
    - exists 1. cbn [repeat concat]. rewrite app_nil_r, <- (watched _ _ _ I). apply in_or_app. left. exact HA. }
  apply in_concat in HN as (w & HW & HU). apply repeat_spec in HW. subst w. apply wanted_in in HU as (x & HX & EX & _ & HM). rewrite <- (same_key arr x e (nd_arr _ _ _ I) HX HE EX). exact HM.
Qed.
Print Assumptions C99_only.

Lemma turns_plain k new d d' : turns k (fun _ => new) d d' -> Forall (fun e => marks e = []) (flats d) -> turns k (fun _ => map plain_tree new) d (map plain_tree d').
Proof.
  induction 1 as [pre e l post E|pre e l l' post T IH]; intro F; rewrite flats_app in F; apply Forall_app in F as [F1 F2].
  - change (flats (Tree e l :: post)) with (flat (Tree e l) ++ flats post) in F2. apply Forall_app in F2 as [_ F3]. rewrite !map_app, (plain_id pre F1), (plain_id post F3). apply (tn_here k (fun _ => map plain_tree new)). exact E.
  - change (flats (Tree e l :: post)) with (e :: flats l ++ flats post) in F2. inversion F2 as [|? ? Fe Fr]; subst. apply Forall_app in Fr as [Fl Fp]. rewrite map_app. cbn [map plain_tree]. rewrite (plain_id pre F1), (plain_id post Fp).
    assert (plain_elem e = e) as -> by (destruct e; cbn in Fe; subst; reflexivity). apply tn_below. apply IH. exact Fl.
Qed.
(** The answer takes the place of the target, and nothing else in the document changes; if the target is not there any more, nothing does. *)
Theorem C99_replaced d evs arr p n new r k : story d evs arr p -> possible arr p (Reply n new) -> nth_error (pending p) n = Some r -> rq_target r = Some k ->
  (in_doc k p -> turns k (fun _ => map plain_tree new) (doc p) (doc (happens (Reply n new) p))) /\ (~ in_doc k p -> doc (happens (Reply n new) p) = doc p).
Proof.
  intros S PO EN ET. pose proof (story_inv _ _ _ _ S) as I. cbn [happens]. rewrite EN, ET. pose proof (am_doc _ _ (fev_armed (set_doc (put k new (doc p)) (answered n p)))) as AD. rewrite AD. cbn [doc set_doc]. split; intro HK.
  - apply turns_plain; [|exact (no_marks _ _ _ I)]. apply put_present; [exact (nd_doc _ _ _ I)|exact HK].
  - rewrite put_absent by exact HK. apply plain_id. exact (no_marks _ _ _ I).
Qed.
Print Assumptions C99_replaced.

(** If a request fails, the target shows the error text instead of what it contained; a form stays as it is. *)
Theorem C99_failed d evs arr p n r : story d evs arr p -> nth_error (pending p) n = Some r ->
  (rq_cause r = CForm -> doc (happens (Fail n) p) = doc p) /\
  (forall k, rq_cause r <> CForm -> rq_target r = Some k -> in_doc k p -> turns k childless (doc p) (doc (happens (Fail n) p))) /\
  (forall k, rq_target r = Some k -> ~ in_doc k p -> doc (happens (Fail n) p) = doc p).
Proof.
  intros S EN. pose proof (story_inv _ _ _ _ S) as I. cbn [happens]. rewrite EN. split; [|split].
  - intro C. unfold is_form. rewrite C. cbn [cause_eqb]. rewrite (am_doc _ _ (fev_armed _)). apply plain_id. exact (no_marks _ _ _ I).
  - intros k C T HK. unfold is_form. destruct (rq_cause r) eqn:EC; [contradiction| | |]; cbn [cause_eqb]; rewrite T, (am_doc _ _ (fev_armed _)); cbn [doc set_doc];
      pose proof (empty_present k (doc p) (nd_doc _ _ _ I) HK) as TU; (rewrite plain_id; [exact TU|]); destruct (turns_flats _ _ _ _ TU) as (pre & e & l & post & T1 & T2 & T3);
      pose proof (no_marks _ _ _ I) as M; rewrite T1 in M; rewrite T3; rewrite !Forall_forall in *; intros x HX; apply M; apply in_app_or in HX as [HX|HX]; apply in_or_app; try (left; exact HX); right; cbn [childless flats flat_map flat app] in HX |- *;
      (destruct HX as [<- |HX]; [left; reflexivity|right; apply in_or_app; right; exact HX]).
  - intros k T HK. destruct (is_form r); [|rewrite T]; rewrite (am_doc _ _ (fev_armed _)); cbn [doc set_doc answered]; rewrite ?empty_absent by exact HK; apply plain_id; exact (no_marks _ _ _ I).
Qed.
Print Assumptions C99_failed.

(** Only an answer or a failure changes the document. *)
Theorem C99_still d evs arr p e : story d evs arr p -> (forall n new, e <> Reply n new) -> (forall n, e <> Fail n) -> doc (happens e p) = doc p.
Proof.
  intros _ N1 N2. destruct e as [path|k|k|n|n new|n]; cbn [happens]; [| | | |destruct (N1 n new eq_refl)|destruct (N2 n eq_refl)].
  - rewrite fetch_all. reflexivity.
  - rewrite fetch_all. reflexivity.
  - reflexivity.
  - destruct (nth_error (timers p) n); reflexivity.
Qed.
Print Assumptions C99_still.

(** A request whose wrapper is not in the document: the answer is dropped and nothing is shown, whatever it contains. *)
Theorem C99_lost d evs arr p n new r : story d evs arr p -> possible arr p (Reply n new) -> nth_error (pending p) n = Some r -> rq_target r = None ->
  doc (happens (Reply n new) p) = doc p /\ doc (happens (Fail n) p) = doc p.
Proof.
  intros S _ EN ET. pose proof (story_inv _ _ _ _ S) as I. cbn [happens]. rewrite EN, ET. destruct (is_form r); [|split; reflexivity].
  rewrite (am_doc _ _ (fev_armed _)). split; (apply plain_id; exact (no_marks _ _ _ I)).
Qed.
Print Assumptions C99_lost.

(** Every request is answered at most once: those without an answer are the sent ones minus the answers. *)
Lemma without_length {A} n (l : list A) : n < length l -> S (length (without n l)) = length l.
Proof. intro L. destruct (nth_error l n) as [x|] eqn:E; [|apply nth_error_None in E; lia]. destruct (without_split _ _ _ E) as (a & b & -> & ->). rewrite !app_length. cbn [length]. lia. Qed.
Lemma fev_counts p : exists n, length (sent (neutral_fev p)) = length (sent p) + n /\ length (pending (neutral_fev p)) = length (pending p) + n.
Proof. destruct (am_sent _ _ (fev_armed p)) as (d & _ & E1 & E2). eexists. rewrite E1, E2, !app_length. split; reflexivity. Qed.
Theorem C99_answers d evs arr p : story d evs arr p -> length (pending p) + answers evs = length (sent p).
Proof.
  induction 1 as [ND|evs arr p e new S IH PO AV].
  - unfold load. destruct (fev_counts (mkPage d [] [] [] [] [] [])) as (n & -> & ->). cbn [sent pending length answers filter]. lia.
  - assert (answers (evs ++ [e]) = answers evs + match e with Reply _ _ | Fail _ => 1 | _ => 0 end) as -> by (unfold answers; rewrite filter_app, app_length; f_equal; destruct e; reflexivity).
    destruct PO as [path PI|k DK OK|k DK|n L|n nw L NDn FRn|n L]; cbn [happens].
    + rewrite fetch_all. cbn [pending sent]. rewrite !app_length. lia.
    + rewrite fetch_all. cbn [pending sent]. rewrite !app_length. lia.
    + cbn [pending sent]. lia.
    + destruct (nth_error (timers p) n); [|lia]. unfold send. cbn [pending sent]. rewrite !app_length. lia.
    + pose proof (without_length n (pending p) L) as WL. destruct (nth_error (pending p) n) as [r|] eqn:E; [|apply nth_error_None in E; lia].
      destruct (rq_target r); [|destruct (is_form r)]; try (match goal with |- context [neutral_fev ?q] => destruct (fev_counts q) as (m & -> & ->) end); cbn [set_doc answered pending sent]; lia.
    + pose proof (without_length n (pending p) L) as WL. destruct (nth_error (pending p) n) as [r|] eqn:E; [|apply nth_error_None in E; lia].
      destruct (is_form r); [|destruct (rq_target r)]; try (match goal with |- context [neutral_fev ?q] => destruct (fev_counts q) as (m & -> & ->) end); cbn [set_doc answered pending sent]; lia.
Qed.
Print Assumptions C99_answers.

(** ** An example: a page with a wrapper and an element that loads itself into it; the answer contains a link, which is clicked *)
Definition el_box : elem := mkElem 1 [] [] [] (B "box").
Definition el_auto : elem := mkElem 2 [MAuto] (B "/menu") (B "box") [].
Definition el_link : elem := mkElem 3 [MClick] (B "/more") [] [].
Definition el_text : elem := mkElem 4 [] [] [] [].
Definition d_page : forest := [Tree el_box []; Tree el_auto []].
Definition d_menu : forest := [Tree el_link [Tree el_text []]].
Definition the_story : list event := [Reply 0 d_menu; Click [4; 3]].
Definition after_story : page := happens (Click [4; 3]) (happens (Reply 0 d_menu) (load d_page)).
Lemma the_story_happens : story d_page the_story (flats d_page ++ flats d_menu ++ []) after_story.
Proof.
  change the_story with (([] ++ [Reply 0 d_menu]) ++ [Click [4; 3]]). rewrite app_assoc. unfold after_story. apply st_event; [apply st_event; [apply st_load| |]| |].
  - repeat constructor; cbn; intuition discriminate.
  - apply ps_reply; [vm_compute; lia|repeat constructor; cbn; intuition discriminate|]. cbn. intuition subst; discriminate.
  - eapply av_reply; [vm_compute; reflexivity|reflexivity|]. vm_compute. left. reflexivity.
  - apply ps_click. apply (pi_below (plain_elem el_link) [Tree (plain_elem el_text) []] _ [4]); [vm_compute; left; reflexivity|]. apply (pi_root (plain_elem el_text) []). left. reflexivity.
  - apply av_other. discriminate.
Qed.
Example C99_example : requested CAuto 2 after_story = [B "/menu"] /\ requested CClick 3 after_story = [B "/more"] /\
  keys (flats (doc after_story)) = [3; 4; 2] /\ length (sent after_story) = 2.
Proof. vm_compute. repeat split. Qed.
(** and one whose wrapper is missing *)
Definition el_lost : elem := mkElem 2 [MAuto] (B "/menu") (B "nowhere") [].
Example C99_lost_example : exists r, nth_error (pending (load [Tree el_lost []])) 0 = Some r /\ rq_target r = None /\ possible [el_lost] (load [Tree el_lost []]) (Reply 0 d_menu).
Proof. eexists. split; [vm_compute; reflexivity|]. split; [reflexivity|]. apply ps_reply; [vm_compute; lia|repeat constructor; cbn; intuition discriminate|]. cbn. intuition subst; discriminate. Qed.
