(** * The invariant of the client script (C99) *)
From Verif Require Import Bytes BytesFacts ClientJs SpecClient ClientProofs.
From Coq Require Import Permutation.

Lemma wanted_app m k a b : wanted m k (a ++ b) = wanted m k a ++ wanted m k b.
Proof. unfold wanted. rewrite filter_app. apply fires_app. Qed.
Lemma fires_in k l u : In u (fires k l) -> exists e, In e l /\ key e = k /\ url e = u.
Proof.
  unfold fires, listeners. rewrite in_map_iff. intros (e & E & HI). apply filter_In in HI as [HI HK]. apply Nat.eqb_eq in HK. exists e. split; [exact HI|split; assumption].
Qed.
Lemma fires_nil k l : ~ In k (keys l) -> fires k l = [].
Proof. intro N. destruct (fires k l) as [|u r] eqn:E; [reflexivity|]. destruct (fires_in k l u) as (e & HI & HK & _); [rewrite E; left; reflexivity|]. destruct N. rewrite <- HK. apply in_map. exact HI. Qed.
Lemma wanted_in m k l u : In u (wanted m k l) -> exists e, In e l /\ key e = k /\ url e = u /\ has m e = true.
Proof. unfold wanted. intro HI. apply fires_in in HI as (e & HI & HK & HU). apply filter_In in HI as [HI HM]. exists e. auto. Qed.
Lemma wanted_nil m k l : ~ In k (keys l) -> wanted m k l = [].
Proof. intro N. destruct (wanted m k l) as [|u r] eqn:E; [reflexivity|]. destruct (wanted_in m k l u) as (e & HI & HK & _); [rewrite E; left; reflexivity|]. destruct N. rewrite <- HK. apply in_map. exact HI. Qed.
Lemma wanted_cons m k e l : wanted m k (e :: l) = (if has m e && Nat.eqb (key e) k then [url e] else []) ++ wanted m k l.
Proof. unfold wanted, fires, listeners. cbn [filter]. destruct (has m e); cbn [filter andb]; [|reflexivity]. destruct (Nat.eqb (key e) k); reflexivity. Qed.
Lemma wanted_one m e l : NoDup (keys l) -> In e l -> wanted m (key e) l = if has m e then [url e] else [].
Proof.
  induction l as [|x l IH]; intros ND HI; [destruct HI|]. cbn [keys map] in ND. inversion ND as [|? ? N ND']; subst. rewrite wanted_cons. destruct HI as [->|HI].
  - rewrite Nat.eqb_refl, andb_true_r, wanted_nil by exact N. apply app_nil_r.
  - rewrite IH by assumption. destruct (Nat.eqb_spec (key x) (key e)) as [E|E]; [destruct N; rewrite E; apply in_map; exact HI|]. rewrite andb_false_r. reflexivity.
Qed.
Lemma wanted_unmarked m k l : Forall (fun e => marks e = []) l -> wanted m k l = [].
Proof.
  intro F. destruct (wanted m k l) as [|u r] eqn:E; [reflexivity|]. destruct (wanted_in m k l u) as (e & HI & _ & _ & HM); [rewrite E; left; reflexivity|].
  rewrite Forall_forall in F. unfold has in HM. rewrite (F e HI) in HM. discriminate HM.
Qed.
Lemma wanted_le m k l : NoDup (keys l) -> length (wanted m k l) <= 1.
Proof.
  intro ND. destruct (wanted m k l) as [|u r] eqn:E; [cbn; lia|]. destruct (wanted_in m k l u) as (e & HI & HK & _ & HM); [rewrite E; left; reflexivity|].
  subst k. rewrite wanted_one, HM in E by assumption. injection E as <- <-. cbn. lia.
Qed.

Definition doc_of (arr l : list elem) : Prop := Forall (fun x => exists e, In e arr /\ same_elem e x /\ dom_id e = dom_id x) l.
Definition req_ok (arr : list elem) (r : req) : Prop :=
  exists e, In e arr /\ key e = rq_from r /\ url e = rq_url r /\ (wrap e = [] -> rq_target r = Some (key e)) /\
            (wrap e <> [] -> forall k, rq_target r = Some k -> exists t, In t arr /\ key t = k /\ dom_id t = wrap e).
Lemma req_ok_more arr new r : req_ok arr r -> req_ok (arr ++ new) r.
Proof.
  intros (e & HI & E1 & E2 & E3 & E4). exists e. split; [apply in_or_app; left; exact HI|]. split; [exact E1|]. split; [exact E2|]. split; [exact E3|].
  intros N k T. destruct (E4 N k T) as (t & HT & ET). exists t. split; [apply in_or_app; left; exact HT|exact ET].
Qed.
Lemma among_more arr new l : among arr l -> among (arr ++ new) l.
Proof. unfold among. rewrite !Forall_forall. intros H x HI. destruct (H x HI) as (e & HE & S). exists e. split; [apply in_or_app; left; exact HE|exact S]. Qed.
Lemma doc_of_more arr new l : doc_of arr l -> doc_of (arr ++ new) l.
Proof. unfold doc_of. rewrite !Forall_forall. intros H x HI. destruct (H x HI) as (e & HE & S). exists e. split; [apply in_or_app; left; exact HE|exact S]. Qed.
Lemma doc_among arr l : doc_of arr l -> among arr l.
Proof. unfold doc_of, among. rewrite !Forall_forall. intros H x HI. destruct (H x HI) as (e & HE & S & _). exists e. split; assumption. Qed.
Lemma doc_unmark arr m l : doc_of arr l -> doc_of arr (map (unmark m) l).
Proof. unfold doc_of. rewrite !Forall_forall. intros H x HI. apply in_map_iff in HI as (y & <- & HI). destruct (H y HI) as (e & HE & (S1 & S2 & S3) & S4). exists e. split; [exact HE|]. split; [split; [exact S1|split; [exact S2|exact S3]]|exact S4]. Qed.
Lemma doc_plain arr l : doc_of arr l -> doc_of arr (map plain_elem l).
Proof. unfold doc_of. rewrite !Forall_forall. intros H x HI. apply in_map_iff in HI as (y & <- & HI). destruct (H y HI) as (e & HE & (S1 & S2 & S3) & S4). exists e. split; [exact HE|]. split; [split; [exact S1|split; [exact S2|exact S3]]|exact S4]. Qed.
Lemma doc_self l : doc_of l l.
Proof. apply Forall_forall. intros x HI. exists x. split; [exact HI|]. split; [split; [|split]|]; reflexivity. Qed.
Lemma doc_keys arr l : doc_of arr l -> incl (keys l) (keys arr).
Proof. intros H k HI. apply in_map_iff in HI as (x & <- & HI). unfold doc_of in H. rewrite Forall_forall in H. destruct (H x HI) as (e & HE & (S1 & _) & _). rewrite <- S1. apply in_map. exact HE. Qed.
Lemma request_ok arr c x d : (exists e, In e arr /\ same_elem e x) -> doc_of arr (flats d) -> req_ok arr (request_of c x d).
Proof.
  intros (e & HE & S1 & S2 & S3) D. exists e. unfold request_of. cbn [rq_from rq_url rq_target]. split; [exact HE|]. split; [exact S1|]. split; [exact S2|]. unfold target. rewrite <- S1, <- S3. split.
  - intros ->. reflexivity.
  - intros N k T. destruct (wrap e) as [|a w] eqn:W; [contradiction|]. unfold by_id in T. destruct (List.find _ _) as [y|] eqn:F; [|discriminate T]. cbn [option_map] in T. injection T as <-.
    apply List.find_some in F as [HY BY]. unfold doc_of in D. rewrite Forall_forall in D. destruct (D y HY) as (t & HT & (T1 & _) & T4). exists t. split; [exact HT|]. split; [exact T1|]. apply beq_eq in BY. congruence.
Qed.
Lemma sendings_ok arr c d l : among arr l -> doc_of arr (flats d) -> Forall (req_ok arr) (sendings c d l).
Proof. intros A D. unfold sendings. apply Forall_forall. intros r HI. apply in_map_iff in HI as (x & <- & HI). unfold among in A. rewrite Forall_forall in A. apply request_ok; [exact (A x HI)|exact D]. Qed.

Record Inv (arr : list elem) (evs : list event) (p : page) : Prop := {
  nd_arr : NoDup (keys arr);
  nd_doc : NoDup (keys (flats (doc p)));
  no_marks : Forall (fun e => marks e = []) (flats (doc p));
  docs : doc_of arr (flats (doc p));
  submits : forall k, fires k (submit_l p) = wanted MForm k arr;
  clickl : forall k, fires k (click_l p) = wanted MClick k arr;
  watched : forall k, asked CVisible k (sent p) ++ fires k (observed p) = wanted MVisible k arr;
  autos : forall k, asked CAuto k (sent p) = wanted MAuto k arr;
  clicked : forall k, asked CClick k (sent p) = concat (repeat (wanted MClick k arr) (clicks k evs));
  viewed : forall k, length (asked CVisible k (sent p)) = views k evs;
  forms : forall k, Permutation (asked CForm k (sent p) ++ asked CForm k (timers p)) (concat (repeat (wanted MForm k arr) (submissions k evs)));
  timers_form : Forall (fun r => rq_cause r = CForm) (timers p);
  not_before : forall k, ~ In k (keys arr) -> clicks k evs = 0 /\ submissions k evs = 0;
  am_s : among arr (submit_l p);
  am_c : among arr (click_l p);
  am_o : among arr (observed p);
  reqs : Forall (req_ok arr) (sent p);
  reqs_t : Forall (req_ok arr) (timers p);
  reqs_p : incl (pending p) (sent p) }.

Lemma concat_repeat_nil {A} n : concat (repeat (@nil A) n) = [].
Proof. induction n as [|n IH]; [reflexivity|exact IH]. Qed.
Lemma asked_none c k l : (forall r, In r l -> rq_from r <> k) -> asked c k l = [].
Proof.
  unfold asked. induction l as [|r l IH]; intro H; [reflexivity|]. cbn [filter]. destruct (Nat.eqb_spec (rq_from r) k) as [E|E]; [destruct (H r (or_introl eq_refl) E)|]. rewrite andb_false_r. apply IH. intros r' HI. apply H. right. exact HI.
Qed.
Lemma req_ok_from arr r : req_ok arr r -> In (rq_from r) (keys arr).
Proof. intros (e & HI & E & _). rewrite <- E. apply in_map. exact HI. Qed.

(** neutral_fev on a page whose document has got the elements [new] *)
Lemma inv_fev arr evs p q new : Inv arr evs p -> NoDup (keys (arr ++ new)) ->
  submit_l q = submit_l p -> click_l q = click_l p -> observed q = observed p -> timers q = timers p -> sent q = sent p -> incl (pending q) (sent p) ->
  NoDup (keys (flats (doc q))) -> doc_of (arr ++ new) (flats (doc q)) -> (forall m k, wanted m k (flats (doc q)) = wanted m k new) ->
  Inv (arr ++ new) evs (neutral_fev q).
Proof.
  intros I ND ES EC EO ET EQ EP NDq D W. destruct (fev_armed q) as [AD AS AC AO AA AT (d & Ad & Asent & Apend)].
  assert (doc_of (arr ++ new) (flats d)) as Dd by (rewrite Ad; repeat apply doc_unmark; exact D).
  assert (forall k, In k (keys new) -> ~ In k (keys arr)) as FR by (rewrite keys_app in ND; intros k H1 H2; destruct (nodup_app _ _ ND) as (_ & _ & H3); exact (H3 k H2 H1)).
  destruct (AA (arr ++ new)) as (A1 & A2 & A3); [rewrite ES; apply among_more, (am_s _ _ _ I)|rewrite EC; apply among_more, (am_c _ _ _ I)|rewrite EO; apply among_more, (am_o _ _ _ I)|apply doc_among; exact D|].
  split.
  - exact ND.
  - rewrite AD, flats_plain. unfold keys. rewrite map_map. exact NDq.
  - rewrite AD, flats_plain. apply Forall_forall. intros e HI. apply in_map_iff in HI as (x & <- & _). reflexivity.
  - rewrite AD, flats_plain. apply doc_plain. exact D.
  - intro k. rewrite AS, ES, W, (submits _ _ _ I), wanted_app. reflexivity.
  - intro k. rewrite AC, EC, W, (clickl _ _ _ I), wanted_app. reflexivity.
  - intro k. rewrite AO, EO, W, Asent, EQ, asked_app, asked_sendings. cbn [cause_eqb]. rewrite app_nil_r, app_assoc, (watched _ _ _ I), wanted_app. reflexivity.
  - intro k. rewrite Asent, EQ, asked_app, asked_sendings. cbn [cause_eqb]. rewrite fires_unmark. fold (wanted MAuto k (flats (doc q))). rewrite W, (autos _ _ _ I), wanted_app. reflexivity.
  - intro k. rewrite Asent, EQ, asked_app, asked_sendings. cbn [cause_eqb]. rewrite app_nil_r, (clicked _ _ _ I), wanted_app. destruct (in_dec Nat.eq_dec k (keys new)) as [HI|HN].
    + destruct (not_before _ _ _ I k (FR k HI)) as [-> _]. reflexivity.
    + rewrite (wanted_nil MClick k new HN), app_nil_r. reflexivity.
  - intro k. rewrite Asent, EQ, asked_app, asked_sendings. cbn [cause_eqb]. rewrite app_nil_r. apply (viewed _ _ _ I).
  - intro k. rewrite Asent, EQ, AT, ET, asked_app, asked_sendings. cbn [cause_eqb]. rewrite app_nil_r. etransitivity; [apply (forms _ _ _ I)|]. rewrite wanted_app. destruct (in_dec Nat.eq_dec k (keys new)) as [HI|HN].
    + destruct (not_before _ _ _ I k (FR k HI)) as [_ ->]. reflexivity.
    + rewrite (wanted_nil MForm k new HN), app_nil_r. reflexivity.
  - rewrite AT, ET. apply (timers_form _ _ _ I).
  - intros k N. apply (not_before _ _ _ I). intro HI. apply N. rewrite keys_app. apply in_or_app. left. exact HI.
  - exact A1.
  - exact A2.
  - exact A3.
  - rewrite Asent, EQ. apply Forall_app. split; [eapply Forall_impl; [|apply (reqs _ _ _ I)]; intros; apply req_ok_more; assumption|].
    apply sendings_ok; [|exact Dd]. apply among_unmark, among_filter, doc_among. exact D.
  - rewrite AT, ET. eapply Forall_impl; [|apply (reqs_t _ _ _ I)]; intros; apply req_ok_more; assumption.
  - rewrite Asent, Apend, EQ. apply incl_app; [apply incl_appl; exact EP|apply incl_appr, incl_refl].
Qed.

Lemma inv_load d : NoDup (keys (flats d)) -> Inv (flats d) [] (load d).
Proof.
  intro ND. unfold load. change (flats d) with ([] ++ flats d). apply (inv_fev [] [] (mkPage [] [] [] [] [] [] [])); try reflexivity.
  - split; try (intros; reflexivity); try constructor; try constructor; try reflexivity. intros k HI. exact HI.
  - exact ND.
  - apply incl_refl.
  - exact ND.
  - apply doc_self.
Qed.

Lemma inv_evs arr evs evs' p : Inv arr evs p -> (forall k, clicks k evs' = clicks k evs) -> (forall k, views k evs' = views k evs) -> (forall k, submissions k evs' = submissions k evs) -> Inv arr evs' p.
Proof.
  intros I E1 E2 E3. destruct I. split; try assumption; intro k; rewrite ?E1, ?E2, ?E3; auto.
Qed.
Lemma clicks_snoc k evs e : clicks k (evs ++ [e]) = clicks k evs + match e with Click path => if existsb (Nat.eqb k) path then 1 else 0 | _ => 0 end.
Proof. unfold clicks. rewrite filter_app, app_length. f_equal. destruct e; try reflexivity. cbn [filter]. destruct (existsb _ path); reflexivity. Qed.
Lemma views_snoc k evs e : views k (evs ++ [e]) = views k evs + match e with Visible k' => if Nat.eqb k' k then 1 else 0 | _ => 0 end.
Proof. unfold views. rewrite filter_app, app_length. f_equal. destruct e; try reflexivity. cbn [filter]. destruct (Nat.eqb k0 k); reflexivity. Qed.
Lemma submissions_snoc k evs e : submissions k (evs ++ [e]) = submissions k evs + match e with Submit k' => if Nat.eqb k' k then 1 else 0 | _ => 0 end.
Proof. unfold submissions. rewrite filter_app, app_length. f_equal. destruct e; try reflexivity. cbn [filter]. destruct (Nat.eqb k0 k); reflexivity. Qed.

Lemma path_keys path d : path_in path d -> incl path (keys (flats d)).
Proof.
  induction 1 as [e l d HI|e l d path HI P IH]; apply in_split in HI as (a & b & ->); rewrite flats_app, keys_app; change (keys (flats (Tree e l :: b))) with (key e :: keys (flats l ++ flats b)); rewrite keys_app.
  - intros k [<- |[]]. apply in_or_app. right. left. reflexivity.
  - intros k HK. apply in_app_or in HK as [HK|[<- |[]]]; apply in_or_app; right; [right; apply in_or_app; left; exact (IH k HK)|left; reflexivity].
Qed.
Lemma path_nodup path d : path_in path d -> NoDup (keys (flats d)) -> NoDup path.
Proof.
  induction 1 as [e l d HI|e l d path HI P IH]; intro ND; [constructor; [intros []|constructor]|]. apply in_split in HI as (a & b & ->). rewrite flats_app, keys_app in ND. apply nodup_app in ND as (_ & ND & _).
  change (keys (flats (Tree e l :: b))) with (key e :: keys (flats l ++ flats b)) in ND. inversion ND as [|? ? N ND']; subst. rewrite keys_app in ND', N. apply nodup_app in ND' as (ND' & _ & _).
  apply Permutation_NoDup with (key e :: path); [apply Permutation_cons_append|]. constructor; [|exact (IH ND')]. intro HK. apply N, in_or_app. left. exact (path_keys _ _ P _ HK).
Qed.
Lemma fires_listeners k k' l : fires k (listeners k' l) = if Nat.eqb k k' then fires k l else [].
Proof.
  unfold fires, listeners. induction l as [|e l IH]; [destruct (Nat.eqb k k'); reflexivity|]. cbn [filter]. destruct (Nat.eqb_spec (key e) k') as [E|E].
  - cbn [filter]. destruct (Nat.eqb_spec k k') as [F|F]; [subst k'; subst k; rewrite Nat.eqb_refl; cbn [map]; rewrite IH; reflexivity|]. destruct (Nat.eqb_spec (key e) k) as [G|G]; [congruence|exact IH].
  - destruct (Nat.eqb_spec k k') as [F|F]; [|exact IH]. destruct (Nat.eqb_spec (key e) k) as [G|G]; [congruence|exact IH].
Qed.
Lemma fires_path k l path : NoDup path -> fires k (flat_map (fun k' => listeners k' l) path) = if existsb (Nat.eqb k) path then fires k l else [].
Proof.
  induction path as [|x path IH]; intro ND; [reflexivity|]. inversion ND as [|? ? N ND']; subst. cbn [flat_map existsb]. rewrite fires_app, fires_listeners, IH by exact ND'. destruct (Nat.eqb_spec k x) as [E|E]; [|reflexivity].
  subst x. cbn [orb]. destruct (existsb (Nat.eqb k) path) eqn:EX; [|apply app_nil_r]. apply existsb_exists in EX as (y & HY & EY). apply Nat.eqb_eq in EY. subst y. contradiction.
Qed.
Lemma among_listeners arr k l : among arr l -> among arr (listeners k l).
Proof. apply among_filter. Qed.
Lemma among_path arr l path : among arr l -> among arr (flat_map (fun k' => listeners k' l) path).
Proof. intro A. induction path as [|x path IH]; [constructor|]. cbn [flat_map]. apply among_app; [apply among_listeners; exact A|exact IH]. Qed.
Lemma incl_without {A} n (l : list A) : incl (without n l) l.
Proof.
  intros x HI. unfold without in HI. apply in_app_or in HI as [HI|HI]; rewrite <- (firstn_skipn n l); apply in_or_app; [left; exact HI|right]. revert n HI. induction l as [|y l IH]; intros [|n] HI; cbn in *; auto.
Qed.
Lemma without_split {A} n (l : list A) x : nth_error l n = Some x -> exists a b, l = a ++ x :: b /\ without n l = a ++ b.
Proof.
  revert n. induction l as [|y l IH]; intros [|n] E; try discriminate.
  - cbn in E. injection E as ->. exists [], l. split; reflexivity.
  - cbn in E. destruct (IH n E) as (a & b & E1 & E2). exists (y :: a), b. change (without (S n) (y :: l)) with (y :: without n l). rewrite E2. split; [rewrite E1; reflexivity|reflexivity].
Qed.
Lemma concat_repeat_snoc {A} (x : list A) n : concat (repeat x (n + 1)) = concat (repeat x n) ++ x.
Proof. rewrite repeat_app, concat_app. cbn [repeat concat]. rewrite app_nil_r. reflexivity. Qed.

Lemma inv_answered arr evs p n : Inv arr evs p -> Inv arr evs (answered n p).
Proof. intro I. destruct I. split; try assumption. intros x HI. cbn [answered pending] in HI. apply incl_without in HI. cbn [answered sent]. auto. Qed.

Ltac same_evs I := apply (inv_evs _ _ _ _ I); intro; rewrite ?clicks_snoc, ?views_snoc, ?submissions_snoc; lia.
Lemma inv_step arr evs p e new : Inv arr evs p -> possible arr p e -> arrives p e new -> Inv (arr ++ new) (evs ++ [e]) (happens e p).
Proof.
  intros I PO AV. destruct PO as [path PI|k DK OK|k DK|n L|n nw L NDn FRn|n L]; cbn [happens].
  - (* click *)
    inversion AV as [| | |? HE]; subst; rewrite app_nil_r. rewrite fetch_all. pose proof (path_nodup _ _ PI (nd_doc _ _ _ I)) as NP.
    set (L := flat_map _ path). assert (among arr L) as AL by (apply among_path, (am_c _ _ _ I)).
    destruct I as [i1 i2 i3 i4 i5 i6 i7 i8 i9 i10 i11 i12 i13 i14 i15 i16 i17 i18 i19].
    split; cbn [doc submit_l click_l observed timers pending sent]; try assumption; try (intro k; rewrite ?asked_app, ?asked_sendings; cbn [cause_eqb]; rewrite ?app_nil_r, ?views_snoc, ?submissions_snoc, ?Nat.add_0_r; auto; fail).
    + intro k. rewrite asked_app, asked_sendings, clicks_snoc. cbn [cause_eqb]. unfold L. rewrite fires_path by exact NP. rewrite i6, i9. destruct (existsb _ path); [symmetry; apply concat_repeat_snoc|]. rewrite Nat.add_0_r. apply app_nil_r.
    + intros k N. rewrite clicks_snoc, submissions_snoc. destruct (i13 k N) as [-> ->]. split; [|reflexivity]. destruct (existsb (Nat.eqb k) path) eqn:EX; [|reflexivity].
      apply existsb_exists in EX as (y & HY & EY). apply Nat.eqb_eq in EY. subst y. destruct N. apply (doc_keys _ _ i4), (path_keys _ _ PI). exact HY.
    + apply Forall_app. split; [exact i17|]. apply sendings_ok; [exact AL|exact i4].
    + apply incl_app; [apply incl_appl; exact i19|apply incl_appr, incl_refl].
  - (* visible *)
    inversion AV as [| | |? HE]; subst; rewrite app_nil_r. rewrite fetch_all. cbn [doc submit_l click_l observed timers pending sent].
    destruct I as [i1 i2 i3 i4 i5 i6 i7 i8 i9 i10 i11 i12 i13 i14 i15 i16 i17 i18 i19].
    assert (forall k', fires k' (filter (fun e => negb (Nat.eqb (key e) k)) (observed p)) = if Nat.eqb k' k then [] else fires k' (observed p)) as FF.
    { intro k'. unfold fires, listeners. clear. generalize (observed p). intro ob. induction ob as [|x l IH]; [destruct (Nat.eqb k' k); reflexivity|]. cbn [filter]. destruct (Nat.eqb_spec (key x) k) as [E|E]; cbn [negb filter].
      - rewrite IH. destruct (Nat.eqb_spec k' k) as [F|F]; [reflexivity|]. destruct (Nat.eqb_spec (key x) k') as [G|G]; [congruence|reflexivity].
      - destruct (Nat.eqb_spec (key x) k') as [G|G]; [|exact IH]. destruct (Nat.eqb_spec k' k) as [F|F]; [congruence|]. cbn [map]. rewrite IH. reflexivity. }
    split; cbn [doc submit_l click_l observed timers pending sent]; try assumption; try (intro k'; rewrite ?asked_app, ?asked_sendings; cbn [cause_eqb]; rewrite ?app_nil_r, ?clicks_snoc, ?submissions_snoc, ?Nat.add_0_r; auto; fail).
    + intro k'. rewrite asked_app, asked_sendings, FF, fires_listeners. cbn [cause_eqb]. destruct (Nat.eqb k' k); rewrite app_nil_r; apply i7.
    + intro k'. rewrite asked_app, asked_sendings, fires_listeners, views_snoc, app_length, i10. cbn [cause_eqb]. rewrite (Nat.eqb_sym k k'). destruct (Nat.eqb_spec k' k) as [E|E]; [|reflexivity]. subst k'. f_equal.
      pose proof (wanted_le MVisible k arr i1) as LE. rewrite <- i7, app_length in LE. assert (fires k (observed p) <> []) as NE.
      { apply in_map_iff in OK as (x & EX & HX). unfold fires, listeners. intro EE. apply map_eq_nil in EE. assert (In x (filter (fun e => Nat.eqb (key e) k) (observed p))) as HF by (apply filter_In; split; [exact HX|apply Nat.eqb_eq; exact EX]). rewrite EE in HF. destruct HF. }
      destruct (fires k (observed p)) as [|u [|]]; [contradiction|reflexivity|cbn [length] in LE; lia].
    + apply among_filter. exact i16.
    + apply Forall_app. split; [exact i17|]. apply sendings_ok; [apply among_listeners; exact i16|exact i4].
    + apply incl_app; [apply incl_appl; exact i19|apply incl_appr, incl_refl].
  - (* submit *)
    inversion AV as [| | |? HE]; subst; rewrite app_nil_r. fold (sendings CForm (doc p) (listeners k (submit_l p))).
    destruct I as [i1 i2 i3 i4 i5 i6 i7 i8 i9 i10 i11 i12 i13 i14 i15 i16 i17 i18 i19].
    split; cbn [doc submit_l click_l observed timers pending sent]; try assumption; try (intro k'; rewrite ?clicks_snoc, ?views_snoc, ?Nat.add_0_r; auto; fail).
    + intro k'. rewrite asked_app, asked_sendings, fires_listeners, submissions_snoc, i5. cbn [cause_eqb]. rewrite app_assoc, (Nat.eqb_sym k k'). destruct (Nat.eqb k' k); [|rewrite app_nil_r, Nat.add_0_r; apply i11].
      rewrite concat_repeat_snoc. apply Permutation_app_tail, i11.
    + apply Forall_app. split; [exact i12|]. apply Forall_forall. intros r HI. apply in_map_iff in HI as (x & <- & _). reflexivity.
    + intros k' N. rewrite clicks_snoc, submissions_snoc. destruct (i13 k' N) as [-> ->]. split; [reflexivity|]. destruct (Nat.eqb_spec k k') as [E|E]; [|reflexivity]. subst k'. destruct N. apply (doc_keys _ _ i4). exact DK.
    + apply Forall_app. split; [exact i18|]. apply sendings_ok; [apply among_listeners; exact i14|exact i4].
  - (* delay *)
    inversion AV as [| | |? HE]; subst; rewrite app_nil_r. destruct (nth_error (timers p) n) as [r|] eqn:EN; [|apply nth_error_None in EN; lia].
    destruct (without_split _ _ _ EN) as (a & b & E1 & E2). unfold send. cbn [doc submit_l click_l observed timers pending sent]. rewrite E2.
    destruct I as [i1 i2 i3 i4 i5 i6 i7 i8 i9 i10 i11 i12 i13 i14 i15 i16 i17 i18 i19]. rewrite E1 in i12, i18. apply Forall_app in i12 as [F1 F2]. inversion F2 as [|? ? FC F3]; subst. apply Forall_app in i18 as [G1 G2]. inversion G2 as [|? ? GC G3]; subst.
    assert (forall c k, c <> CForm -> asked c k [r] = []) as AN by (intros c k N; unfold asked; cbn [filter]; rewrite FC; destruct c; try reflexivity; contradiction).
    split; cbn [doc submit_l click_l observed timers pending sent]; try assumption; try (intro k'; rewrite ?asked_app, ?AN by discriminate; rewrite ?app_nil_r, ?clicks_snoc, ?submissions_snoc, ?views_snoc, ?Nat.add_0_r; auto; fail).
    + intro k. rewrite submissions_snoc, Nat.add_0_r. etransitivity; [|apply i11]. rewrite E1, !asked_app. change (r :: b) with ([r] ++ b). rewrite asked_app. rewrite <- !app_assoc. apply Permutation_app_head. rewrite !app_assoc. apply Permutation_app_tail, Permutation_app_comm.
    + apply Forall_app. split; assumption.
    + apply Forall_app. split; [assumption|]. constructor; [exact GC|constructor].
    + apply Forall_app. split; assumption.
    + apply incl_app; [apply incl_appl; exact i19|apply incl_appr, incl_refl].
  - (* reply *)
    destruct (nth_error (pending p) n) as [r|] eqn:EN; [|apply nth_error_None in EN; lia].
    assert (Inv arr (evs ++ [Reply n nw]) p) as I' by same_evs I. clear I. rename I' into I.
    inversion AV as [? ? r' k H1 H2 H3|? ? r' k H1 H2 H3|? ? r' H1 H2|? HE]; subst; try (rewrite EN in H1; injection H1 as <-; rewrite H2); [| | |destruct (HE n nw eq_refl)].
    + assert (NoDup (keys (arr ++ flats nw))) as NDa.
      { rewrite keys_app. clear - NDn FRn I. destruct I as [i1]. clear - NDn FRn i1. revert i1. generalize (keys arr) (keys (flats nw)) NDn FRn. intros a b NB DJ NA. induction a as [|x a IH]; [exact NB|]. inversion NA as [|? ? N NA']; subst. cbn [app]. constructor.
        - intro HI. apply in_app_or in HI as [HI|HI]; [contradiction|]. apply (DJ x HI). left. reflexivity.
        - apply IH; [|exact NA']. intros k HK HA. apply (DJ k HK). right. exact HA. }
      destruct (turns_flats _ _ _ _ (put_present k nw (doc p) (nd_doc _ _ _ I) H3)) as (pre & e & l & post & T1 & T2 & T3). cbn beta in T3.
      apply (inv_fev arr _ p); try reflexivity; try assumption.
      * intros x HI. apply incl_without in HI. apply (reqs_p _ _ _ I). exact HI.
      * cbn [doc set_doc]. rewrite T3. rewrite !keys_app. pose proof (nd_doc _ _ _ I) as ND. pose proof (doc_keys _ _ (docs _ _ _ I)) as DKS. rewrite T1, !keys_app in ND, DKS.
        destruct (nodup_app _ _ ND) as (P1 & P2 & P3). destruct (nodup_app _ _ P2) as (Q1 & Q2 & Q3).
        assert (forall a b : list nat, NoDup a -> NoDup b -> (forall x, In x a -> ~ In x b) -> NoDup (a ++ b)) as NA.
        { clear. intros a b NA NB DJ. induction a as [|x a IH]; [exact NB|]. inversion NA as [|? ? N NA']; subst. cbn [app]. constructor; [|apply IH; [exact NA'|]; intros y HY; apply DJ; right; exact HY].
          intro HI. apply in_app_or in HI as [HI|HI]; [contradiction|]. apply (DJ x (or_introl eq_refl) HI). }
        apply NA; [exact P1|apply NA; [exact NDn|exact Q2|]|].
        -- intros x HX HP. apply (FRn x HX), DKS. apply in_or_app. right. apply in_or_app. right. exact HP.
        -- intros x HX HP. apply in_app_or in HP as [HP|HP]; [apply (FRn x HP), DKS, in_or_app; left; exact HX|]. apply (P3 x HX), in_or_app. right. exact HP.
      * cbn [doc set_doc]. rewrite T3. pose proof (docs _ _ _ I) as DD. rewrite T1 in DD. apply Forall_app in DD as [D1 D2]. apply Forall_app in D2 as [_ D2]. apply Forall_app. split; [apply doc_of_more; exact D1|]. apply Forall_app. split; [|apply doc_of_more; exact D2].
        pose proof (doc_self (flats nw)) as DS. unfold doc_of in *. rewrite Forall_forall in *. intros x HX. destruct (DS x HX) as (y & HY & SY). exists y. split; [apply in_or_app; right; exact HY|exact SY].
      * intros m k'. cbn [doc set_doc]. rewrite T3, !wanted_app. pose proof (no_marks _ _ _ I) as MM. rewrite T1 in MM. apply Forall_app in MM as [M1 M2]. apply Forall_app in M2 as [_ M2]. rewrite (wanted_unmarked m k' pre M1), (wanted_unmarked m k' post M2), app_nil_r. reflexivity.
    + rewrite put_absent by exact H3. apply (inv_fev arr _ p); try reflexivity; try assumption.
      * rewrite app_nil_r. exact (nd_arr _ _ _ I).
      * intros x HI. apply incl_without in HI. apply (reqs_p _ _ _ I). exact HI.
      * exact (nd_doc _ _ _ I).
      * rewrite app_nil_r. exact (docs _ _ _ I).
      * intros m k'. cbn [doc set_doc]. rewrite (wanted_unmarked m k' _ (no_marks _ _ _ I)). reflexivity.
    + destruct (is_form r); [|rewrite app_nil_r; apply inv_answered; exact I]. apply (inv_fev arr _ p); try reflexivity; try assumption.
      * rewrite app_nil_r. exact (nd_arr _ _ _ I).
      * intros x HI. apply incl_without in HI. apply (reqs_p _ _ _ I). exact HI.
      * exact (nd_doc _ _ _ I).
      * rewrite app_nil_r. exact (docs _ _ _ I).
      * intros m k'. cbn [doc answered]. rewrite (wanted_unmarked m k' _ (no_marks _ _ _ I)). reflexivity.
  - (* failure *)
    destruct (nth_error (pending p) n) as [r|] eqn:EN; [|apply nth_error_None in EN; lia].
    assert (Inv arr (evs ++ [Fail n]) p) as I' by same_evs I. clear I. rename I' into I.
    inversion AV as [| | |? HE]; subst.
    assert (forall q, submit_l q = submit_l p -> click_l q = click_l p -> observed q = observed p -> timers q = timers p -> sent q = sent p -> pending q = without n (pending p) -> NoDup (keys (flats (doc q))) -> incl (flats (doc q)) (flats (doc p)) -> Inv (arr ++ []) (evs ++ [Fail n]) (neutral_fev q)) as GO.
    { intros q Q1 Q2 Q3 Q4 Q5 Q6 Q7 Q8. apply (inv_fev arr _ p); try assumption.
      - rewrite app_nil_r. exact (nd_arr _ _ _ I).
      - rewrite Q6. intros x HI. apply incl_without in HI. apply (reqs_p _ _ _ I). exact HI.
      - rewrite app_nil_r. pose proof (docs _ _ _ I) as DD. unfold doc_of in *. rewrite Forall_forall in *. intros x HX. apply DD, Q8, HX.
      - intros m k'. rewrite wanted_unmarked; [reflexivity|]. pose proof (no_marks _ _ _ I) as DD. rewrite Forall_forall in *. intros x HX. apply DD, Q8, HX. }
    destruct (is_form r); [apply GO; try reflexivity; [exact (nd_doc _ _ _ I)|apply incl_refl]|]. destruct (rq_target r) as [k|]; [|rewrite app_nil_r; apply inv_answered; exact I].
    apply GO; try reflexivity; cbn [doc set_doc]; (destruct (in_dec Nat.eq_dec k (keys (flats (doc p)))) as [HK|HK]; [|rewrite empty_absent by exact HK; first [exact (nd_doc _ _ _ I)|apply incl_refl]]);
      destruct (turns_flats _ _ _ _ (empty_present k (doc p) (nd_doc _ _ _ I) HK)) as (pre & e & l & post & T1 & T2 & T3); cbn [childless flats flat_map flat app] in T3.
    + rewrite T3. pose proof (nd_doc _ _ _ I) as ND. rewrite T1 in ND. unfold keys in *. cbn [flat app] in ND |- *. rewrite !map_app in *. cbn [map] in *. rewrite ?map_app in ND.
      clear - ND. revert ND. generalize (map key pre) (map key (flat_map flat l)) (map key post) (key e). intros a b c x ND. destruct (nodup_app _ _ ND) as (P1 & P2 & P3). inversion P2 as [|? ? N Q]; subst. destruct (nodup_app _ _ Q) as (_ & Q2 & _).
      assert (NoDup (x :: c)) as NC by (constructor; [intro HI; apply N, in_or_app; right; exact HI|exact Q2]). clear ND P2 Q N. induction a as [|y a IH]; [exact NC|]. inversion P1 as [|? ? N' P1']; subst. cbn [app]. constructor.
      * intro HI. apply in_app_or in HI as [HI|HI]; [contradiction|]. apply (P3 y (or_introl eq_refl)). destruct HI as [HI|HI]; [left; exact HI|right; apply in_or_app; right; exact HI].
      * apply IH; [exact P1'|]. intros z HZ. apply P3. right. exact HZ.
    + rewrite T1, T3. intros x HX. apply in_app_or in HX as [HX|HX]; apply in_or_app; [left; exact HX|right]. cbn [flat app] in HX |- *. destruct HX as [<- |HX]; [left; reflexivity|right; apply in_or_app; right; exact HX].
Qed.
