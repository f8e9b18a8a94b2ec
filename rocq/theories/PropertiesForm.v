(** * C100: the forms of the client script *)
From Verif Require Import Bytes BytesFacts ClientForm SpecForm.

(** ** The buttons *)
Definition phase (sl se : bytes) (bs : list button) (evs : list ui_event) (f : form_ui) : Prop :=
  (~ In UDone evs /\ flights f = 0 /\ errors f = 0 /\ all_show (fun t => t) false bs (buttons f)) \/
  (~ In UDone evs /\ flights f = 1 /\ errors f = 0 /\ all_show (fun t => t ++ B " " ++ sl) true bs (buttons f) /\ Forall2 (fun a b => restsubs b = Some (shows a)) bs (buttons f)) \/
  (~ In UDone evs /\ flights f = 0 /\ errors f = 1 /\ all_show (fun _ => se) true bs (buttons f) /\ Forall2 (fun a b => restsubs b = Some (shows a)) bs (buttons f)) \/
  (In UDone evs /\ flights f = 0 /\ errors f = 0 /\ all_show (fun t => t ++ B " " ++ sl) true bs (buttons f)).
Lemma all_show_dis t dis bs now b : all_show t dis bs now -> In b now -> disabled b = dis.
Proof. intro H. induction H as [|a b' l l' P _ IH]; intros HI; [destruct HI|]. destruct HI as [<- |HI]; [exact (proj2 P)|exact (IH HI)]. Qed.
Lemma forall2_map_r {A C D} (P : A -> C -> Prop) (Q : A -> D -> Prop) (g : C -> D) l l' : (forall a c, P a c -> Q a (g c)) -> Forall2 P l l' -> Forall2 Q l (map g l').
Proof. intros H F. induction F; cbn [map]; constructor; auto. Qed.
Lemma forall2_and {A C} (P Q : A -> C -> Prop) l l' : Forall2 P l l' -> Forall2 Q l l' -> Forall2 (fun a c => P a c /\ Q a c) l l'.
Proof. intro F. induction F; intro G; inversion G; subst; constructor; auto. Qed.
Lemma used_phase sl se bs evs f : used sl se bs evs f -> phase sl se bs evs f.
Proof.
  induction 1 as [F|evs f e U IH M].
  { left. split; [intros []|]. split; [reflexivity|]. split; [reflexivity|]. cbn [buttons]. induction F; constructor; auto. }
  assert (forall x, x <> UDone -> ~ In UDone evs -> ~ In UDone (evs ++ [x])) as NS by (intros x N N' HI; apply in_app_or in HI as [HI|[HI|[]]]; contradiction).
  destruct IH as [(N & E1 & E2 & S)|[(N & E1 & E2 & S & R)|[(N & E1 & E2 & S & R)|(N & E1 & E2 & S)]]]; destruct M as [b HB DB|L|L|L]; try lia; cbn [ui_step]; unfold phase; cbn [flights errors buttons].
  - right. left. split; [apply NS; [discriminate|exact N]|]. split; [lia|]. split; [lia|]. split; (eapply forall2_map_r; [|exact S]); cbn; intros a c [HS HD]; [split; [rewrite HS; reflexivity|reflexivity]|rewrite HS; reflexivity].
  - rewrite (all_show_dis _ _ _ _ b S HB) in DB. discriminate DB.
  - right. right. right. split; [apply in_or_app; right; left; reflexivity|]. split; [lia|]. split; [lia|]. exact S.
  - right. right. left. split; [apply NS; [discriminate|exact N]|]. split; [lia|]. split; [lia|]. split; (eapply forall2_map_r; [|exact R]); cbn; intros a c HR; [split; reflexivity|exact HR].
  - rewrite (all_show_dis _ _ _ _ b S HB) in DB. discriminate DB.
  - left. split; [apply NS; [discriminate|exact N]|]. split; [lia|]. split; [lia|]. eapply forall2_map_r; [|exact R]. cbn. intros a c ->. split; reflexivity.
  - rewrite (all_show_dis _ _ _ _ b S HB) in DB. discriminate DB.
Qed.

(** A form has at most one request under way, and none while it shows an error. *)
Theorem C100_one_at_a_time sl se bs evs f : used sl se bs evs f -> flights f + errors f <= 1.
Proof. intro U. destruct (used_phase _ _ _ _ _ U) as [(_ & -> & -> & _)|[(_ & -> & -> & _)|[(_ & -> & -> & _)|(_ & -> & -> & _)]]]; lia. Qed.
Print Assumptions C100_one_at_a_time.

(** As long as no request has succeeded, the buttons show what they showed at first whenever nothing is under way; they show it with the
    loading text while a request is, and the error text after a failure; and they can be used in the first case only. *)
Theorem C100_buttons sl se bs evs f : used sl se bs evs f -> ~ In UDone evs ->
  (flights f = 0 -> errors f = 0 -> all_show (fun t => t) false bs (buttons f)) /\
  (0 < flights f -> all_show (fun t => t ++ B " " ++ sl) true bs (buttons f)) /\
  (0 < errors f -> all_show (fun _ => se) true bs (buttons f)).
Proof.
  intros U ND. destruct (used_phase _ _ _ _ _ U) as [(_ & -> & -> & S)|[(_ & -> & -> & S & _)|[(_ & -> & -> & S & _)|(N & _)]]]; [| | |contradiction]; (split; [|split]); intros; try lia; exact S.
Qed.
Print Assumptions C100_buttons.

(** After a success that leaves the form in the document the form is dead: its buttons stay disabled with the loading text, and it can
    never be submitted again. *)
Theorem C100_stuck sl se bs evs f : used sl se bs evs f -> In UDone evs -> all_show (fun t => t ++ B " " ++ sl) true bs (buttons f) /\ forall e, ~ may f e.
Proof.
  intros U HD. destruct (used_phase _ _ _ _ _ U) as [(N & _)|[(N & _)|[(N & _)|(_ & E1 & E2 & S)]]]; try contradiction. split; [exact S|]. intros e M. destruct M as [b HB DB|L|L|L]; try lia.
  rewrite (all_show_dis _ _ _ _ b S HB) in DB. discriminate DB.
Qed.
Print Assumptions C100_stuck.
Definition ok_button : button := mkButton (B "Send") false None.
Example C100_use_example : used (B "...") (B "Error") [ok_button] [USubmit; UFail; URestore; USubmit; UDone] (mkForm [mkButton (B "Send ...") true (Some (B "Send"))] 0 0).
Proof.
  refine (us_next _ _ _ [USubmit; UFail; URestore; USubmit] (mkForm [mkButton (B "Send ...") true (Some (B "Send"))] 1 0) UDone _ (my_done _ _)); [|cbn; lia].
  refine (us_next _ _ _ [USubmit; UFail; URestore] (mkForm [mkButton (B "Send") false (Some (B "Send"))] 0 0) USubmit _ _); [|eapply my_submit; [left; reflexivity|reflexivity]].
  refine (us_next _ _ _ [USubmit; UFail] (mkForm [mkButton (B "Error") true (Some (B "Send"))] 0 1) URestore _ (my_restore _ _)); [|cbn; lia].
  refine (us_next _ _ _ [USubmit] (mkForm [mkButton (B "Send ...") true (Some (B "Send"))] 1 0) UFail _ (my_fail _ _)); [|cbn; lia].
  refine (us_next _ _ _ [] (mkForm [ok_button] 0 0) USubmit _ _); [|eapply my_submit; [left; reflexivity|reflexivity]]. apply us_new. repeat constructor.
Qed.
(** If a form is submitted again while a request is under way (a script, or a button without type=submit), the text is lost for good. *)
Theorem C100_overlap_refuted : exists bs evs, Forall (fun b => disabled b = false) bs /\ ~ In UDone evs /\
  let f := fold_left (fun f e => ui_step (B "...") (B "Error") e f) evs (mkForm bs 0 0) in flights f = 0 /\ errors f = 0 /\ ~ all_show (fun t => t) false bs (buttons f).
Proof.
  exists [ok_button], [USubmit; USubmit; UFail; UFail; URestore; URestore]. split; [repeat constructor|]. split; [cbn; intuition discriminate|]. cbn [fold_left ui_step flights errors buttons map]. split; [reflexivity|]. split; [reflexivity|].
  intro A. inversion A as [|? ? ? ? [H _] _]; subst. vm_compute in H. discriminate H.
Qed.
Print Assumptions C100_overlap_refuted.

(** ** What is sent *)
Lemma sent_as_app n a b : sent_as n (a ++ b) = sent_as n a ++ sent_as n b.
Proof. unfold sent_as. rewrite filter_app, map_app. reflexivity. Qed.
Lemma sent_as_pairs n m l : sent_as n (map (pair m) l) = if beq m n then l else [].
Proof.
  unfold sent_as. induction l as [|x l IH]; [destruct (beq m n); reflexivity|]. cbn [map filter fst]. destruct (beq m n) eqn:E; [|exact IH]. cbn [map snd]. rewrite IH. reflexivity.
Qed.
Definition from_data (c : control) : list (bytes * bytes) :=
  if match cname c with [] => true | _ => false end || cdisabled c then []
  else match ckind c with KButton => [] | KCheck => if checked c then map (pair (cname c)) (entries c) else [] | KText | KFile => map (pair (cname c)) (entries c) end.
Lemma from_data_as n c : cname c <> [] -> sent_as n (from_data c) = if beq (cname c) n then (if successful c then entries c else []) else [].
Proof.
  intro N. unfold from_data, successful. destruct (cname c) as [|x m]; [contradiction|]. cbn [orb]. destruct (cdisabled c); cbn [negb andb]; [destruct (beq _ n); reflexivity|].
  destruct (ckind c); [| destruct (checked c) | |]; try apply sent_as_pairs; destruct (beq _ n); reflexivity.
Qed.
Lemma other_data n c : cname c <> n -> sent_as n (from_data c) = [].
Proof.
  intro N. destruct (cname c) eqn:E; [unfold from_data; rewrite E; reflexivity|]. rewrite from_data_as by (rewrite E; discriminate). destruct (beq (cname c) n) eqn:B; [|reflexivity]. apply beq_eq in B. rewrite E in B. contradiction.
Qed.
Lemma other_appended n c : cname c <> n -> sent_as n (appended c) = [].
Proof.
  intro N. assert (sent_as n [(cname c, cvalue c)] = []) as O by (unfold sent_as; cbn [filter fst]; destruct (beq (cname c) n) eqn:B; [apply beq_eq in B; contradiction|reflexivity]).
  unfold appended. destruct (cname c); [reflexivity|]. destruct (ckind c); try destruct (contains _ _); try destruct (checked c); try reflexivity; exact O.
Qed.
Lemma others_map n g l : (forall c, cname c <> n -> sent_as n (g c) = []) -> (forall x, In x l -> cname x <> n) -> sent_as n (flat_map g l) = [].
Proof. intros G H. induction l as [|c l IH]; [reflexivity|]. cbn [flat_map]. rewrite sent_as_app, G, IH; [reflexivity| |apply H; left; reflexivity]. intros x HX. apply H. right. exact HX. Qed.
Lemma one_of g c f : (forall x, cname x <> cname c -> sent_as (cname c) (g x) = []) -> only_one c f -> sent_as (cname c) (flat_map g f) = sent_as (cname c) (g c).
Proof.
  intros G (_ & a & b & -> & H). rewrite flat_map_app. cbn [flat_map]. rewrite !sent_as_app, !(others_map (cname c) g) by (try exact G; intros x HX; apply H, in_or_app; auto). cbn [app]. apply app_nil_r.
Qed.
Lemma is_file_iff f : existsb is_file f = true <-> with_file f.
Proof.
  unfold with_file, is_file. rewrite existsb_exists. split.
  - intros (c & HI & E). exists c. split; [exact HI|]. destruct (cname c); [discriminate E|]. destruct (ckind c); try discriminate E. split; [reflexivity|discriminate].
  - intros (c & HI & K & N). exists c. split; [exact HI|]. destruct (cname c); [contradiction|]. rewrite K. reflexivity.
Qed.

(** Without a file field a form sends what the browser itself would send for its fields: every successful control, with its values. *)
Theorem C100_without_file f c : ~ with_file f -> only_one c f -> sent_as (cname c) (body f) = if successful c then entries c else [].
Proof.
  intros NF O. unfold body. destruct (existsb is_file f) eqn:E; [apply is_file_iff in E; contradiction|]. change (form_data f) with (flat_map from_data f). rewrite one_of by (try exact O; intros; apply other_data; assumption).
  destruct O as [N _]. rewrite from_data_as by exact N. rewrite beq_refl. reflexivity.
Qed.
Print Assumptions C100_without_file.
(** With a file field, every other control whose name has no [] in it is sent once more: a text field twice, a disabled field and
    every submit button once, though a browser would send neither. *)
Theorem C100_with_file f c : with_file f -> only_one c f ->
  sent_as (cname c) (body f) = (if successful c then entries c else []) ++
    (if contains (B "[]") (cname c) then [] else match ckind c with KFile => [] | KCheck => if checked c then [cvalue c] else [] | _ => [cvalue c] end).
Proof.
  intros WF O. unfold body. rewrite (proj2 (is_file_iff f) WF), sent_as_app. change (form_data f) with (flat_map from_data f). rewrite !one_of by (try exact O; intros; (apply other_data || apply other_appended); assumption).
  destruct O as [N _]. rewrite from_data_as by exact N. rewrite beq_refl. f_equal. assert (sent_as (cname c) [(cname c, cvalue c)] = [cvalue c]) as S1 by (unfold sent_as; cbn [filter fst]; rewrite beq_refl; reflexivity).
  unfold appended. destruct (cname c) as [|x m]; [contradiction|]. destruct (ckind c); destruct (contains _ _); try reflexivity; try exact S1. destruct (checked c); [exact S1|reflexivity].
Qed.
Print Assumptions C100_with_file.
Definition c_title : control := mkControl (B "title") KText (B "hello") [B "hello"] false false.
Definition c_photo : control := mkControl (B "photo") KFile (B "C:\fakepath\x.jpg") [B "x.jpg"] false false.
Definition c_send : control := mkControl (B "send") KButton (B "ok") [] false false.
Example C100_body_example : only_one c_title [c_photo; c_title; c_send] /\ with_file [c_photo; c_title; c_send] /\ ~ with_file [c_title; c_send] /\
  sent_as (B "title") (body [c_photo; c_title; c_send]) = [B "hello"; B "hello"] /\ sent_as (B "send") (body [c_photo; c_title; c_send]) = [B "ok"] /\ body [c_title; c_send] = [(B "title", B "hello")].
Proof.
  split; [split; [discriminate|]; exists [c_photo], [c_send]; split; [reflexivity|]; cbn; intuition (subst; discriminate)|]. split; [exists c_photo; split; [left; reflexivity|]; split; [reflexivity|discriminate]|].
  split; [intros (c & HI & K & _); cbn in HI; intuition (subst; discriminate)|]. vm_compute. repeat split.
Qed.
