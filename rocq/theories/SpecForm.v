(** * Specification for C100: the forms of the client script *)
From Verif Require Import Bytes ClientForm.

(** a form can be submitted by a button that is not disabled; a request that is under way succeeds or fails; an error is taken back *)
Inductive may (f : form_ui) : ui_event -> Prop :=
| my_submit b : In b (buttons f) -> disabled b = false -> may f USubmit
| my_done : 0 < flights f -> may f UDone
| my_fail : 0 < flights f -> may f UFail
| my_restore : 0 < errors f -> may f URestore.
(** [used sl se bs evs f]: a form with the buttons [bs], after [evs] *)
Inductive used (sl se : bytes) (bs : list button) : list ui_event -> form_ui -> Prop :=
| us_new : Forall (fun b => disabled b = false) bs -> used sl se bs [] (mkForm bs 0 0)
| us_next evs f e : used sl se bs evs f -> may f e -> used sl se bs (evs ++ [e]) (ui_step sl se e f).
(** all the buttons show [t] of what they showed at first, and are disabled or not *)
Definition all_show (t : bytes -> bytes) (dis : bool) (bs now : list button) : Prop :=
  Forall2 (fun a b => shows b = t (shows a) /\ disabled b = dis) bs now.

(** the values sent under a name *)
Definition sent_as (n : bytes) (l : list (bytes * bytes)) : list bytes := map snd (filter (fun p => beq (fst p) n) l).
(** [c] is the only control of its name *)
Definition only_one (c : control) (f : list control) : Prop :=
  cname c <> [] /\ exists a b, f = a ++ c :: b /\ forall x, In x (a ++ b) -> cname x <> cname c.
(** it is successful: enabled, not a button, checked if it is a box *)
Definition successful (c : control) : bool :=
  negb (cdisabled c) && match ckind c with KButton => false | KCheck => checked c | _ => true end.
Definition with_file (f : list control) : Prop := exists c, In c f /\ ckind c = KFile /\ cname c <> [].
