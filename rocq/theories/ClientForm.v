(** * The forms of the client script (constants.rs 400-451, neutral_fetch_form): the submit buttons and what is sent *)
From Verif Require Import Bytes.

(** ** The buttons *)
(** a submit button: what it shows, whether it is disabled, dataset['restsubs'] *)
Record button := mkButton { shows : bytes; disabled : bool; restsubs : option bytes }.
(** the buttons of a form, the requests that have been started for it (from the submission on) and have no answer, the errors on display *)
Record form_ui := mkForm { buttons : list button; flights : nat; errors : nat }.
Inductive ui_event := USubmit | UDone | UFail | URestore.
(** 401-406 *)
Definition on_submit (sl : bytes) (b : button) : button := mkButton (shows b ++ B " " ++ sl) true (Some (shows b)).
(** 443 *)
Definition on_error (se : bytes) (b : button) : button := mkButton se true (restsubs b).
(** 445 *)
Definition on_restore (b : button) : button := mkButton (match restsubs b with Some t => t | None => B "undefined" end) false (restsubs b).
(** the form is not part of what the answer replaces: UDone leaves the buttons as they are (434-438) *)
Definition ui_step (sl se : bytes) (e : ui_event) (f : form_ui) : form_ui :=
  match e with
  | USubmit => mkForm (map (on_submit sl) (buttons f)) (S (flights f)) (errors f)
  | UDone => mkForm (buttons f) (flights f - 1) (errors f)
  | UFail => mkForm (map (on_error se) (buttons f)) (flights f - 1) (S (errors f))
  | URestore => mkForm (map on_restore (buttons f)) (flights f) (errors f - 1)
  end.

(** ** The body *)
(** A control of the form.  [entries]: the values it contributes to a FormData when it is successful (one for a text field, the selected
    ones of a select, the files of a file field); [cvalue]: its value property. *)
Inductive kind := KText | KCheck | KFile | KButton.
Record control := mkControl { cname : bytes; ckind : kind; cvalue : bytes; entries : list bytes; checked : bool; cdisabled : bool }.
(** new FormData(f): the entry list of the HTML standard, without a submitter *)
Definition form_data (f : list control) : list (bytes * bytes) :=
  flat_map (fun c =>
    if match cname c with [] => true | _ => false end || cdisabled c then []
    else match ckind c with
         | KButton => []
         | KCheck => if checked c then map (pair (cname c)) (entries c) else []
         | KText | KFile => map (pair (cname c)) (entries c)
         end) f.
(** 409-426: the loop over f.elements *)
Definition appended (c : control) : list (bytes * bytes) :=
  match cname c with
  | [] => []
  | _ => match ckind c with
         | KFile => []
         | KCheck => if contains (B "[]") (cname c) then [] else if checked c then [(cname c, cvalue c)] else []
         | _ => if contains (B "[]") (cname c) then [] else [(cname c, cvalue c)]
         end
  end.
Definition is_file (c : control) : bool := match cname c with [] => false | _ => match ckind c with KFile => true | _ => false end end.
(** 427: without a file field the FormData is made anew *)
Definition body (f : list control) : list (bytes * bytes) :=
  if existsb is_file f then form_data f ++ flat_map appended f else form_data f.
