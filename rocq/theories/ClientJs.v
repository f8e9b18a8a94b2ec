(** * The client script of {:fetch;...:} (constants.rs 356-487, NEUTRAL_JS; js/neutral.min.js is the same program minified)
    The document is a forest of elements; of an element only what the script looks at is kept: its fetch classes, data-url (for a form:
    action), data-wrap and id.  An event of the schedule is the load of the page, a click, an element becoming visible, the
    submission of a form, the end of the delay before a form is sent, and the arrival or failure of a response.  What a response is
    parsed to is part of the event.  Simplified: entries of one callback of the IntersectionObserver are separate events; other scripts
    do not change the classes and data attributes; the target is not the root element (whose outerHTML cannot be replaced). *)
From Verif Require Import Bytes.

Inductive mark := MForm | MAuto | MClick | MVisible.
Definition mark_eqb (a b : mark) : bool :=
  match a, b with MForm, MForm | MAuto, MAuto | MClick, MClick | MVisible, MVisible => true | _, _ => false end.
Record elem := mkElem { key : nat; marks : list mark; url : bytes; wrap : bytes; dom_id : bytes }.
Inductive tree := Tree (e : elem) (l : list tree).
Notation forest := (list tree).
(** the elements in document order *)
Fixpoint flat (t : tree) : list elem := match t with Tree e l => e :: flat_map flat l end.
Definition flats (d : forest) : list elem := flat_map flat d.
Definition has (m : mark) (e : elem) : bool := existsb (mark_eqb m) (marks e).

(** classList.remove on every element *)
Definition unmark (m : mark) (e : elem) : elem := mkElem (key e) (filter (fun x => negb (mark_eqb m x)) (marks e)) (url e) (wrap e) (dom_id e).
Fixpoint clear_tree (m : mark) (t : tree) : tree := match t with Tree e l => Tree (unmark m e) (map (clear_tree m) l) end.
Definition clear (m : mark) (d : forest) : forest := map (clear_tree m) d.
(** document.getElementById *)
Definition by_id (w : bytes) (d : forest) : option elem := List.find (fun e => beq (dom_id e) w) (flats d).
(** h.innerHTML=html; h.outerHTML=html: the element gives way to what the text is parsed to (nothing happens if it is not in the document) *)
Fixpoint put_tree (k : nat) (new : forest) (t : tree) : forest :=
  match t with Tree e l => if Nat.eqb (key e) k then new else [Tree e (flat_map (put_tree k new) l)] end.
Definition put (k : nat) (new d : forest) : forest := flat_map (put_tree k new) d.
(** h.innerHTML=text *)
Fixpoint empty_tree (k : nat) (t : tree) : tree :=
  match t with Tree e l => if Nat.eqb (key e) k then Tree e [] else Tree e (map (empty_tree k) l) end.
Definition empty (k : nat) (d : forest) : forest := map (empty_tree k) d.

Inductive cause := CForm | CAuto | CClick | CVisible.
Definition cause_eqb (a b : cause) : bool :=
  match a, b with CForm, CForm | CAuto, CAuto | CClick, CClick | CVisible, CVisible => true | _, _ => false end.
(** a request: why, for which element, to which URL, and the element whose place the response takes (None: no such element) *)
Record req := mkReq { rq_cause : cause; rq_from : nat; rq_url : bytes; rq_target : option nat }.
(** [timers]: forms that have been submitted and not yet sent; [pending]: requests without an answer; [sent]: all requests, oldest first *)
Record page := mkPage { doc : forest; submit_l : list elem; click_l : list elem; observed : list elem; timers : list req; pending : list req; sent : list req }.

(** constants.rs 386, 407: the target is looked up when the request is made *)
Definition target (e : elem) (d : forest) : option nat :=
  match wrap e with [] => Some (key e) | w => option_map key (by_id w d) end.
Definition request_of (c : cause) (e : elem) (d : forest) : req := mkReq c (key e) (url e) (target e d).
Definition send (r : req) (p : page) : page :=
  mkPage (doc p) (submit_l p) (click_l p) (observed p) (timers p) (pending p ++ [r]) (sent p ++ [r]).
(** neutral_fetch (385-398), up to the call of fetch *)
Definition neutral_fetch (c : cause) (p : page) (e : elem) : page := send (request_of c e (doc p)) p.

(** neutral_fev (453-477): every element with one of the classes loses it, and gets a listener, is requested or observed *)
Definition arm_forms (p : page) : page :=
  mkPage (clear MForm (doc p)) (submit_l p ++ filter (has MForm) (flats (doc p))) (click_l p) (observed p) (timers p) (pending p) (sent p).
Definition arm_autos (p : page) : page :=
  fold_left (neutral_fetch CAuto) (filter (has MAuto) (flats (doc p)))
    (mkPage (clear MAuto (doc p)) (submit_l p) (click_l p) (observed p) (timers p) (pending p) (sent p)).
Definition arm_clicks (p : page) : page :=
  mkPage (clear MClick (doc p)) (submit_l p) (click_l p ++ filter (has MClick) (flats (doc p))) (observed p) (timers p) (pending p) (sent p).
(** neutral_obs (378-383) *)
Definition arm_visibles (p : page) : page :=
  mkPage (clear MVisible (doc p)) (submit_l p) (click_l p) (observed p ++ filter (has MVisible) (flats (doc p))) (timers p) (pending p) (sent p).
Definition neutral_fev (p : page) : page := arm_visibles (arm_clicks (arm_autos (arm_forms p))).

Definition set_doc (d : forest) (p : page) : page := mkPage d (submit_l p) (click_l p) (observed p) (timers p) (pending p) (sent p).
Definition without {A} (n : nat) (l : list A) : list A := firstn n l ++ skipn (S n) l.
Definition answered (n : nat) (p : page) : page := mkPage (doc p) (submit_l p) (click_l p) (observed p) (timers p) (without n (pending p)) (sent p).
Definition is_form (r : req) : bool := cause_eqb (rq_cause r) CForm.

Inductive event :=
| Click (path : list nat)        (* the clicked element and its ancestors *)
| Visible (k : nat)
| Submit (k : nat)
| Delay (n : nat)                (* the delay of the n-th submitted form ends *)
| Reply (n : nat) (new : forest) (* the n-th pending request is answered *)
| Fail (n : nat).                (* it fails *)

Definition listeners (k : nat) (l : list elem) : list elem := filter (fun e => Nat.eqb (key e) k) l.
(** the handlers: 369-376, 385-398, 400-451, 453-477 *)
Definition happens (e : event) (p : page) : page :=
  match e with
  | Click path => fold_left (neutral_fetch CClick) (flat_map (fun k => listeners k (click_l p)) path) p
  | Visible k =>
      fold_left (neutral_fetch CVisible) (listeners k (observed p))
        (mkPage (doc p) (submit_l p) (click_l p) (filter (fun e => negb (Nat.eqb (key e) k)) (observed p)) (timers p) (pending p) (sent p))
  | Submit k =>
      mkPage (doc p) (submit_l p) (click_l p) (observed p)
        (timers p ++ map (fun e => request_of CForm e (doc p)) (listeners k (submit_l p))) (pending p) (sent p)
  | Delay n =>
      match nth_error (timers p) n with
      | Some r => send r (mkPage (doc p) (submit_l p) (click_l p) (observed p) (without n (timers p)) (pending p) (sent p))
      | None => p
      end
  | Reply n new =>
      match nth_error (pending p) n with
      | Some r =>
          match rq_target r with
          | Some k => neutral_fev (set_doc (put k new (doc p)) (answered n p))
          | None => if is_form r then neutral_fev (answered n p)   (* TypeError, caught: neutralFetchError *)
                    else answered n p                              (* TypeError, and again in catch *)
          end
      | None => p
      end
  | Fail n =>
      match nth_error (pending p) n with
      | Some r =>
          if is_form r then neutral_fev (answered n p)
          else match rq_target r with
               | Some k => neutral_fev (set_doc (empty k (doc p)) (answered n p))
               | None => answered n p
               end
      | None => p
      end
  end.
(** DOMContentLoaded *)
Definition load (d : forest) : page := neutral_fev (mkPage d [] [] [] [] [] []).
