(** * Specification for C99: the schedules of the client script *)
From Verif Require Import Bytes ClientJs.

Definition keys (l : list elem) : list nat := map key l.
Definition in_doc (k : nat) (p : page) : Prop := In k (keys (flats (doc p))).
(** [path] leads from an element up to the root *)
Inductive path_in : list nat -> forest -> Prop :=
| pi_root e l d : In (Tree e l) d -> path_in [key e] d
| pi_below e l d path : In (Tree e l) d -> path_in path l -> path_in (path ++ [key e]) d.

(** what can happen on a page: clicks and submissions of elements of the document, an observed element comes into view, a delay ends,
    a pending request is answered with elements that have not been there before, or fails *)
Inductive possible (arr : list elem) (p : page) : event -> Prop :=
| ps_click path : path_in path (doc p) -> possible arr p (Click path)
| ps_visible k : in_doc k p -> In k (keys (observed p)) -> possible arr p (Visible k)
| ps_submit k : in_doc k p -> possible arr p (Submit k)
| ps_delay n : n < length (timers p) -> possible arr p (Delay n)
| ps_reply n new : n < length (pending p) -> NoDup (keys (flats new)) -> (forall k, In k (keys (flats new)) -> ~ In k (keys arr)) -> possible arr p (Reply n new)
| ps_fail n : n < length (pending p) -> possible arr p (Fail n).

(** the elements that an event brings into the document *)
Inductive arrives (p : page) : event -> list elem -> Prop :=
| av_reply n new r k : nth_error (pending p) n = Some r -> rq_target r = Some k -> in_doc k p -> arrives p (Reply n new) (flats new)
| av_gone n new r k : nth_error (pending p) n = Some r -> rq_target r = Some k -> ~ in_doc k p -> arrives p (Reply n new) []
| av_lost n new r : nth_error (pending p) n = Some r -> rq_target r = None -> arrives p (Reply n new) []
| av_other e : (forall n new, e <> Reply n new) -> arrives p e [].

(** [story d evs arr p]: the document [d] has been loaded, then the events [evs] have happened; [arr] are the elements that have been in
    the document, as they arrived; [p] is the page now *)
Inductive story (d : forest) : list event -> list elem -> page -> Prop :=
| st_load : NoDup (keys (flats d)) -> story d [] (flats d) (load d)
| st_event evs arr p e new : story d evs arr p -> possible arr p e -> arrives p e new -> story d (evs ++ [e]) (arr ++ new) (happens e p).

(** the URLs requested for the element [k] because of [c], in order *)
Definition requested (c : cause) (k : nat) (p : page) : list bytes :=
  map rq_url (filter (fun r => cause_eqb (rq_cause r) c && Nat.eqb (rq_from r) k) (sent p)).
(** how often the element has been clicked (on it or on something in it), come into view, been submitted *)
Definition clicks (k : nat) (evs : list event) : nat :=
  length (filter (fun e => match e with Click path => existsb (Nat.eqb k) path | _ => false end) evs).
Definition views (k : nat) (evs : list event) : nat :=
  length (filter (fun e => match e with Visible k' => Nat.eqb k' k | _ => false end) evs).
Definition submissions (k : nat) (evs : list event) : nat :=
  length (filter (fun e => match e with Submit k' => Nat.eqb k' k | _ => false end) evs).
Definition waiting (k : nat) (p : page) : nat := length (filter (fun r => Nat.eqb (rq_from r) k) (timers p)).
(** how many answers and failures there have been *)
Definition answers (evs : list event) : nat :=
  length (filter (fun e => match e with Reply _ _ | Fail _ => true | _ => false end) evs).

(** ** The document *)
(** the element without the classes *)
Definition plain_elem (e : elem) : elem := mkElem (key e) [] (url e) (wrap e) (dom_id e).
Fixpoint plain_tree (t : tree) : tree := match t with Tree e l => Tree (plain_elem e) (map plain_tree l) end.
(** [turns k new d d']: [d'] is [d] with [new] in the place of the element [k] and all it contains *)
Inductive turns (k : nat) (new : tree -> forest) : forest -> forest -> Prop :=
| tn_here pre e l post : key e = k -> turns k new (pre ++ Tree e l :: post) (pre ++ new (Tree e l) ++ post)
| tn_below pre e l l' post : turns k new l l' -> turns k new (pre ++ Tree e l :: post) (pre ++ Tree e l' :: post).
Definition childless (t : tree) : forest := match t with Tree e _ => [Tree e []] end.
