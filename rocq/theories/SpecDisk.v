(** * Specification: a file system under the environment

    The other theorems let the environment answer as it likes.  Here it answers from a disk: what is created and written
    is found again, and the clock does not run backwards. *)

From Verif Require Import Bytes Json State.

(** the files: content and time of the last modification *)
Definition disk : Type := bytes -> option (bytes * N).
Definition same_but (p : bytes) (d d' : disk) : Prop := forall q, q <> p -> d' q = d q.
Definition begins (c' c : bytes) : Prop := exists r, c = c' ++ r.

(** What one interaction does to the disk, at the time [n].  A created file is empty; a write that fails may have written a part;
    a script may do anything. *)
Definition does (n : N) (e : event) (d d' : disk) : Prop :=
  match e with
  | EvCreate p None => d' p = Some ([], n) /\ same_but p d d'
  | EvWrite p c None => d' p = Some (c, n) /\ same_but p d d'
  | EvWrite p c (Some _) => (exists c', begins c' c /\ d' p = Some (c', n)) /\ same_but p d d'
  | EvPython _ _ | EvPhp _ _ => True
  | _ => forall q, d' q = d q
  end.

(** The environment lives on the disk [D] (given the interactions so far, newest first) with the clock [time]. *)
Record lives_on (env : Env) (D : trace -> disk) (time : trace -> N) : Prop := {
  lo_does : forall e t, does (time t) e (D t) (D (e :: t));
  lo_time : forall e t, (time t <= time (e :: t))%N;
  lo_now : forall t, env.(e_now) t = time t;
  lo_file : forall t p c n, D t p = Some (c, n) -> env.(e_exists) t p = true /\ env.(e_read) t p = Some c /\ env.(e_mtime) t p = Some n }.

(** an interaction that does not concern the content of [f] *)
Definition spares (f : bytes) (e : event) : Prop :=
  match e with
  | EvCreate p None | EvWrite p _ _ => p <> f
  | EvPython _ _ | EvPhp _ _ => False
  | _ => True
  end.

(** The machine stops at some point of the interactions [full]: [t] have happened, and [d] is on the disk.  If the next interaction
    is a write, a part of it may have been done. *)
Inductive left_on (D : trace -> disk) (time : trace -> N) (full t : trace) (d : disk) : Prop :=
| lf_between l : full = l ++ t -> (forall q, d q = D t q) -> left_on D time full t d
| lf_writing l p c r c' : full = l ++ EvWrite p c r :: t -> begins c' c -> d p = Some (c', time t) -> same_but p (D t) d ->
    left_on D time full t d.
