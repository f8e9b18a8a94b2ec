(** * Specification vocabulary for the connection to the PHP server (C105) *)

From Verif Require Import Bytes Json State FastCgi Spec PhpExec Socket.

(** how a connection ends: the peer closes it, or an I/O error occurs *)
Inductive finish := Closed | Fault (e : bytes).

(** [delivers late l s f]: the calls of read deliver the bytes [s] one way or another and then end in [f]; five seconds without anything
    are a failure ([late]) *)
Inductive delivers (late : bytes) : incoming -> bytes -> finish -> Prop :=
| ar_end : delivers late [] [] Closed
| ar_close t r : (t < 5000)%N -> delivers late ((t, Came []) :: r) [] Closed
| ar_data t d r s f : (t < 5000)%N -> d <> [] -> delivers late r s f -> delivers late ((t, Came d) :: r) (d ++ s) f
| ar_signal t r s f : (t < 5000)%N -> delivers late r s f -> delivers late ((t, Signal) :: r) s f
| ar_fail t e r : (t < 5000)%N -> delivers late ((t, Fails e) :: r) [] (Fault e)
| ar_late t a r : (5000 <= t)%N -> delivers late ((t, a) :: r) [] (Fault late).

(** a whole answer: records up to the one that ends the request *)
Definition answered (s : bytes) : Prop :=
  exists l e rest, Forall wire_ok l /\ (forall w, In w l -> ~ is_end w) /\ wire_ok e /\ is_end e /\
    s = flat_map wire_bytes l ++ wire_bytes e ++ rest.

(** something that is not FastCGI version 1 where a record should begin *)
Definition foreign (s : bytes) : Prop :=
  exists l h rest, Forall wire_ok l /\ (forall w, In w l -> ~ is_end w) /\ length h = 8 /\ ~ starts_byte (u8 1) h /\
    s = flat_map wire_bytes l ++ h ++ rest.

Definition prefix (u s : bytes) : Prop := exists v, s = u ++ v.

(** the writes never fail: every call takes something in time, or is interrupted *)
Definition takes_all (l : outgoing) : Prop :=
  Forall (fun x => (fst x < 5000)%N /\ match snd x with Took n => n <> 0 | WSignal => True | WFails _ => False end) l.

(** the time the connection itself lets pass: no call waits longer than five seconds *)
Definition waits (l : list N) : N := fold_right (fun t n => (N.min t 5000 + n)%N) 0%N l.
