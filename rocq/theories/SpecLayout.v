(** * Vocabulary for the layout of a bif *)

From Verif Require Import Bytes Json Utils ConstantsGen State Engine Template Spec SpecEngine.

(** The two results are the same, up to the source quoted by an error that the bif itself reports: [t1] in the first,
    [t2] in the second. *)
Definition same_but_quote (env : Env) (t1 t2 : bytes) (r1 r2 : BRes) : Prop :=
  r1 = r2 \/
  exists msg al o s i i', r1 = BOk o (with_error env msg al t1 s i) i' /\ r2 = BOk o (with_error env msg al t2 s i) i'.

(** the bifs whose body has no parameters *)
Definition whole_body : list bytes :=
  [[]; B "coalesce"; B "hash"; B "date"; B "join"; B "rand"; B "sum"; B "trans"].

(** The text [p] can stand before the separator: in [p ++ ">>"] the body is split after [p] (C19: every ">>" of [p] is
    inside a nested bif, and [p] does not end with ">"). *)
Definition parameter_text (p : bytes) : Prop := get_code_position (p ++ B ">>") = Some (length p).

(** The arguments [args], each followed by the delimiter [d], after a first delimiter: "/a/b/". *)
Definition written (d : bytes) (args : list bytes) : bytes := d ++ concat (map (fun a => a ++ d) args).
(** A character that is not white space. *)
Definition delimiter (d : bytes) : Prop := one_char d /\ forall w r, white w -> d <> w ++ r.
(** [d] can delimit the arguments: it does not occur in them. *)
Definition admits (d : bytes) (args : list bytes) : Prop :=
  delimiter d /\ Forall (fun a => (exists l, characters a l) /\ ~ occurs d a) args.
