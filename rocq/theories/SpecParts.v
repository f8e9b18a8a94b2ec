(** * Specification for C85 and C86: answers that are data, sources made of parts *)
From Verif Require Import Bytes Spec SpecEngine.

(** The text of an object that can stand in a template without ending or starting a bif: it begins with "{", ends with "}" and
    contains neither "{:" nor ":}". *)
Definition clean_json (j : bytes) : Prop := (exists m, j = B "{" ++ m ++ B "}") /\ ~ occurs (B "{:") j /\ ~ occurs (B ":}") j.

(** The sequence of literal texts and blocks a structured source stands for; [lit] is the text read since the last block. *)
Fixpoint as_segments (lit : bytes) (l : list item) : list segment :=
  match l with
  | [] => [SText lit]
  | TLit t :: r => as_segments (lit ++ t) r
  | b :: r => SText lit :: SBlock (text_of b) :: as_segments [] r
  end.
