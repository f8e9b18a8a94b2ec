(** * Vocabulary for the page that a render returns *)

From Verif Require Import Bytes Json Utils ConstantsGen State Engine Template Spec SpecEngine.

(** What the modifier ^ writes before the output of its bif, and what the bif {:;:} and the silent bifs write. *)
Definition upline_mark : bytes := B "&#9224".
Definition unprintable_mark : bytes := B "&#0;".

(** Every upline mark is taken away together with the white space before it. *)
Inductive uplined : bytes -> bytes -> Prop :=
| up_none s : ~ occurs upline_mark s -> uplined s s
| up_first u w v v' :
    (forall i, i < length (u ++ w) -> ~ occurs_at upline_mark (u ++ w ++ upline_mark ++ v) i) ->
    all_white w -> (forall c r, white c -> u <> r ++ c) ->
    uplined v v' -> uplined (u ++ w ++ upline_mark ++ v) (u ++ v').

(** The page made from the content [c]: upline marks first, then the unprintable ones. *)
Definition page (c p : bytes) : Prop :=
  exists m, uplined c m /\ replaced unprintable_mark [] m p.
