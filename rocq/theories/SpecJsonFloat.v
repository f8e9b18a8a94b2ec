(** * Specification of the numbers of JSON that are no integers of 64 bits (C109) *)

From Verif Require Import Bytes Spec Float64 SpecDouble.
Open Scope N_scope.

(** the decimal that a token denotes: sign, digits c and power of ten j *)
Inductive denotes : bytes -> bool -> N -> Z -> Prop :=
| dn_ neg ma c f ex e : mantissa ma c f -> exponent ex e -> denotes (dash_if neg ++ ma ++ ex) neg c (e - Z.of_nat f).
(** c * 10^j and n * 10^k are the same number; one is less than the other *)
Definition same_decimal (c : N) (j : Z) (n : N) (k : Z) : Prop := c * 10 ^ Z.to_N j * 10 ^ Z.to_N (- k) = n * 10 ^ Z.to_N k * 10 ^ Z.to_N (- j).
Definition less_decimal (c : N) (j : Z) (n : N) (k : Z) : Prop := c * 10 ^ Z.to_N j * 10 ^ Z.to_N (- k) < n * 10 ^ Z.to_N k * 10 ^ Z.to_N (- j).

(** ** Printing *)
(** with a point: digits on both sides, no superfluous zeros; with an exponent: one digit, perhaps a point and more digits, "e" and an integer *)
Inductive json_form : bool -> bytes -> Prop :=
| jf_point a n b m : plain_decimal a n -> decimal b m -> b <> [] -> (b = B "0" \/ forall r, b <> r ++ B "0") -> json_form false (a ++ B "." ++ b)
| jf_digit a n k z : plain_decimal [a] n -> n <> 0 -> plain_integer k z -> json_form true ([a] ++ B "e" ++ k)
| jf_digits a n b m k z : plain_decimal [a] n -> n <> 0 -> decimal b m -> b <> [] -> (forall r, b <> r ++ B "0") -> plain_integer k z ->
    json_form true ([a] ++ B "." ++ b ++ B "e" ++ k).
(** the printed form of a number: the shortest decimal that is nearest to it, with an exponent if it is less than 10^-5 or not less than 10^16 *)
Definition json_shows (neg : bool) (v : N) (x : bytes) : Prop := exists u c j n k sci, x = dash_if neg ++ u /\
  briefest v c j /\ denotes u false n k /\ same_decimal c j n k /\ json_form sci u /\
  (sci = true <-> c <> 0 /\ (less_decimal c j 1 (-5) \/ ~ less_decimal c j 1 16)).

(** ** Reading *)
(** v (units) differs from c * 10^j by at most its 2^49th part *)
Definition nearly (c : N) (j : Z) (v : N) : Prop :=
  let exact := c * 10 ^ Z.to_N j * 2 ^ 1074 in let got := v * 10 ^ Z.to_N (- j) in
  exact * (2 ^ 49 - 1) <= got * 2 ^ 49 <= exact * (2 ^ 49 + 1).
