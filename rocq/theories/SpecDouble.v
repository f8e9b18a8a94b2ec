(** * Specification of the numbers of {:sum;}: IEEE 754 binary64, in units of 2^-1074 (C108) *)

From Verif Require Import Bytes State Spec Float64.
Open Scope N_scope.

(** ** Rounding *)
(** a significand of 53 bits and a power of two *)
Definition double (v : N) : Prop := exists m k, m < 2 ^ 53 /\ v = m * 2 ^ k.
(** with an even significand: one of 53 bits unless the number is too small to have that many *)
Definition even_double (v : N) : Prop := exists m k, 2 * m < 2 ^ 53 /\ v = 2 * m * 2 ^ k /\ (k = 0 \/ 2 ^ 52 <= 2 * m).
(** the distance of n/d and v, times d *)
Definition gap (n d v : N) : N := (n - v * d) + (v * d - n).
(** [v] is nearest to n/d; if another double is as near, [v] is the even one *)
Definition rounds (n d v : N) : Prop :=
  double v /\ forall w, double w -> w <> v -> gap n d v < gap n d w \/ (gap n d v = gap n d w /\ even_double v).
(** what becomes of a rounded size: from 2^1024 on it is infinite *)
Definition bounded (neg : bool) (v : N) (x : f64) : Prop := x = if v <? 2 ^ 1024 * 2 ^ 1074 then Fin neg v else Inf neg.

(** ** Reading *)
(** c * 10^j (of 1) rounds to [v] (units) *)
Definition decimal_rounds (c : N) (j : Z) (v : N) : Prop := rounds (c * 10 ^ Z.to_N j * 2 ^ 1074) (10 ^ Z.to_N (- j)) v.
Inductive stands_for : bytes -> f64 -> Prop :=
| sf_number sg neg ma m f ex e v x : sign sg neg -> mantissa ma m f -> exponent ex e ->
    decimal_rounds m (e - Z.of_nat f) v -> bounded neg v x -> stands_for (sg ++ ma ++ ex) x
| sf_infinite sg neg w : sign sg neg -> word_like (B "inf") w \/ word_like (B "infinity") w -> stands_for (sg ++ w) (Inf neg)
| sf_nan sg neg w : sign sg neg -> word_like (B "nan") w -> stands_for (sg ++ w) NaN.

(** ** Adding *)
Definition signed (neg : bool) (v : N) : Z := if neg then (- Z.of_N v)%Z else Z.of_N v.
Inductive adds : f64 -> f64 -> f64 -> Prop :=
(* the exact sum, rounded; a sum of zero is negative only if both numbers are *)
| ad_finite s a t b v neg x : let sum := (signed s a + signed t b)%Z in
    rounds (Z.to_N (Z.abs sum)) 1 v -> (neg = true <-> (sum < 0)%Z \/ (sum = 0%Z /\ s = true /\ t = true)) -> bounded neg v x -> adds (Fin s a) (Fin t b) x
| ad_inf_left s t b : adds (Inf s) (Fin t b) (Inf s)
| ad_inf_right s a t : adds (Fin s a) (Inf t) (Inf t)
| ad_infs s : adds (Inf s) (Inf s) (Inf s)
| ad_opposite s : adds (Inf s) (Inf (negb s)) NaN
| ad_nan_left y : adds NaN y NaN
| ad_nan_right x : adds x NaN NaN.

(** ** Printing *)
(** the distance of c * 10^j and v, in units over 10^-j *)
Definition farness (c : N) (j : Z) (v : N) : N := gap (c * 10 ^ Z.to_N j * 2 ^ 1074) (10 ^ Z.to_N (- j)) v.
(** c * 10^j is not farther from [v] than c' * 10^j' *)
Definition not_farther (c : N) (j : Z) (c' : N) (j' : Z) (v : N) : Prop := farness c j v * 10 ^ Z.to_N (- j') <= farness c' j' v * 10 ^ Z.to_N (- j).
(** c * 10^j is read as [v]; no decimal of fewer digits is; and no decimal of as many digits that is read as [v] is nearer *)
Definition briefest (v c : N) (j : Z) : Prop :=
  decimal_rounds c j v /\ forall c' j' n, decimal_rounds c' j' v -> c' < 10 ^ n -> c < 10 ^ n /\ (10 ^ n <= 10 * c -> not_farther c j c' j' v).
(** digits without superfluous zeros: a number, with a point only if digits that do not end in zero follow *)
Inductive tidy : bytes -> Prop :=
| td_whole a n : plain_decimal a n -> tidy a
| td_point a n b : plain_decimal a n -> b <> [] -> (forall r, b <> r ++ B "0") -> tidy (a ++ B "." ++ b).
(** the text of c * 10^j *)
Definition spells (u : bytes) (c : N) (j : Z) : Prop :=
  tidy u /\ exists n f, mantissa u n f /\ n * 10 ^ Z.to_N (- j) = c * 10 ^ Z.to_N j * 10 ^ N.of_nat f.
Definition dash_if (neg : bool) : bytes := if neg then B "-" else [].
Inductive shows : f64 -> bytes -> Prop :=
| sh_nan : shows NaN (B "NaN")
| sh_infinite neg : shows (Inf neg) (dash_if neg ++ B "inf")
| sh_finite neg v c j u : briefest v c j -> spells u c j -> shows (Fin neg v) (dash_if neg ++ u).

(** a number of 64 bits *)
Definition valid (x : f64) : Prop := match x with Fin _ v => double v /\ v < 2 ^ 1024 * 2 ^ 1074 | _ => True end.
(** a machine that adds this way *)
Definition doubles (env : Env) : Prop := forall x y a b c, stands_for x a -> stands_for y b -> adds a b c -> shows c (env.(e_fadd) x y).
