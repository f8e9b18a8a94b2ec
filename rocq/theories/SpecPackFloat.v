(** * Specification of binary floating-point formats (IEEE 754, 3.4), for the floats of MessagePack (C111) *)

From Verif Require Import Bytes Json SpecPack.
Open Scope N_scope.

(** a word of a sign, [k] bits of exponent [e] and [m] bits of fraction [f]; the bias is 2^(k-1) - 1.
    A finite number is v * 2^-1074: (2^m + f) * 2^(e - bias - m), or f * 2^(1 - bias - m) if e = 0. *)
Definition word (k m : N) (neg : bool) (e f : N) : N := (if neg then 2 ^ (k + m) else 0) + e * 2 ^ m + f.
Inductive ieee (k m : N) : N -> option (bool * N) -> Prop :=
| ie_normal neg e f v : f < 2 ^ m -> 0 < e -> e < 2 ^ k - 1 ->
    v * 2 ^ (2 ^ (k - 1) - 1 + m) = (2 ^ m + f) * 2 ^ e * 2 ^ 1074 -> ieee k m (word k m neg e f) (Some (neg, v))
| ie_small neg f v : f < 2 ^ m -> v * 2 ^ (2 ^ (k - 1) - 1 + m) = f * 2 ^ 1 * 2 ^ 1074 -> ieee k m (word k m neg 0 f) (Some (neg, v))
| ie_not_finite neg f : f < 2 ^ m -> ieee k m (word k m neg (2 ^ k - 1) f) None.
(** the 4 bytes of a single, the 8 bytes of a double *)
Definition float_word (x : bytes) (r : option (bool * N)) : Prop :=
  exists n, big_endian x n /\ (length x = 4%nat /\ ieee 8 23 n r \/ length x = 8%nat /\ ieee 11 52 n r).

(** strings and keys are texts, and nothing has 2^32 parts or more *)
Inductive small : json -> Prop :=
| sm_null : small JNull
| sm_bool b : small (JBool b)
| sm_num n : small (JNum n)
| sm_str s : str_packs s -> small (JStr s)
| sm_arr l : N.of_nat (length l) < 2 ^ 32 -> Forall small l -> small (JArr l)
| sm_obj m : N.of_nat (length m) < 2 ^ 32 -> Forall (fun kv => str_packs (fst kv)) m -> Forall (fun kv => small (snd kv)) m -> small (JObj m).
