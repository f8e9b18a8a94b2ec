(** * The MessagePack format (github.com/msgpack/msgpack/blob/master/spec.md) for schemas: the specification *)
From Verif Require Import Bytes Json Spec SpecJson.

(** an unsigned big-endian number *)
Inductive big_endian : bytes -> N -> Prop :=
| be_nil : big_endian [] 0
| be_snoc t n c : big_endian t n -> big_endian (t ++ [c]) (n * 256 + N_of_ascii c).
(** [k] bytes after a marker *)
Definition field (marker : N) (k : nat) (t : bytes) (n : N) : Prop :=
  exists u, t = ascii_of_N marker :: u /\ length u = k /\ big_endian u n.
(** two's complement *)
Definition complement (bits n : N) (z : Z) : Prop :=
  ((0 <= z /\ z = Z.of_N n \/ z < 0 /\ z = Z.of_N n - 2 ^ Z.of_N bits) /\ - 2 ^ (Z.of_N bits - 1) <= z < 2 ^ (Z.of_N bits - 1))%Z.
Inductive whole_number : Z -> num -> Prop :=
| wn_pos n : whole_number (Z.of_N n) (NPos n)
| wn_neg p : whole_number (Zneg p) (NNeg p).

Section format.
(** what the 4 or 8 bytes of a float stand for: printed form and whether it is positive; nothing if it is not a finite number *)
Context (fb : bytes -> option (bytes * bool)).

Inductive packed_int : bytes -> Z -> Prop :=
| pi_fix n : (n < 128)%N -> packed_int [ascii_of_N n] (Z.of_N n)
| pi_negfix n : (1 <= n <= 32)%N -> packed_int [ascii_of_N (256 - n)] (- Z.of_N n)
| pi_u8 t n : field 204 1 t n -> packed_int t (Z.of_N n)
| pi_u16 t n : field 205 2 t n -> packed_int t (Z.of_N n)
| pi_u32 t n : field 206 4 t n -> packed_int t (Z.of_N n)
| pi_u64 t n : field 207 8 t n -> packed_int t (Z.of_N n)
| pi_i8 t n z : field 208 1 t n -> complement 8 n z -> packed_int t z
| pi_i16 t n z : field 209 2 t n -> complement 16 n z -> packed_int t z
| pi_i32 t n z : field 210 4 t n -> complement 32 n z -> packed_int t z
| pi_i64 t n z : field 211 8 t n -> complement 64 n z -> packed_int t z.
Definition packed_float (t x : bytes) : Prop :=
  length x = 4 /\ t = ascii_of_N 202 :: x \/ length x = 8 /\ t = ascii_of_N 203 :: x.
(** what stands before a text of [n] bytes *)
Inductive str_head : bytes -> N -> Prop :=
| sh_fix n : (n < 32)%N -> str_head [ascii_of_N (160 + n)] n
| sh_8 t n : field 217 1 t n -> str_head t n
| sh_16 t n : field 218 2 t n -> str_head t n
| sh_32 t n : field 219 4 t n -> str_head t n.
Definition bin_head (t : bytes) (n : N) : Prop := field 196 1 t n \/ field 197 2 t n \/ field 198 4 t n.
Inductive array_head : bytes -> N -> Prop :=
| ah_fix n : (n < 16)%N -> array_head [ascii_of_N (144 + n)] n
| ah_16 t n : field 220 2 t n -> array_head t n
| ah_32 t n : field 221 4 t n -> array_head t n.
Inductive map_head : bytes -> N -> Prop :=
| mh_fix n : (n < 16)%N -> map_head [ascii_of_N (128 + n)] n
| mh_16 t n : field 222 2 t n -> map_head t n
| mh_32 t n : field 223 4 t n -> map_head t n.
Definition packed_text (head : bytes -> N -> Prop) (t s : bytes) : Prop :=
  exists h, t = h ++ s /\ head h (N.of_nat (length s)) /\ utf8_valid s = true.
(** a key is a string; the second and later ones may also be binary data that is a text *)
Definition packed_key (first : bool) (t k : bytes) : Prop := packed_text str_head t k \/ first = false /\ packed_text bin_head t k.

(** values with at most [d] nested containers; binary data and extensions are no values *)
Inductive packed : nat -> bytes -> json -> Prop :=
| pk_nil d : packed d [ascii_of_N 192] JNull
| pk_false d : packed d [ascii_of_N 194] (JBool false)
| pk_true d : packed d [ascii_of_N 195] (JBool true)
| pk_int d t z n : packed_int t z -> whole_number z n -> packed d t (JNum n)
| pk_float d t x p g : packed_float t x -> fb x = Some (p, g) -> packed d t (JNum (NFloat p g))
| pk_no_number d t x : packed_float t x -> fb x = None -> packed d t JNull
| pk_str d t s : packed_text str_head t s -> packed d t (JStr s)
| pk_array d h t l : array_head h (N.of_nat (length l)) -> packed_items d t l -> packed (S d) (h ++ t) (JArr l)
| pk_map d h t l : map_head h (N.of_nat (length l)) -> packed_entries d true t l -> packed (S d) (h ++ t) (JObj (later_wins l))
with packed_items : nat -> bytes -> list json -> Prop :=
| pt_nil d : packed_items d [] []
| pt_cons d t v u l : packed d t v -> packed_items d u l -> packed_items d (t ++ u) (v :: l)
with packed_entries : nat -> bool -> bytes -> obj -> Prop :=
| pe_nil d f : packed_entries d f [] []
| pe_cons d f t k u v w l : packed_key f t k -> packed d u v -> packed_entries d false w l ->
    packed_entries d f (t ++ u ++ w) ((k, v) :: l).

(** the data of a schema: the bytes of a value, followed by anything *)
Definition pack_of (c : bytes) (v : json) : Prop := exists t rest, c = t ++ rest /\ packed 1023 t v.
End format.

(** ** Values that can be packed *)
Section packable.
Context (fb : bytes -> option (bytes * bool)) (fw : bytes -> bool -> bytes).
Definition num_packs (n : num) : Prop :=
  match n with
  | NPos n => (n < 2 ^ 64)%N
  | NNeg p => (Npos p <= 2 ^ 63)%N
  | NFloat x g => length (fw x g) = 8 /\ fb (fw x g) = Some (x, g)
  end.
Definition str_packs (s : bytes) : Prop := utf8_valid s = true /\ (N.of_nat (length s) < 2 ^ 32)%N.
Inductive packs : json -> Prop :=
| ps_null : packs JNull
| ps_bool b : packs (JBool b)
| ps_num n : num_packs n -> packs (JNum n)
| ps_str s : str_packs s -> packs (JStr s)
| ps_arr l : (N.of_nat (length l) < 2 ^ 32)%N -> Forall packs l -> packs (JArr l)
| ps_obj m : (N.of_nat (length m) < 2 ^ 32)%N -> NoDup (okeys m) -> Forall (fun kv => str_packs (fst kv)) m ->
    Forall (fun kv => packs (snd kv)) m -> packs (JObj m).
End packable.
