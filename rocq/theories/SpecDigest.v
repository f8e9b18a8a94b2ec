(** * Specification of the digests: SHA-256 (FIPS 180-4) and MD5 (RFC 1321), and what a machine with them is (C107) *)

From Verif Require Import Bytes State.
Open Scope N_scope.

(** ** Words of 32 bits *)
Definition sum32 (l : list N) : N := fold_right N.add 0 l mod 2 ^ 32.
(** rotation by [n] places, by arithmetic *)
Definition turned_right (n x : N) : N := x / 2 ^ n + (x mod 2 ^ n) * 2 ^ (32 - n).
Definition turned_left (n x : N) : N := (x * 2 ^ n) mod 2 ^ 32 + x / 2 ^ (32 - n).
Definition inverted (x : N) : N := 2 ^ 32 - 1 - x.

(** ** Padding: a one bit, zeros, and the number of bits in 64 bits; as few zeros as make a multiple of 512 bits *)
Definition octet (l : bytes) (k : nat) : N := N_of_ascii (nth k l "000"%char).
Definition big64 (l : bytes) : N := fold_left (fun a k => a * 256 + octet l k) (seq 0 8) 0.
Definition pads (number : bytes -> N) (m p : bytes) : Prop :=
  exists zeros len, p = m ++ ["128"%char] ++ repeat "000"%char zeros ++ len /\ length len = 8%nat /\
    number len = (8 * N.of_nat (length m)) mod 2 ^ 64 /\ (zeros < 64)%nat /\ Nat.modulo (length p) 64 = 0%nat.
Definition cut (p : bytes) (blocks : list bytes) : Prop := p = concat blocks /\ Forall (fun b => length b = 64%nat) blocks.

(** ** SHA-256 *)
Definition sigma0 (x : N) : N := N.lxor (turned_right 7 x) (N.lxor (turned_right 18 x) (x / 2 ^ 3)).
Definition sigma1 (x : N) : N := N.lxor (turned_right 17 x) (N.lxor (turned_right 19 x) (x / 2 ^ 10)).
Definition Sigma0 (x : N) : N := N.lxor (turned_right 2 x) (N.lxor (turned_right 13 x) (turned_right 22 x)).
Definition Sigma1 (x : N) : N := N.lxor (turned_right 6 x) (N.lxor (turned_right 11 x) (turned_right 25 x)).
Definition choice (x y z : N) : N := N.lxor (N.land x y) (N.land (inverted x) z).
Definition majority (x y z : N) : N := N.lxor (N.land x y) (N.lxor (N.land x z) (N.land y z)).
(** the first 64 prime numbers *)
Definition primes : list N :=
  [2; 3; 5; 7; 11; 13; 17; 19; 23; 29; 31; 37; 41; 43; 47; 53; 59; 61; 67; 71; 73; 79; 83; 89; 97; 101; 103; 107; 109; 113; 127; 131;
   137; 139; 149; 151; 157; 163; 167; 173; 179; 181; 191; 193; 197; 199; 211; 223; 227; 229; 233; 239; 241; 251; 257; 263; 269; 271; 277; 281; 283; 293; 307; 311].
(** the first 32 bits of the fractional parts of the square root and of the cube root of [p] *)
Definition square_root_bits (p x : N) : Prop := x < 2 ^ 32 /\ exists a, (a * 2 ^ 32 + x) ^ 2 <= p * 2 ^ 64 < (a * 2 ^ 32 + x + 1) ^ 2.
Definition cube_root_bits (p x : N) : Prop := x < 2 ^ 32 /\ exists a, (a * 2 ^ 32 + x) ^ 3 <= p * 2 ^ 96 < (a * 2 ^ 32 + x + 1) ^ 3.
(** word [t] of a block, high byte first *)
Definition big_word (b : bytes) (t : nat) : N :=
  octet b (4 * t) * 2 ^ 24 + octet b (4 * t + 1) * 2 ^ 16 + octet b (4 * t + 2) * 2 ^ 8 + octet b (4 * t + 3).
(** one block: W is the message schedule, V the eight working variables after each round *)
Definition sha_block (b : bytes) (h h' : list N) : Prop :=
  exists (W K : nat -> N) (V : nat -> list N),
    (forall t, (t < 64)%nat -> cube_root_bits (nth t primes 0) (K t)) /\
    (forall t, (t < 16)%nat -> W t = big_word b t) /\
    (forall t, (t < 48)%nat -> W (t + 16)%nat = sum32 [sigma1 (W (t + 14)%nat); W (t + 9)%nat; sigma0 (W (t + 1)%nat); W t]) /\
    V 0%nat = h /\
    (forall t, (t < 64)%nat -> exists v0 v1 v2 v3 v4 v5 v6 v7, V t = [v0; v1; v2; v3; v4; v5; v6; v7] /\
       let t1 := [v7; Sigma1 v4; choice v4 v5 v6; K t; W t] in
       V (S t) = [sum32 (t1 ++ [Sigma0 v0; majority v0 v1 v2]); v0; v1; v2; sum32 (v3 :: t1); v4; v5; v6]) /\
    h' = map (fun p => sum32 [fst p; snd p]) (combine h (V 64%nat)).
Inductive chain (block : bytes -> list N -> list N -> Prop) : list bytes -> list N -> list N -> Prop :=
| chain_end h : chain block [] h h
| chain_block b l h h1 h2 : block b h h1 -> chain block l h1 h2 -> chain block (b :: l) h h2.
Definition sha256_is (m digest : bytes) : Prop :=
  exists p blocks h0 h, pads big64 m p /\ cut p blocks /\ Forall2 square_root_bits (firstn 8 primes) h0 /\ chain sha_block blocks h0 h /\
    length digest = 32%nat /\ forall t, (t < 8)%nat -> big_word digest t = nth t h 0.

(** ** MD5 *)
(** low byte first *)
Definition small64 (l : bytes) : N := big64 (rev l).
Definition small_word (b : bytes) (t : nat) : N :=
  octet b (4 * t) + octet b (4 * t + 1) * 2 ^ 8 + octet b (4 * t + 2) * 2 ^ 16 + octet b (4 * t + 3) * 2 ^ 24.
(** the functions of the four rounds, the word of step [i] and its shift *)
Definition mix (r : nat) (x y z : N) : N :=
  match r with
  | O => N.lor (N.land x y) (N.land (inverted x) z)
  | 1%nat => N.lor (N.land x z) (N.land y (inverted z))
  | 2%nat => N.lxor x (N.lxor y z)
  | _ => N.lxor y (N.lor x (inverted z))
  end.
Definition word_of_step (r i : nat) : nat :=
  Nat.modulo (match r with O => i | 1%nat => 1 + 5 * i | 2%nat => 5 + 3 * i | _ => 7 * i end) 16.
Definition shift_of_step (r i : nat) : N :=
  nth (Nat.modulo i 4) (match r with O => [7; 12; 17; 22] | 1%nat => [5; 9; 14; 20] | 2%nat => [4; 11; 16; 23] | _ => [6; 10; 15; 21] end) 0.
(** the integer part of 2^32 times abs(sin(i+1)) *)
Definition sines : list N :=
  [0xd76aa478; 0xe8c7b756; 0x242070db; 0xc1bdceee; 0xf57c0faf; 0x4787c62a; 0xa8304613; 0xfd469501;
   0x698098d8; 0x8b44f7af; 0xffff5bb1; 0x895cd7be; 0x6b901122; 0xfd987193; 0xa679438e; 0x49b40821;
   0xf61e2562; 0xc040b340; 0x265e5a51; 0xe9b6c7aa; 0xd62f105d; 0x02441453; 0xd8a1e681; 0xe7d3fbc8;
   0x21e1cde6; 0xc33707d6; 0xf4d50d87; 0x455a14ed; 0xa9e3e905; 0xfcefa3f8; 0x676f02d9; 0x8d2a4c8a;
   0xfffa3942; 0x8771f681; 0x6d9d6122; 0xfde5380c; 0xa4beea44; 0x4bdecfa9; 0xf6bb4b60; 0xbebfbc70;
   0x289b7ec6; 0xeaa127fa; 0xd4ef3085; 0x04881d05; 0xd9d4d039; 0xe6db99e5; 0x1fa27cf8; 0xc4ac5665;
   0xf4292244; 0x432aff97; 0xab9423a7; 0xfc93a039; 0x655b59c3; 0x8f0ccc92; 0xffeff47d; 0x85845dd1;
   0x6fa87e4f; 0xfe2ce6e0; 0xa3014314; 0x4e0811a1; 0xf7537e82; 0xbd3af235; 0x2ad7d2bb; 0xeb86d391].
(** one block: X are its words, V the four variables after each step; step [i] (from 0) uses the constant T[i+1] *)
Definition md5_block (b : bytes) (h h' : list N) : Prop :=
  exists V : nat -> list N, V 0%nat = h /\
    (forall i, (i < 64)%nat -> exists x0 x1 x2 x3, V i = [x0; x1; x2; x3] /\
       let r := Nat.div i 16 in
       V (S i) = [x3; sum32 [x1; turned_left (shift_of_step r i) (sum32 [x0; mix r x1 x2 x3; small_word b (word_of_step r i); nth i sines 0])]; x1; x2]) /\
    h' = map (fun p => sum32 [fst p; snd p]) (combine h (V 64%nat)).
Definition md5_is (m digest : bytes) : Prop :=
  exists p blocks h, pads small64 m p /\ cut p blocks /\
    chain md5_block blocks [0x67452301; 0xefcdab89; 0x98badcfe; 0x10325476] h /\
    length digest = 16%nat /\ forall t, (t < 4)%nat -> small_word digest t = nth t h 0.

(** ** Hexadecimal, two lower-case digits for each byte *)
Definition digit_of (n : N) (c : ascii) : Prop := nth_error (B "0123456789abcdef") (N.to_nat n) = Some c.
Inductive written_hex : bytes -> bytes -> Prop :=
| wh_nil : written_hex [] []
| wh_byte x a b l t : digit_of (N_of_ascii x / 16) a -> digit_of (N_of_ascii x mod 16) b -> written_hex l t -> written_hex (x :: l) (a :: b :: t).

(** a machine whose digests are these *)
Record digests (env : Env) : Prop := {
  dg_md5 : forall m, exists d, md5_is m d /\ written_hex d (env.(e_md5) m);
  dg_sha256 : forall m, exists d, sha256_is m d /\ written_hex d (env.(e_sha256) m) }.
