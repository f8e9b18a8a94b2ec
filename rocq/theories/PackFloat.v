(** * The floats of MessagePack: rmp 0.8 (read_f32, read_f64, write_f64, under rmp_serde 1.3.1, Cargo.toml 23) and
      serde_json::Number::from_f64, as template.rs 204-277 uses them; printing as in JsonFloat.v.
      Numbers are in units of 2^-1074, as in Float64.v. *)

From Verif Require Import Bytes Float64 JsonFloat MsgPack.
Open Scope N_scope.

(** f32::from_bits ([k] = 8, [m] = 23; then [as f64]) and f64::from_bits ([k] = 11, [m] = 52); [None]: not finite *)
Definition unpack_bits (k m n : N) : option (bool * N) :=
  let e := n / 2 ^ m mod 2 ^ k in
  let f := n mod 2 ^ m in
  if e =? 2 ^ k - 1 then None
  else Some (2 ^ (k + m) <=? n,
             (if e =? 0 then f else (2 ^ m + f) * 2 ^ (e - 1)) * 2 ^ (1074 - (2 ^ (k - 1) - 2 + m))).
(** the printed form of the number in 4 or 8 bytes, and whether it is positive; from_f64 gives nothing for what is not finite *)
Definition pack_float (x : bytes) : option (bytes * bool) :=
  match (if Nat.eqb (length x) 4 then unpack_bits 8 23 (be_value x) else unpack_bits 11 52 (be_value x)) with
  | Some (neg, v) => Some (json_print neg v, negb neg && negb (v =? 0))
  | None => None
  end.
(** f64::to_bits *)
Definition double_bits (neg : bool) (v : N) : N :=
  (if neg then 2 ^ 63 else 0) +
  (if v <? 2 ^ 52 then v else let e := N.log2 v - 51 in e * 2 ^ 52 + (v / 2 ^ (e - 1) - 2 ^ 52)).
(** the 8 bytes of the number that is printed as [x] *)
Definition double_bytes (x : bytes) (g : bool) : bytes :=
  match read_f64 x with Some (Fin neg v) => be_bytes 8 (double_bits neg v) | _ => [] end.
