(** * Numbers with a fraction, an exponent or too many digits in JSON text: serde_json 1.0.143 without the feature float_roundtrip
      (Cargo.toml 15), as the JSON readers and printers of the engine use it (template.rs 33-100, utils.rs, bif/parse_bif_obj.rs) *)

From Verif Require Import Bytes Float64.
Open Scope N_scope.

(** ** Reading: Deserializer::parse_integer, parse_decimal, parse_long_integer, parse_exponent, f64_from_parts *)
(** products and quotients of sizes *)
Definition size_mul (a b : N) : N := round_to (a * b) unit.
Definition size_div (a b : N) : N := round_to (a * unit) b.
Definition size_of (n : N) : N := round_to (n * unit) 1.
(** the table POW10 *)
Definition pow10 (k : N) : N := read_decimal 1 (Z.of_N k).
(** f64_from_parts: one multiplication or division if the exponent is in the table; below, divisions by 1e308 *)
Fixpoint from_parts (fuel : nat) (f : N) (e : Z) : option N :=
  if (Z.abs e <=? 308)%Z then
    if (0 <=? e)%Z then let r := size_mul f (pow10 (Z.to_N e)) in if 2 ^ 2098 <=? r then None else Some r
    else Some (size_div f (pow10 (Z.to_N (- e))))
  else if f =? 0 then Some 0
  else if (0 <=? e)%Z then None
  else match fuel with O => Some 0 | S fuel => from_parts fuel (size_div f (pow10 308)) (e + 308) end.
(** digits are taken as long as the significand fits in 64 bits; the digits that are not taken *)
Fixpoint take_sig (sig : N) (ds : bytes) : N * bytes :=
  match ds with
  | c :: r => match digit c with
              | Some d => if sig * 10 + d <? 2 ^ 64 then take_sig (sig * 10 + d) r else (sig, ds)
              | None => (sig, ds)
              end
  | [] => (sig, [])
  end.
(** the exponent of 10; [None]: no i32 *)
Definition exponent_text (ep : bytes) : option (bool * N) :=
  match ep with
  | _ :: g :: r => if aeqb g plus_sign then match digits1 r with Some n => Some (false, n) | None => None end
                   else if aeqb g minus_sign then match digits1 r with Some n => Some (true, n) | None => None end
                   else match digits1 (g :: r) with Some n => Some (false, n) | None => None end
  | _ => None
  end.
Definition i32_max : N := 2147483647.
Definition read_parts (ip fp ep : bytes) : option N :=
  let '(s1, r1) := take_sig 0 ip in
  let '(s2, r2) := take_sig s1 fp in
  let start := (Z.of_nat (length r1) - Z.of_nat (length fp - length r2))%Z in
  match ep with
  | [] => from_parts 3 (size_of s2) start
  | _ => match exponent_text ep with
         | Some (neg, n) =>
             if i32_max <? n then (if negb (s2 =? 0) && negb neg then None else Some 0)
             else from_parts 3 (size_of s2) (if neg then start - Z.of_N n else start + Z.of_N n)
         | None => None
         end
  end.

(** ** Printing: ryu::Buffer::format_finite (of two equally near shortest decimals the even one) *)
Definition json_layout (c : N) (j : Z) : bytes :=
  let ds := dec_N c in
  let n := Z.of_nat (length ds) in
  let kk := (n + j)%Z in
  if (0 <=? j)%Z && (kk <=? 16)%Z then ds ++ repeat "0"%char (Z.to_nat j) ++ B ".0"
  else if (-5 <? kk)%Z && (kk <=? 16)%Z then positional c j
  else (match ds with a :: b :: r => a :: "."%char :: b :: r | _ => ds end) ++ B "e" ++
       (if (kk <=? 0)%Z then B "-" else []) ++ dec_N (Z.to_N (Z.abs (kk - 1))).
Definition json_digits (v : N) : bytes :=
  if v =? 0 then B "0.0" else let '(c, j) := shortest N.odd 1500 v (digits_before v) 1 in json_layout c j.

(** the value of a token, and what it is printed as; whether it is positive *)
Definition json_value (t : bytes) : option (bool * N) :=
  let '(neg, s) := match t with c :: r => if aeqb c minus_sign then (true, r) else (false, t) | [] => (false, t) end in
  let '(ip, r1) := take_digits s in
  let '(fp, ep) := match r1 with
                   | c :: r => if aeqb c "."%char then take_digits r else ([], r1)
                   | [] => ([], [])
                   end in
  match read_parts ip fp ep with Some v => Some (neg, v) | None => None end.
Definition json_print (neg : bool) (v : N) : bytes := (if neg then B "-" else []) ++ json_digits v.
Definition json_float (t : bytes) : option (bytes * bool) :=
  match json_value t with
  | Some (neg, v) => Some (json_print neg v, negb neg && negb (v =? 0))
  | None => None
  end.
