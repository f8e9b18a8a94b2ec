(** * The numbers of {:sum;}: f64 of Rust (IEEE 754 binary64) as it is read, added and printed *)

From Verif Require Import Bytes.
Open Scope N_scope.

(** A finite number is a sign and its size in units of 2^-1074, the smallest positive f64. *)
Inductive f64 := Fin (neg : bool) (v : N) | Inf (neg : bool) | NaN.
Definition unit : N := 2 ^ 1074.
(** the f64 nearest to n/d units, of two equally near the one with the even significand; the exponent is not limited *)
Definition round_to (n d : N) : N :=
  let k := N.log2 (n / d) - 52 in
  let step := d * 2 ^ k in
  let q := n / step in
  let r := n mod step in
  (if (step <? 2 * r) || ((step =? 2 * r) && N.odd q) then q + 1 else q) * 2 ^ k.
Definition finite (neg : bool) (v : N) : f64 := if 2 ^ 2098 <=? v then Inf neg else Fin neg v.

(** c * 10^j, rounded *)
Definition read_decimal (c : N) (j : Z) : N := round_to (c * 10 ^ Z.to_N j * unit) (10 ^ Z.to_N (- j)).
(** [str::parse::<f64>] (parse_bif_sum.rs 32-38): the grammar is that of [f64_gt0] (Bytes.v) *)
Definition read_unsigned (neg : bool) (t : bytes) : option f64 :=
  let low := map lower_ascii t in
  if beq low (B "inf") || beq low (B "infinity") then Some (Inf neg)
  else if beq low (B "nan") then Some NaN
  else
    let '(ip, r1) := take_digits t in
    let '(fp, r2) := match r1 with
                     | c :: r => if aeqb c "."%char then take_digits r else ([], r1)
                     | [] => ([], [])
                     end in
    if is_empty ip && is_empty fp then None
    else
      let mant := match digits_val 0 (ip ++ fp) with Some n => n | None => 0%N end in
      let fin (e : Z) := Some (finite neg (read_decimal mant (e - Z.of_nat (length fp)))) in
      match r2 with
      | [] => fin 0%Z
      | c :: r =>
          if aeqb c "e"%char || aeqb c "E"%char then
            match r with
            | d :: r' =>
                if aeqb d plus_sign then
                  match digits1 r' with Some n => fin (Z.of_N n) | None => None end
                else if aeqb d minus_sign then
                  match digits1 r' with Some n => fin (- Z.of_N n)%Z | None => None end
                else match digits1 r with Some n => fin (Z.of_N n) | None => None end
            | [] => None
            end
          else None
      end.
Definition read_f64 (s : bytes) : option f64 :=
  match s with
  | c :: r => if aeqb c plus_sign then read_unsigned false r else if aeqb c minus_sign then read_unsigned true r else read_unsigned false s
  | [] => read_unsigned false s
  end.

(** [param1 + param2] (parse_bif_sum.rs 40) *)
Definition f64_add (x y : f64) : f64 :=
  match x, y with
  | NaN, _ | _, NaN => NaN
  | Inf s, Inf t => if eqb s t then Inf s else NaN
  | Inf s, _ | _, Inf s => Inf s
  | Fin s a, Fin t b =>
      if eqb s t then finite s (round_to (a + b) 1)
      else if a =? b then Fin false 0
      else if b <? a then finite s (round_to (a - b) 1)
      else finite t (round_to (b - a) 1)
  end.

(** [to_string] of a positive number: the fewest digits that are read back as the number, of those the nearest ([tie c]: of two the upper one);
    [p] is the number of digits before the point (negative: minus the number of zeros after it), [n] the number of digits to try *)
Definition digits_before (v : N) : Z := (Z.of_nat (length (dec_N (v * 10 ^ 400 / unit))) - 400)%Z.
Fixpoint shortest (tie : N -> bool) (fuel : nat) (v : N) (p : Z) (n : N) : N * Z :=
  match fuel with
  | O => (v * 5 ^ 1074, (-1074)%Z)
  | S fuel =>
      let j := (p - Z.of_N n)%Z in
      let den := unit * 10 ^ Z.to_N j in
      let num := v * 10 ^ Z.to_N (- j) in
      let c := num / den in
      let down := read_decimal c j =? v in
      let up := read_decimal (c + 1) j =? v in
      if up && (negb down || (den <? 2 * (num mod den)) || ((den =? 2 * (num mod den)) && tie c)) then (if c + 1 =? 10 ^ n then (1, (p)%Z) else (c + 1, j))
      else if down then (c, j)
      else shortest tie fuel v p (n + 1)
  end.
(** the digits and the point, without an exponent *)
Definition positional (c : N) (j : Z) : bytes :=
  let ds := dec_N c in
  if (0 <=? j)%Z then ds ++ repeat "0"%char (Z.to_nat j)
  else let f := Z.to_nat (- j) in
       if (f <? length ds)%nat then firstn (length ds - f) ds ++ B "." ++ skipn (length ds - f) ds
       else B "0." ++ repeat "0"%char (f - length ds) ++ ds.
Definition show_f64 (x : f64) : bytes :=
  match x with
  | NaN => B "NaN"
  | Inf neg => (if neg then B "-" else []) ++ B "inf"
  | Fin neg v => (if neg then B "-" else []) ++
      (if v =? 0 then B "0" else let '(c, j) := shortest (fun _ => true) 1500 v (digits_before v) 1 in positional c j)
  end.
(** the text of the sum of two texts (parse_bif_sum.rs 32-40) *)
Definition sum_text (x y : bytes) : bytes :=
  match read_f64 x, read_f64 y with
  | Some a, Some b => show_f64 (f64_add a b)
  | _, _ => []
  end.
