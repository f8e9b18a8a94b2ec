(** * Rust strings as byte lists

    A Rust [str]/[String] is modelled by the list of its UTF-8 bytes.  The functions below are
    the std-library string functions used by /repo/src (call sites cited at each definition).
    The model functions are total on all byte lists, Rust only passes valid UTF-8. *)

From Coq Require Export Ascii String List Bool Arith NArith ZArith Lia.
From Coq Require DecimalString Decimal.
From Coq Require DecimalN DecimalZ DecimalNat.
Export ListNotations.
Open Scope bool_scope.
Open Scope list_scope.

Notation bytes := (list ascii).

(** Literals. *)
Definition B (s : string) : bytes := list_ascii_of_string s.
Arguments B s%string.

(** Byte and string equality ([==] on [u8], [str]). *)
Definition aeqb (a b : ascii) : bool := Ascii.eqb a b.

Fixpoint beq (a b : bytes) : bool :=
  match a, b with
  | [], [] => true
  | x :: a', y :: b' => aeqb x y && beq a' b'
  | _, _ => false
  end.

Definition is_empty {A} (l : list A) : bool := match l with [] => true | _ => false end.

(** [str::starts_with] / [str::strip_prefix] with a string pattern
    (utils.rs 267, 500, template.rs 486, bif/mod.rs 254-255, 330). *)
Fixpoint starts_with (p s : bytes) : bool :=
  match p, s with
  | [], _ => true
  | x :: p', y :: s' => aeqb x y && starts_with p' s'
  | _ :: _, [] => false
  end.

Fixpoint strip_prefix (p s : bytes) : option bytes :=
  match p, s with
  | [], _ => Some s
  | x :: p', y :: s' => if aeqb x y then strip_prefix p' s' else None
  | _ :: _, [] => None
  end.

(** [str::ends_with] / [str::strip_suffix] (utils.rs 271, bif/mod.rs 330, template.rs 491). *)
Definition ends_with (p s : bytes) : bool := starts_with (rev p) (rev s).

Definition strip_suffix (p s : bytes) : option bytes :=
  option_map (@rev ascii) (strip_prefix (rev p) (rev s)).

(** [str::find] with a string or ASCII-char pattern: byte offset of the first occurrence
    (utils.rs 178, 186, 214, 242, 248, 511, 516, 623, 625). *)
Fixpoint find (p s : bytes) : option nat :=
  if starts_with p s then Some 0
  else match s with
       | [] => None
       | _ :: r => option_map S (find p r)
       end.

(** [str::contains]. *)
Definition contains (p s : bytes) : bool :=
  match find p s with Some _ => true | None => false end.

(** [&s[a..b]], [&s[a..]], [&s[..b]] at positions known to be char boundaries. *)
Definition slice (a b : nat) (s : bytes) : bytes := firstn (b - a) (skipn a s).

(** [s.as_bytes()[i]]: [None] when the index is out of bounds (Rust panics there). *)
Definition byte_at (s : bytes) (i : nat) : option ascii := nth_error s i.

Definition byte_is (s : bytes) (i : nat) (c : ascii) : bool :=
  match nth_error s i with Some x => aeqb x c | None => false end.

(** [str::split_once] with a string pattern (bif/mod.rs 123). *)
Definition split_once (p s : bytes) : option (bytes * bytes) :=
  match find p s with
  | Some i => Some (firstn i s, skipn (i + length p) s)
  | None => None
  end.

(** Continuation bytes of UTF-8. *)
Definition is_cont (a : ascii) : bool :=
  let n := N_of_ascii a in (128 <=? n)%N && (n <? 192)%N.

(** [str::chars]: the byte groups of the chars.  (utils.rs 567-568, 678, 691, bif/mod.rs 391). *)
Fixpoint chars (s : bytes) : list bytes :=
  match s with
  | [] => []
  | c :: r =>
      match chars r with
      | (d :: h) :: t => if is_cont d then (c :: d :: h) :: t else [c] :: (d :: h) :: t
      | l => [c] :: l
      end
  end.

(** [str::replace(pat, rep)] for a non-empty pattern; [k] counts the bytes of the current
    occurrence still to be skipped (call sites: parse_bif_code.rs, parse_bif_var.rs,
    parse_bif_replace.rs 36, parse_bif_fetch.rs, parse_bif_join.rs, parse_bif_moveto.rs, ...). *)
Fixpoint repl (pat rep : bytes) (k : nat) (s : bytes) : bytes :=
  match s with
  | [] => []
  | c :: r =>
      match k with
      | S k' => repl pat rep k' r
      | O => if starts_with pat (c :: r) then rep ++ repl pat rep (length pat - 1) r
             else c :: repl pat rep 0 r
      end
  end.

(** [str::replace]: an empty pattern matches before every char and at the end. *)
Definition replace (pat rep s : bytes) : bytes :=
  match pat with
  | [] => rep ++ flat_map (fun c => c ++ rep) (chars s)
  | _ => repl pat rep 0 s
  end.

(** [str::split(pat)] for a non-empty pattern (bif/mod.rs 397, parse_bif_allow.rs 35). *)
Fixpoint split_go (pat : bytes) (k : nat) (s : bytes) : list bytes :=
  match s with
  | [] => [[]]
  | c :: r =>
      match k with
      | S k' => split_go pat k' r
      | O => if starts_with pat (c :: r) then [] :: split_go pat (length pat - 1) r
             else match split_go pat 0 r with
                  | h :: t => (c :: h) :: t
                  | [] => [[c]]
                  end
      end
  end.
Definition split (pat s : bytes) : list bytes := split_go pat 0 s.

(** [char::is_whitespace] (Unicode White_Space) on the UTF-8 bytes of one char: one-, two- and
    three-byte white space.  Used by [str::trim] and [str::split_whitespace]. *)
Definition ws1 (a : ascii) : bool :=
  let n := N_of_ascii a in ((9 <=? n)%N && (n <=? 13)%N) || (n =? 32)%N.
Definition ws2 (a b : ascii) : bool :=
  let x := N_of_ascii a in let y := N_of_ascii b in
  (x =? 194)%N && ((y =? 133)%N || (y =? 160)%N).
Definition ws3 (a b c : ascii) : bool :=
  let x := N_of_ascii a in let y := N_of_ascii b in let z := N_of_ascii c in
  ((x =? 225) && (y =? 154) && (z =? 128))%N
  || ((x =? 226) && (y =? 128) && (((128 <=? z) && (z <=? 138)) || (z =? 168) || (z =? 169) || (z =? 175)))%N
  || ((x =? 226) && (y =? 129) && (z =? 159))%N
  || ((x =? 227) && (y =? 128) && (z =? 128))%N.

(** [str::trim_start] and, on the reversed string, [str::trim_end]; [str::trim]. *)
Fixpoint trim_start (s : bytes) : bytes :=
  match s with
  | [] => []
  | a :: r =>
      if ws1 a then trim_start r
      else match r with
           | [] => s
           | b :: r2 =>
               if ws2 a b then trim_start r2
               else match r2 with
                    | [] => s
                    | c :: r3 => if ws3 a b c then trim_start r3 else s
                    end
           end
  end.

Fixpoint trim_rev (s : bytes) : bytes :=
  match s with
  | [] => []
  | a :: r =>
      if ws1 a then trim_rev r
      else match r with
           | [] => s
           | b :: r2 =>
               if ws2 b a then trim_rev r2
               else match r2 with
                    | [] => s
                    | c :: r3 => if ws3 c b a then trim_rev r3 else s
                    end
           end
  end.

Definition trim_end (s : bytes) : bytes := rev (trim_rev (rev s)).
Definition trim (s : bytes) : bytes := trim_end (trim_start s).

(** [str::split_whitespace]: the maximal white-space free pieces
    (parse_bif_allow.rs 44, parse_bif_each.rs 26, parse_bif_for.rs 23, parse_bif_rand.rs 33).
    [k] skips the remaining bytes of a white-space char; [cur] is the current piece, reversed. *)
Definition flush (cur : bytes) (l : list bytes) : list bytes :=
  match cur with [] => l | _ => rev cur :: l end.

Fixpoint split_ws_go (k : nat) (cur s : bytes) : list bytes :=
  match s with
  | [] => flush cur []
  | a :: r =>
      match k with
      | S k' => split_ws_go k' cur r
      | O =>
          if ws1 a then flush cur (split_ws_go 0 [] r)
          else if match r with b :: _ => ws2 a b | _ => false end
               then flush cur (split_ws_go 1 [] r)
          else if match r with b :: c :: _ => ws3 a b c | _ => false end
               then flush cur (split_ws_go 2 [] r)
          else split_ws_go 0 (a :: cur) r
      end
  end.
Definition split_whitespace (s : bytes) : list bytes := split_ws_go 0 [] s.

(** [Vec<String>::join]. *)
Fixpoint join (sep : bytes) (l : list bytes) : bytes :=
  match l with
  | [] => []
  | [x] => x
  | x :: r => x ++ sep ++ join sep r
  end.

(** [to_string] of unsigned and signed integers. *)
Definition dec_N (n : N) : bytes := B (DecimalString.NilZero.string_of_uint (N.to_uint n)).
Definition dec_nat (n : nat) : bytes := dec_N (N.of_nat n).
Definition dec_Z (z : Z) : bytes := B (DecimalString.NilZero.string_of_int (Z.to_int z)).

(** [str::parse] for unsigned integers up to [max] and for [i32]: an optional sign ('+' only
    for unsigned), at least one ASCII digit, no overflow
    (utils.rs 419, 444, parse_bif_cache.rs 115, parse_bif_for.rs 33, 45, parse_bif_rand.rs,
    parse_bif_count.rs). *)
Definition digit (a : ascii) : option N :=
  let n := N_of_ascii a in
  if (48 <=? n)%N && (n <=? 57)%N then Some (n - 48)%N else None.

Fixpoint digits_val (acc : N) (s : bytes) : option N :=
  match s with
  | [] => Some acc
  | a :: r => match digit a with Some d => digits_val (acc * 10 + d)%N r | None => None end
  end.

Definition digits1 (s : bytes) : option N :=
  match s with [] => None | _ => digits_val 0 s end.

Definition plus_sign : ascii := "+"%char.
Definition minus_sign : ascii := "-"%char.

Definition parse_unsigned (max : N) (s : bytes) : option N :=
  let r := match s with
           | c :: r => if aeqb c plus_sign then digits1 r else digits1 s
           | [] => None
           end in
  match r with Some n => if (n <=? max)%N then Some n else None | None => None end.

Definition u64_max : N := 18446744073709551615%N.
Definition parse_usize := parse_unsigned u64_max.
Definition parse_u64 := parse_unsigned u64_max.

Definition i32_min : Z := (-2147483648)%Z.
Definition i32_max : Z := 2147483647%Z.
Definition parse_i32 (s : bytes) : option Z :=
  let r := match s with
           | c :: r => if aeqb c plus_sign then option_map Z.of_N (digits1 r)
                       else if aeqb c minus_sign then option_map (fun n => (- Z.of_N n)%Z) (digits1 r)
                       else option_map Z.of_N (digits1 s)
           | [] => None
           end in
  match r with
  | Some z => if (i32_min <=? z)%Z && (z <=? i32_max)%Z then Some z else None
  | None => None
  end.

(** ASCII lower case, for the words inf/infinity/nan of the float grammar. *)
Definition lower_ascii (a : ascii) : ascii :=
  let n := N_of_ascii a in
  if (65 <=? n)%N && (n <=? 90)%N then ascii_of_N (n + 32) else a.

Fixpoint take_digits (s : bytes) : bytes * bytes :=
  match s with
  | a :: r => match digit a with
              | Some _ => let '(d, t) := take_digits r in (a :: d, t)
              | None => ([], s)
              end
  | [] => ([], [])
  end.

(** [s.parse::<f64>()] reduced to what utils.rs 346 uses: [None] when parsing fails, otherwise
    whether the value is > 0.0.  Grammar of Rust's [f64::from_str]; the value rounds to a
    positive number exactly if it is above half the smallest subnormal (2^-1075). *)
Definition f64_gt0 (s : bytes) : option bool :=
  let '(neg, t) := match s with
                   | c :: r => if aeqb c plus_sign then (false, r)
                               else if aeqb c minus_sign then (true, r) else (false, s)
                   | [] => (false, s)
                   end in
  let low := map lower_ascii t in
  if beq low (B "inf") || beq low (B "infinity") then Some (negb neg)
  else if beq low (B "nan") then Some false
  else
    let '(ip, r1) := take_digits t in
    let '(fp, r2) := match r1 with
                     | c :: r => if aeqb c "."%char then take_digits r else ([], r1)
                     | [] => ([], [])
                     end in
    if is_empty ip && is_empty fp then None
    else
      let mant := match digits_val 0 (ip ++ fp) with Some n => n | None => 0%N end in
      let fl := Z.of_nat (length fp) in
      let fin (e : Z) :=
        let k := (e - fl)%Z in
        Some (negb neg &&
              (if (0 <=? k)%Z then (0 <? mant)%N
               else (10 ^ (- k) <? Z.of_N mant * 2 ^ 1075)%Z)) in
      match r2 with
      | [] => fin 0%Z
      | c :: r =>
          if aeqb c "e"%char || aeqb c "E"%char then
            match r with
            | d :: r' =>
                if aeqb d plus_sign then
                  match digits1 r' with Some n => fin (Z.of_N n) | None => None end
                else if aeqb d minus_sign then
                  match digits1 r' with Some n => fin (- Z.of_N n)%Z | None => None end
                else match digits1 r with Some n => fin (Z.of_N n) | None => None end
            | [] => None
            end
          else None
      end.

(** Lexicographic comparison of strings ([Ord for str], template.rs 452). *)
Fixpoint ble (a b : bytes) : bool :=
  match a, b with
  | [], _ => true
  | _ :: _, [] => false
  | x :: a', y :: b' =>
      let m := N_of_ascii x in let n := N_of_ascii y in
      if (m <? n)%N then true else if (n <? m)%N then false else ble a' b'
  end.
