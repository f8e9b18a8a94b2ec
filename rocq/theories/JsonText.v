(** * JSON text: serde_json 1.0.143 (Cargo.toml 15), used by template.rs 36-200 (schemas), parse_bif_data.rs 58-105,
    parse_bif_locale.rs, parse_bif_obj.rs 56-190 and parse_bif_cache.rs 72-101.
    serde_json is a dependency, not part of /repo: reader and printer are transcribed from its documentation (RFC 8259 without
    extensions; at most 127 nested containers; later values of a repeated key win; surrogates must come in pairs).  The value of a
    number with a fraction, an exponent or too many digits is left to a parameter [fl], which gives its printed form and whether it is
    positive, or nothing when it is out of range.  The texts of error messages are not modelled. *)

From Verif Require Import Bytes Json Utils.

Definition newline : ascii := "010"%char.
Definition quote : ascii := "034"%char.
Definition bslash : ascii := "092"%char.

(** ** Printing: serde_json::to_string *)
Definition hex_char (n : N) : ascii := ascii_of_N (if (n <? 10)%N then 48 + n else 87 + n)%N.
Definition escape_char (c : ascii) : bytes :=
  if aeqb c quote then [bslash; quote]
  else if aeqb c bslash then [bslash; bslash]
  else if aeqb c "008"%char then [bslash; "b"%char]
  else if aeqb c "009"%char then [bslash; "t"%char]
  else if aeqb c "010"%char then [bslash; "n"%char]
  else if aeqb c "012"%char then [bslash; "f"%char]
  else if aeqb c "013"%char then [bslash; "r"%char]
  else if (N_of_ascii c <? 32)%N then
    [bslash; "u"%char; "0"%char; "0"%char; hex_char (N_of_ascii c / 16); hex_char (N_of_ascii c mod 16)]
  else [c].
Definition print_string (s : bytes) : bytes := quote :: flat_map escape_char s ++ [quote].
(** [join] (Bytes.v) puts the commas *)
Fixpoint print_json (v : json) : bytes :=
  match v with
  | JNull => B "null"
  | JBool b => bool_to_string b
  | JNum n => num_to_string n
  | JStr s => print_string s
  | JArr l => B "[" ++ join (B ",") (map print_json l) ++ B "]"
  | JObj m => B "{" ++ join (B ",") (map (fun kv => print_string (fst kv) ++ B ":" ++ print_json (snd kv)) m) ++ B "}"
  end.

(** serde_json::to_string_pretty (PrettyFormatter): two spaces for every open container *)
Definition pad (n : nat) : bytes := newline :: concat (repeat (B "  ") n).
Fixpoint print_pretty (n : nat) (v : json) : bytes :=
  match v with
  | JNull => B "null"
  | JBool b => bool_to_string b
  | JNum k => num_to_string k
  | JStr s => print_string s
  | JArr [] => B "[]"
  | JArr l => B "[" ++ pad (S n) ++ join (B "," ++ pad (S n)) (map (print_pretty (S n)) l) ++ pad n ++ B "]"
  | JObj [] => B "{}"
  | JObj m => B "{" ++ pad (S n) ++
      join (B "," ++ pad (S n)) (map (fun kv => print_string (fst kv) ++ B ": " ++ print_pretty (S n) (snd kv)) m) ++ pad n ++ B "}"
  end.

(** ** Reading: serde_json::from_str *)
Definition is_space (c : ascii) : bool := aeqb c " "%char || aeqb c "009"%char || aeqb c "010"%char || aeqb c "013"%char.
Fixpoint skip_space (s : bytes) : bytes :=
  match s with
  | c :: r => if is_space c then skip_space r else s
  | [] => []
  end.

Definition hex_val (c : ascii) : option N :=
  let n := N_of_ascii c in
  if (48 <=? n)%N && (n <=? 57)%N then Some (n - 48)%N
  else if (97 <=? n)%N && (n <=? 102)%N then Some (n - 87)%N
  else if (65 <=? n)%N && (n <=? 70)%N then Some (n - 55)%N
  else None.
Definition hex4 (a b c d : ascii) : option N :=
  match hex_val a, hex_val b, hex_val c, hex_val d with
  | Some w, Some x, Some y, Some z => Some (w * 4096 + x * 256 + y * 16 + z)%N
  | _, _, _, _ => None
  end.
(** the UTF-8 encoding of a code point (RFC 3629) *)
Definition utf8 (n : N) : bytes :=
  if (n <? 128)%N then [ascii_of_N n]
  else if (n <? 2048)%N then [ascii_of_N (192 + n / 64); ascii_of_N (128 + n mod 64)]
  else if (n <? 65536)%N then [ascii_of_N (224 + n / 4096); ascii_of_N (128 + n / 64 mod 64); ascii_of_N (128 + n mod 64)]
  else [ascii_of_N (240 + n / 262144); ascii_of_N (128 + n / 4096 mod 64); ascii_of_N (128 + n / 64 mod 64); ascii_of_N (128 + n mod 64)]%N.
Definition high_surrogate (n : N) : bool := (55296 <=? n)%N && (n <=? 56319)%N.
Definition low_surrogate (n : N) : bool := (56320 <=? n)%N && (n <=? 57343)%N.
Definition pair_value (n m : N) : N := (65536 + (n - 55296) * 1024 + (m - 56320))%N.
Definition simple_escape (e : ascii) : option ascii :=
  if aeqb e quote then Some quote
  else if aeqb e bslash then Some bslash
  else if aeqb e "/"%char then Some "/"%char
  else if aeqb e "b"%char then Some "008"%char
  else if aeqb e "f"%char then Some "012"%char
  else if aeqb e "n"%char then Some "010"%char
  else if aeqb e "r"%char then Some "013"%char
  else if aeqb e "t"%char then Some "009"%char
  else None.
Definition prefixed (x : bytes) (r : option (bytes * bytes)) : option (bytes * bytes) :=
  match r with Some (s, t) => Some (x ++ s, t) | None => None end.

(** after the opening quote: the string and what follows the closing quote *)
Fixpoint read_string (s : bytes) : option (bytes * bytes) :=
  match s with
  | [] => None
  | c :: r =>
      if aeqb c quote then Some ([], r)
      else if aeqb c bslash then
        match r with
        | [] => None
        | e :: r1 =>
            match simple_escape e with
            | Some x => prefixed [x] (read_string r1)
            | None =>
                if aeqb e "u"%char then
                  match r1 with
                  | h1 :: h2 :: h3 :: h4 :: r2 =>
                      match hex4 h1 h2 h3 h4 with
                      | Some n =>
                          if low_surrogate n then None
                          else if high_surrogate n then
                            match r2 with
                            | b :: u :: k1 :: k2 :: k3 :: k4 :: r3 =>
                                if aeqb b bslash && aeqb u "u"%char then
                                  match hex4 k1 k2 k3 k4 with
                                  | Some m => if low_surrogate m then prefixed (utf8 (pair_value n m)) (read_string r3) else None
                                  | None => None
                                  end
                                else None
                            | _ => None
                            end
                          else prefixed (utf8 n) (read_string r2)
                      | None => None
                      end
                  | _ => None
                  end
                else None
            end
        end
      else if (N_of_ascii c <? 32)%N then None
      else prefixed [c] (read_string r)
  end.

(** digits, at least one *)
Definition read_digits (s : bytes) : option (bytes * bytes) :=
  match take_digits s with ([], _) => None | (d, r) => Some (d, r) end.
Definition read_fraction (s : bytes) : option (bytes * bytes) :=
  match s with
  | c :: r => if aeqb c "."%char then prefixed [c] (read_digits r) else Some ([], s)
  | [] => Some ([], [])
  end.
Definition read_exponent (s : bytes) : option (bytes * bytes) :=
  match s with
  | c :: r =>
      if aeqb c "e"%char || aeqb c "E"%char then
        match r with
        | g :: r' => if aeqb g plus_sign || aeqb g minus_sign then prefixed [c; g] (read_digits r') else prefixed [c] (read_digits r)
        | [] => None
        end
      else Some ([], s)
  | [] => Some ([], [])
  end.
Definition read_float (fl : bytes -> option (bytes * bool)) (t : bytes) : option num :=
  match fl t with Some (x, g) => Some (NFloat x g) | None => None end.
Definition i64_low : N := 9223372036854775808%N.
(** the value of an integer *)
Definition read_integer (fl : bytes -> option (bytes * bool)) (neg : bool) (ip : bytes) : option num :=
  match digits_val 0 ip with
  | None => None
  | Some n =>
      if neg then
        match n with
        | Npos p => if (n <=? i64_low)%N then Some (NNeg p) else read_float fl (minus_sign :: ip)
        | N0 => read_float fl (minus_sign :: ip)
        end
      else if (n <=? u64_max)%N then Some (NPos n) else read_float fl ip
  end.
Definition leading_zero (ip : bytes) : bool := match ip with z :: _ :: _ => aeqb z "0"%char | _ => false end.
Definition read_number (fl : bytes -> option (bytes * bool)) (s : bytes) : option (num * bytes) :=
  let '(neg, s1) := match s with c :: r => if aeqb c minus_sign then (true, r) else (false, s) | [] => (false, s) end in
  match read_digits s1 with
  | None => None
  | Some (ip, s2) =>
      if leading_zero ip then None
      else
      match read_fraction s2 with
      | None => None
      | Some (fp, s3) =>
          match read_exponent s3 with
          | None => None
          | Some (ep, s4) =>
              let v := if is_empty fp && is_empty ep then read_integer fl neg ip
                       else read_float fl ((if neg then [minus_sign] else []) ++ ip ++ fp ++ ep) in
              match v with Some n => Some (n, s4) | None => None end
          end
      end
  end.

(** a value, an element list and a member list; [depth] containers may still be opened; [fuel] bounds the number of nested calls and
    is larger than the text *)
Fixpoint read_value (fl : bytes -> option (bytes * bool)) (fuel depth : nat) (s : bytes) {struct fuel} : option (json * bytes) :=
  match fuel with
  | O => None
  | S fuel =>
      match skip_space s with
      | [] => None
      | c :: r =>
          if aeqb c quote then match read_string r with Some (x, r') => Some (JStr x, r') | None => None end
          else if aeqb c "["%char then
            match depth with
            | O => None
            | S d =>
                match skip_space r with
                | c' :: r' =>
                    if aeqb c' "]"%char then Some (JArr [], r')
                    else match read_value fl fuel d r with
                         | Some (v, r1) => match read_elements fl fuel d r1 with Some (l, r2) => Some (JArr (v :: l), r2) | None => None end
                         | None => None
                         end
                | [] => None
                end
            end
          else if aeqb c "{"%char then
            match depth with
            | O => None
            | S d =>
                match skip_space r with
                | c' :: r' =>
                    if aeqb c' "}"%char then Some (JObj [], r')
                    else match read_member fl fuel d r with
                         | Some (k, v, r1) => match read_members fl fuel d r1 [(k, v)] with Some (m, r2) => Some (JObj m, r2) | None => None end
                         | None => None
                         end
                | [] => None
                end
            end
          else match strip_prefix (B "null") (c :: r) with
          | Some r' => Some (JNull, r')
          | None => match strip_prefix (B "true") (c :: r) with
          | Some r' => Some (JBool true, r')
          | None => match strip_prefix (B "false") (c :: r) with
          | Some r' => Some (JBool false, r')
          | None => match read_number fl (c :: r) with
          | Some (n, r') => Some (JNum n, r')
          | None => None
          end end end end
      end
  end
with read_elements (fl : bytes -> option (bytes * bool)) (fuel depth : nat) (s : bytes) {struct fuel} : option (list json * bytes) :=
  match fuel with
  | O => None
  | S fuel =>
      match skip_space s with
      | c :: r =>
          if aeqb c "]"%char then Some ([], r)
          else if aeqb c ","%char then
            match read_value fl fuel depth r with
            | Some (v, r1) => match read_elements fl fuel depth r1 with Some (l, r2) => Some (v :: l, r2) | None => None end
            | None => None
            end
          else None
      | [] => None
      end
  end
with read_member (fl : bytes -> option (bytes * bool)) (fuel depth : nat) (s : bytes) {struct fuel} : option (bytes * json * bytes) :=
  match fuel with
  | O => None
  | S fuel =>
      match skip_space s with
      | c :: r =>
          if aeqb c quote then
            match read_string r with
            | Some (k, r1) =>
                match skip_space r1 with
                | c1 :: r2 =>
                    if aeqb c1 ":"%char then
                      match read_value fl fuel depth r2 with Some (v, r3) => Some (k, v, r3) | None => None end
                    else None
                | [] => None
                end
            | None => None
            end
          else None
      | [] => None
      end
  end
with read_members (fl : bytes -> option (bytes * bool)) (fuel depth : nat) (s : bytes) (m : obj) {struct fuel} : option (obj * bytes) :=
  match fuel with
  | O => None
  | S fuel =>
      match skip_space s with
      | c :: r =>
          if aeqb c "}"%char then Some (m, r)
          else if aeqb c ","%char then
            match read_member fl fuel depth r with
            | Some (k, v, r1) => read_members fl fuel depth r1 (oset k v m)
            | None => None
            end
          else None
      | [] => None
      end
  end.

(** how many containers may be nested *)
Definition max_depth : nat := 127.
Definition read_json (fl : bytes -> option (bytes * bool)) (s : bytes) : option json :=
  match read_value fl (S (length s)) max_depth s with
  | Some (v, r) => match skip_space r with [] => Some v | _ => None end
  | None => None
  end.
