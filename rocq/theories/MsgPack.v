(** * MessagePack: rmp_serde 1.3.1 (Cargo.toml 23), used by template.rs 204-277 for schemas.
    rmp_serde is a dependency, not part of /repo: reader ([rmp_serde::from_slice::<Value>]) and writer ([rmp_serde::to_vec] of a Value, the
    way doc/msgpack.md makes the files) are transcribed from its documentation and the MessagePack format.  What a float stands for is left to
    a parameter [fb] of its 4 or 8 bytes: printed form and sign, nothing for NaN and the infinities (which serde_json turns into null);
    [fw] gives the 8 bytes written for a float.  The texts of error messages are not modelled. *)

From Verif Require Import Bytes Json Utils JsonText Spec.

Definition byte (n : N) : ascii := ascii_of_N n.
(** the first [k] bytes *)
Fixpoint take (k : nat) (s : bytes) : option (bytes * bytes) :=
  match k with
  | O => Some ([], s)
  | S k => match s with c :: r => match take k r with Some (x, y) => Some (c :: x, y) | None => None end | [] => None end
  end.
(** as [take], for a length that may be as large as 2^32 - 1 *)
Definition take_N (n : N) (s : bytes) : option (bytes * bytes) :=
  if (n <=? N.of_nat (length s))%N then take (N.to_nat n) s else None.
(** big-endian numbers *)
Definition be_value (s : bytes) : N := fold_left (fun a c => a * 256 + N_of_ascii c)%N s 0%N.
Definition read_be (k : nat) (s : bytes) : option (N * bytes) :=
  match take k s with Some (x, r) => Some (be_value x, r) | None => None end.
Definition signed (bits n : N) : Z := if (n <? 2 ^ (bits - 1))%N then Z.of_N n else (Z.of_N n - 2 ^ Z.of_N bits)%Z.
(** [Number::from] *)
Definition int_num (z : Z) : num := match z with Z0 => NPos 0 | Zpos p => NPos (Npos p) | Zneg p => NNeg p end.
Definition read_signed (k : nat) (s : bytes) : option (json * bytes) :=
  match read_be k s with Some (n, r) => Some (JNum (int_num (signed (8 * N.of_nat k) n)), r) | None => None end.
Definition read_unsigned (k : nat) (s : bytes) : option (json * bytes) :=
  match read_be k s with Some (n, r) => Some (JNum (NPos n), r) | None => None end.
(** serde_json: [Number::from_f64(v).map_or(Value::Null, Value::Number)] *)
Definition read_f (fb : bytes -> option (bytes * bool)) (k : nat) (s : bytes) : option (json * bytes) :=
  match take k s with
  | Some (x, r) => Some (match fb x with Some (t, g) => JNum (NFloat t g) | None => JNull end, r)
  | None => None
  end.
(** the text of a string or of a binary, which must be UTF-8 *)
Definition read_utf8 (n : N) (s : bytes) : option (bytes * bytes) :=
  match take_N n s with Some (x, r) => if utf8_valid x then Some (x, r) else None | None => None end.
Definition read_utf8_len (k : nat) (s : bytes) : option (bytes * bytes) :=
  match read_be k s with Some (n, r) => read_utf8 n r | None => None end.
Definition read_str (c : N) (r : bytes) : option (bytes * bytes) :=
  if (160 <=? c)%N && (c <? 192)%N then read_utf8 (c - 160) r
  else if (c =? 217)%N then read_utf8_len 1 r
  else if (c =? 218)%N then read_utf8_len 2 r
  else if (c =? 219)%N then read_utf8_len 4 r
  else None.
(** A key: serde_json's Value asks for the first key as a str and for the others as a String; rmp_serde passes binary data to both,
    and only String takes bytes. *)
Definition read_key (first : bool) (s : bytes) : option (bytes * bytes) :=
  match s with
  | [] => None
  | b :: r =>
      let c := N_of_ascii b in
      if negb first && (c =? 196)%N then read_utf8_len 1 r
      else if negb first && (c =? 197)%N then read_utf8_len 2 r
      else if negb first && (c =? 198)%N then read_utf8_len 4 r
      else read_str c r
  end.
(** the number of elements of an array and of entries of a map *)
Definition read_count (base fix_end m16 : N) (c : N) (r : bytes) : option (N * bytes) :=
  if (base <=? c)%N && (c <? fix_end)%N then Some ((c - base)%N, r)
  else if (c =? m16)%N then read_be 2 r
  else if (c =? m16 + 1)%N then read_be 4 r
  else None.
Definition read_scalar (fb : bytes -> option (bytes * bool)) (c : N) (r : bytes) : option (json * bytes) :=
  if (c <? 128)%N then Some (JNum (NPos c), r)
  else if (224 <=? c)%N then Some (JNum (int_num (signed 8 c)), r)
  else if (c =? 192)%N then Some (JNull, r)
  else if (c =? 194)%N then Some (JBool false, r)
  else if (c =? 195)%N then Some (JBool true, r)
  else if (c =? 202)%N then read_f fb 4 r
  else if (c =? 203)%N then read_f fb 8 r
  else if (c =? 204)%N then read_unsigned 1 r
  else if (c =? 205)%N then read_unsigned 2 r
  else if (c =? 206)%N then read_unsigned 4 r
  else if (c =? 207)%N then read_unsigned 8 r
  else if (c =? 208)%N then read_signed 1 r
  else if (c =? 209)%N then read_signed 2 r
  else if (c =? 210)%N then read_signed 4 r
  else if (c =? 211)%N then read_signed 8 r
  else match read_str c r with Some (x, r') => Some (JStr x, r') | None => None end.

(** [depth] containers may still be opened; [fuel] bounds the nested calls. *)
Fixpoint unpack (fb : bytes -> option (bytes * bool)) (fuel depth : nat) (s : bytes) {struct fuel} : option (json * bytes) :=
  match fuel with
  | O => None
  | S fuel =>
      match s with
      | [] => None
      | b :: r =>
          let c := N_of_ascii b in
          match read_count 144 160 220 c r with
          | Some (n, r1) =>
              match depth with
              | O => None
              | S d => match unpack_items fb fuel d n r1 with Some (l, r2) => Some (JArr l, r2) | None => None end
              end
          | None =>
              match read_count 128 144 222 c r with
              | Some (n, r1) =>
                  match depth with
                  | O => None
                  | S d => match unpack_entries fb fuel d true n r1 [] with Some (m, r2) => Some (JObj m, r2) | None => None end
                  end
              | None => read_scalar fb c r
              end
          end
      end
  end
with unpack_items (fb : bytes -> option (bytes * bool)) (fuel depth : nat) (n : N) (s : bytes) {struct fuel} : option (list json * bytes) :=
  match fuel with
  | O => None
  | S fuel =>
      if (n =? 0)%N then Some ([], s)
      else match unpack fb fuel depth s with
           | Some (v, r) => match unpack_items fb fuel depth (n - 1) r with Some (l, r') => Some (v :: l, r') | None => None end
           | None => None
           end
  end
with unpack_entries (fb : bytes -> option (bytes * bool)) (fuel depth : nat) (first : bool) (n : N) (s : bytes) (m : obj) {struct fuel}
  : option (obj * bytes) :=
  match fuel with
  | O => None
  | S fuel =>
      if (n =? 0)%N then Some (m, s)
      else match read_key first s with
           | Some (k, r) =>
               match unpack fb fuel depth r with
               | Some (v, r1) => unpack_entries fb fuel depth false (n - 1) r1 (oset k v m)
               | None => None
               end
           | None => None
           end
  end.
(** rmp_serde::from_slice: what follows the value is not looked at; its depth counter starts at 1024 and must not reach 0 *)
Definition from_slice (fb : bytes -> option (bytes * bool)) (s : bytes) : option json :=
  match unpack fb (2 * length s + 2) 1023 s with Some (v, _) => Some v | None => None end.

(** ** Writing: rmp_serde::to_vec *)
Fixpoint be_bytes (k : nat) (n : N) : bytes :=
  match k with O => [] | S k => be_bytes k (n / 256) ++ [byte (n mod 256)] end.
Definition write_uint (n : N) : bytes :=
  if (n <? 128)%N then [byte n]
  else if (n <? 256)%N then byte 204 :: be_bytes 1 n
  else if (n <? 65536)%N then byte 205 :: be_bytes 2 n
  else if (n <? 4294967296)%N then byte 206 :: be_bytes 4 n
  else byte 207 :: be_bytes 8 n.
(** a negative number, -n *)
Definition write_neg (n : N) : bytes :=
  if (n <=? 32)%N then [byte (256 - n)]
  else if (n <=? 128)%N then byte 208 :: be_bytes 1 (2 ^ 8 - n)
  else if (n <=? 32768)%N then byte 209 :: be_bytes 2 (2 ^ 16 - n)
  else if (n <=? 2147483648)%N then byte 210 :: be_bytes 4 (2 ^ 32 - n)
  else byte 211 :: be_bytes 8 (2 ^ 64 - n).
Definition write_str (s : bytes) : bytes :=
  let n := N.of_nat (length s) in
  (if (n <? 32)%N then [byte (160 + n)]
   else if (n <? 256)%N then byte 217 :: be_bytes 1 n
   else if (n <? 65536)%N then byte 218 :: be_bytes 2 n
   else byte 219 :: be_bytes 4 n) ++ s.
Definition write_count (base m16 n : N) : bytes :=
  if (n <? 16)%N then [byte (base + n)] else if (n <? 65536)%N then byte m16 :: be_bytes 2 n else byte (m16 + 1) :: be_bytes 4 n.
Fixpoint to_vec (fw : bytes -> bool -> bytes) (v : json) : bytes :=
  match v with
  | JNull => [byte 192]
  | JBool b => [byte (if b then 195 else 194)]
  | JNum (NPos n) => write_uint n
  | JNum (NNeg p) => write_neg (Npos p)
  | JNum (NFloat x g) => byte 203 :: fw x g
  | JStr s => write_str s
  | JArr l => write_count 144 220 (N.of_nat (length l)) ++ concat (map (to_vec fw) l)
  | JObj m => write_count 128 222 (N.of_nat (length m)) ++ concat (map (fun kv => write_str (fst kv) ++ to_vec fw (snd kv)) m)
  end.
