(** * JSON text (RFC 8259): the specification *)
From Verif Require Import Bytes Json Spec.

Section grammar.
(** the printed form of a number that is not an integer of 64 bits and whether it is positive, nothing if it is out of range *)
Context (fl : bytes -> option (bytes * bool)).

Definition space (t : bytes) : Prop := Forall (fun c => In c [" "; "009"; "010"; "013"]%char) t.

(** ** Strings *)
Definition hex_value (c : ascii) (n : N) : Prop :=
  (n < 10 /\ c = ascii_of_N (48 + n) \/ 10 <= n < 16 /\ (c = ascii_of_N (87 + n) \/ c = ascii_of_N (55 + n)))%N.
Inductive hex_text : bytes -> N -> Prop :=
| hx_four a b c d w x y z : hex_value a w -> hex_value b x -> hex_value c y -> hex_value d z ->
    hex_text [a; b; c; d] (((w * 16 + x) * 16 + y) * 16 + z).
(** the UTF-8 encoding of a code point (RFC 3629) *)
Inductive encoded : N -> bytes -> Prop :=
| en_1 n : (n < 128)%N -> encoded n [ascii_of_N n]
| en_2 x y : (2 <= x < 32)%N -> (y < 64)%N -> encoded (x * 64 + y) [ascii_of_N (192 + x); ascii_of_N (128 + y)]
| en_3 x y z : (x < 16)%N -> (y < 64)%N -> (z < 64)%N -> (2048 <= (x * 64 + y) * 64 + z)%N ->
    encoded ((x * 64 + y) * 64 + z) [ascii_of_N (224 + x); ascii_of_N (128 + y); ascii_of_N (128 + z)]
| en_4 w x y z : (w < 8)%N -> (x < 64)%N -> (y < 64)%N -> (z < 64)%N -> (65536 <= ((w * 64 + x) * 64 + y) * 64 + z)%N ->
    encoded (((w * 64 + x) * 64 + y) * 64 + z) [ascii_of_N (240 + w); ascii_of_N (128 + x); ascii_of_N (128 + y); ascii_of_N (128 + z)].
(** the two-character escapes *)
Definition short_escapes : list (ascii * ascii) :=
  [("034", "034"); ("092", "092"); ("/", "/"); ("b", "008"); ("f", "012"); ("n", "010"); ("r", "013"); ("t", "009")]%char.
(** the text between the quotes, and the string *)
Inductive jchars : bytes -> bytes -> Prop :=
| jc_end : jchars [] []
| jc_plain c t s : c <> "034"%char -> c <> "092"%char -> (32 <= N_of_ascii c)%N -> jchars t s -> jchars (c :: t) (c :: s)
| jc_short e x t s : In (e, x) short_escapes -> jchars t s -> jchars ("092"%char :: e :: t) (x :: s)
| jc_code h n x t s : hex_text h n -> ~ (55296 <= n <= 57343)%N -> encoded n x -> jchars t s -> jchars (B "\u" ++ h ++ t) (x ++ s)
| jc_pair h n h' m x t s : hex_text h (55296 + n) -> (n < 1024)%N -> hex_text h' (56320 + m) -> (m < 1024)%N ->
    encoded (65536 + n * 1024 + m) x -> jchars t s -> jchars (B "\u" ++ h ++ B "\u" ++ h' ++ t) (x ++ s).
Definition jstring (t s : bytes) : Prop := exists u, t = ["034"%char] ++ u ++ ["034"%char] /\ jchars u s.

(** ** Numbers *)
Definition some_digits (t : bytes) : Prop := t <> [] /\ exists n, decimal t n.
Definition fraction (t : bytes) : Prop := t = [] \/ exists d, t = B "." ++ d /\ some_digits d.
Definition exponent_part (t : bytes) : Prop :=
  t = [] \/ exists e g d, t = e ++ g ++ d /\ (e = B "e" \/ e = B "E") /\ (g = [] \/ g = B "+" \/ g = B "-") /\ some_digits d.
Definition number_token (t : bytes) : Prop :=
  exists g i n f e, t = g ++ i ++ f ++ e /\ (g = [] \/ g = B "-") /\ plain_decimal i n /\ fraction f /\ exponent_part e.
(** the integers that are kept as integers *)
Inductive integer_token : bytes -> num -> Prop :=
| it_pos t n : plain_decimal t n -> (n < 2 ^ 64)%N -> integer_token t (NPos n)
| it_neg t p : plain_decimal t (Npos p) -> (Npos p <= 2 ^ 63)%N -> integer_token (B "-" ++ t) (NNeg p).
Inductive jnumber : bytes -> num -> Prop :=
| jn_integer t n : integer_token t n -> jnumber t n
| jn_float t x g : number_token t -> (forall n, ~ integer_token t n) -> fl t = Some (x, g) -> jnumber t (NFloat x g).

(** ** Values, with at most [d] nested containers *)
(** members in the order of the text; of a repeated key the last value counts, at the first place *)
Definition later_wins (l : obj) : obj := fold_left (fun m kv => oset (fst kv) (snd kv) m) l [].
Inductive jvalue : nat -> bytes -> json -> Prop :=
| jv_null d : jvalue d (B "null") JNull
| jv_true d : jvalue d (B "true") (JBool true)
| jv_false d : jvalue d (B "false") (JBool false)
| jv_number d t n : jnumber t n -> jvalue d t (JNum n)
| jv_string d t s : jstring t s -> jvalue d t (JStr s)
| jv_empty_array d w : space w -> jvalue (S d) (B "[" ++ w ++ B "]") (JArr [])
| jv_array d t l : jelements d t l -> jvalue (S d) (B "[" ++ t ++ B "]") (JArr l)
| jv_empty_object d w : space w -> jvalue (S d) (B "{" ++ w ++ B "}") (JObj [])
| jv_object d t l : jmembers d t l -> jvalue (S d) (B "{" ++ t ++ B "}") (JObj (later_wins l))
with jelement : nat -> bytes -> json -> Prop :=
| jt_element d w t w' v : space w -> jvalue d t v -> space w' -> jelement d (w ++ t ++ w') v
with jelements : nat -> bytes -> list json -> Prop :=
| je_one d t v : jelement d t v -> jelements d t [v]
| je_more d t v u l : jelement d t v -> jelements d u l -> jelements d (t ++ B "," ++ u) (v :: l)
with jmember : nat -> bytes -> bytes * json -> Prop :=
| jt_member d w t w' u k v : space w -> jstring t k -> space w' -> jelement d u v -> jmember d (w ++ t ++ w' ++ B ":" ++ u) (k, v)
with jmembers : nat -> bytes -> obj -> Prop :=
| jm_one d t kv : jmember d t kv -> jmembers d t [kv]
| jm_more d t kv u l : jmember d t kv -> jmembers d u l -> jmembers d (t ++ B "," ++ u) (kv :: l).

(** a whole text *)
Definition json_text (t : bytes) (v : json) : Prop := jelement 127 t v.
End grammar.

(** ** Values that can be printed and read back *)
Section printable.
Context (fl : bytes -> option (bytes * bool)).
(** the numbers of serde_json: integers of 64 bits, and floats whose printed form reads back (C109: not every float of the program is one) *)
Definition number_ok (n : num) : Prop :=
  match n with
  | NPos n => (n < 2 ^ 64)%N
  | NNeg p => (Npos p <= 2 ^ 63)%N
  | NFloat x g => number_token x /\ (forall k, ~ integer_token x k) /\ fl x = Some (x, g)
  end.
(** the numbers in a value are numbers, and the keys of an object differ *)
Inductive value_ok : json -> Prop :=
| vo_null : value_ok JNull
| vo_bool b : value_ok (JBool b)
| vo_num n : number_ok n -> value_ok (JNum n)
| vo_str s : value_ok (JStr s)
| vo_arr l : Forall value_ok l -> value_ok (JArr l)
| vo_obj m : NoDup (okeys m) -> Forall (fun kv => value_ok (snd kv)) m -> value_ok (JObj m).
(** at most [d] nested arrays and objects *)
Inductive nested : nat -> json -> Prop :=
| ne_null d : nested d JNull
| ne_bool d b : nested d (JBool b)
| ne_num d n : nested d (JNum n)
| ne_str d s : nested d (JStr s)
| ne_arr d l : Forall (nested d) l -> nested (S d) (JArr l)
| ne_obj d m : Forall (fun kv => nested d (snd kv)) m -> nested (S d) (JObj m).
(** the numbers in a value *)
Inductive number_in (n : num) : json -> Prop :=
| ni_here : number_in n (JNum n)
| ni_arr v l : In v l -> number_in n v -> number_in n (JArr l)
| ni_obj k v m : In (k, v) m -> number_in n v -> number_in n (JObj m).
(** the strings in a value: keys and string values *)
Inductive string_in (x : bytes) : json -> Prop :=
| si_here : string_in x (JStr x)
| si_arr v l : In v l -> string_in x v -> string_in x (JArr l)
| si_key v m : In (x, v) m -> string_in x (JObj m)
| si_obj k v m : In (k, v) m -> string_in x v -> string_in x (JObj m).
End printable.
