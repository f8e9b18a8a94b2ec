(** * Specification vocabulary

    The notions the property theorems are stated with.  Nothing here models code of /repo.  The
    only model functions used are [escape_chars]/[unescape_chars] in [refilter] and
    [last_filtered] (which state facts about exactly these API functions), the byte helpers
    [u8], [blen] of the codec, and the std string functions [split], [replace]. *)

From Verif Require Import Bytes Json Utils FastCgi.

(** ** Substrings *)

(** [p] occurs in [s] at offset [i]. *)
Definition occurs_at (p s : bytes) (i : nat) : Prop := exists u v, s = u ++ p ++ v /\ length u = i.

Definition occurs (p s : bytes) : Prop := exists u v, s = u ++ p ++ v.

Definition starts_byte (c : ascii) (s : bytes) : Prop := exists r, s = c :: r.

Definition ends_byte (c : ascii) (s : bytes) : Prop := exists r, s = r ++ [c].

(** Replacing the non-overlapping occurrences of [pat] from left to right. *)
Inductive replaced (pat rep : bytes) : bytes -> bytes -> Prop :=
| rp_none s : ~ occurs pat s -> replaced pat rep s s
| rp_first u v v' :
    (forall i, i < length u -> ~ occurs_at pat (u ++ pat ++ v) i) ->
    replaced pat rep v v' -> replaced pat rep (u ++ pat ++ v) (u ++ rep ++ v').


(** ** UTF-8 and wildcards *)

(** Well-formed UTF-8 (Unicode Standard, table 3-7): what a Rust [str] always is. *)
Definition in_range (lo hi : N) (a : ascii) : bool :=
  (lo <=? N_of_ascii a)%N && (N_of_ascii a <=? hi)%N.

Fixpoint utf8_valid (s : bytes) : bool :=
  match s with
  | [] => true
  | a :: r =>
      if in_range 0 127 a then utf8_valid r
      else match r with
           | [] => false
           | b :: r2 =>
               if in_range 194 223 a then in_range 128 191 b && utf8_valid r2
               else match r2 with
                    | [] => false
                    | c :: r3 =>
                        if in_range 224 239 a then
                          (if in_range 224 224 a then in_range 160 191 b
                           else if in_range 237 237 a then in_range 128 159 b
                           else in_range 128 191 b)
                          && in_range 128 191 c && utf8_valid r3
                        else match r3 with
                             | [] => false
                             | d :: r4 =>
                                 in_range 240 244 a
                                 && (if in_range 240 240 a then in_range 144 191 b
                                     else if in_range 244 244 a then in_range 128 143 b
                                     else in_range 128 191 b)
                                 && in_range 128 191 c && in_range 128 191 d && utf8_valid r4
                             end
                    end
           end
  end.

(** The documented meaning of a pattern, on lists of characters. *)
Inductive wild : list bytes -> list bytes -> Prop :=
| w_end : wild [] []
| w_lit c p t :
    c <> B "\" -> c <> B "." -> c <> B "?" -> c <> B "*" -> c <> B "~" ->
    wild p t -> wild (c :: p) (c :: t)
| w_escaped c p t : wild p t -> wild (B "\" :: c :: p) (c :: t)
| w_any_one c p t : wild p t -> wild (B "?" :: p) (c :: t)
| w_opt_none p t : wild p t -> wild (B "." :: p) t
| w_opt_one c p t : wild p t -> wild (B "." :: p) (c :: t)
| w_many u p t : wild p t -> wild (B "*" :: p) (u ++ t)
| w_tilde p : wild (B "~" :: p) [].

Definition wildcard_byte (a : ascii) : bool :=
  aeqb a "."%char || aeqb a "?"%char || aeqb a "*"%char || aeqb a "~"%char || aeqb a "\"%char.

Definition traversal_path (p : bytes) : Prop :=
  (exists r, p = "/"%char :: r) \/ (exists r, p = "\"%char :: r) \/ occurs (B "..") p.

Definition traversal_words : list bytes := [B "/*"; B "\\*"; B "*\.\.*"].


(** ** Escaping *)

(** The characters that are active in HTML (and, with [braces], in templates). *)
Definition active (braces : bool) : list ascii :=
  ["<"%char; ">"%char; """"%char; "'"%char; "/"%char]
  ++ (if braces then ["{"%char; "}"%char] else []).

(** The entity written for each escaped character. *)
Definition entity_table (braces : bool) : list (ascii * bytes) :=
  [("&"%char, B "&amp;"); ("<"%char, B "&lt;"); (">"%char, B "&gt;"); (""""%char, B "&quot;");
   ("'"%char, B "&#x27;"); ("/"%char, B "&#x2F;")]
  ++ (if braces then [("{"%char, B "&#123;"); ("}"%char, B "&#125;")] else []).

(** A piece of escaped text for the character [c]: its entity, or [c] itself if it has none. *)
Definition piece_for (braces : bool) (c : ascii) (p : bytes) : Prop :=
  In (c, p) (entity_table braces) \/
  (p = [c] /\ ~ In c (active braces) /\ c <> "&"%char).

(** Text without active characters where every '&' starts an entity. *)
Inductive inert (braces : bool) : bytes -> Prop :=
| inert_nil : inert braces []
| inert_plain c r : ~ In c (active braces) -> c <> "&"%char -> inert braces r -> inert braces (c :: r)
| inert_entity c e r : In (c, e) (entity_table braces) -> inert braces r -> inert braces (e ++ r).

(** the unescape-then-escape filter *)
Definition refilter (b : bool) (s : bytes) : bytes := escape_chars (unescape_chars s b) b.


(** ** JSON values *)

Inductive string_in : bytes -> json -> Prop :=
| si_str s : string_in s (JStr s)
| si_arr s v l : In v l -> string_in s v -> string_in s (JArr l)
| si_obj s k v m : In (k, v) m -> string_in s v -> string_in s (JObj m).

Inductive key_in : bytes -> json -> Prop :=
| ki_here k v m : In (k, v) m -> key_in k (JObj m)
| ki_arr k v l : In v l -> key_in k v -> key_in k (JArr l)
| ki_obj k k' v m : In (k', v) m -> key_in k v -> key_in k (JObj m).

(** The value of the last entry of [m] whose filtered key is [k]. *)
Fixpoint last_filtered (k : bytes) (m : obj) : option json :=
  match m with
  | [] => None
  | (k0, v) :: r =>
      match last_filtered k r with
      | Some w => Some w
      | None => if beq k (filter_key k0) then Some v else None
      end
  end.

(** The value reached from [j] by following object keys. *)
Fixpoint at_path (p : list bytes) (j : json) : option json :=
  match p with
  | [] => Some j
  | k :: r => match j with
              | JObj m => match oget k m with Some v => at_path r v | None => None end
              | _ => None
              end
  end.

Definition is_obj (j : json) : Prop := exists m, j = JObj m.

(** Objects of serde_json have unique keys. *)
Inductive wf_json : json -> Prop :=
| wf_null : wf_json JNull
| wf_bool b : wf_json (JBool b)
| wf_num n : wf_json (JNum n)
| wf_str s : wf_json (JStr s)
| wf_arr l : Forall wf_json l -> wf_json (JArr l)
| wf_obj m : NoDup (okeys m) -> Forall (fun kv => wf_json (snd kv)) m -> wf_json (JObj m).

(** [b] decides what is found at path [p]: it has a value there, or it has a non-object at
    a prefix of [p]. *)
Definition touches (b : json) (p : list bytes) : Prop :=
  (exists v, at_path p b = Some v) \/
  (exists q r v, p = q ++ r /\ at_path q b = Some v /\ ~ is_obj v).

(** keys in the order of [a], then the new keys of [b] *)
Definition new_keys (ka kb : list bytes) : list bytes :=
  filter (fun k => negb (existsb (beq k) ka)) kb.

Definition header_path : list bytes := [B "data"; B "CONTEXT"; B "HEADERS"].

Definition spellings : list bytes := 
  [B "requested-with-ajax"; B "Requested-With-Ajax"; B "REQUESTED-WITH-AJAX"].

(** ** Numbers as texts *)

(** decimal digits, the empty text is 0 *)
Inductive decimal : bytes -> N -> Prop :=
| dc_none : decimal [] 0
| dc_digit s n d : decimal s n -> (d < 10)%N -> decimal (s ++ [ascii_of_N (48 + d)]) (10 * n + d).
(** the usual way to write a number: digits without a leading zero, and "0" for zero *)
Definition plain_decimal (s : bytes) (n : N) : Prop :=
  decimal s n /\ s <> [] /\ (s = B "0" \/ forall r, s <> B "0" ++ r).
(** the same for a number that may be negative: "-" and the digits *)
Definition plain_integer (s : bytes) (z : Z) : Prop :=
  if (z <? 0)%Z then exists t, s = B "-" ++ t /\ plain_decimal t (Z.to_N (- z)) else plain_decimal s (Z.to_N z).
(** how a JSON number is written: an integer in decimal, any other number as it is kept (NFloat carries its text) *)
Definition number_text (n : num) (t : bytes) : Prop :=
  match n with
  | NPos n => plain_decimal t n
  | NNeg p => plain_integer t (Z.neg p)
  | NFloat x _ => t = x
  end.
(** an optional sign *)
Inductive sign : bytes -> bool -> Prop :=
| sg_none : sign [] false
| sg_plus : sign (B "+") false
| sg_minus : sign (B "-") true.
(** an integer, with digits *)
Inductive integer_text : bytes -> Z -> Prop :=
| int_ sg neg ds n : sign sg neg -> decimal ds n -> ds <> [] -> integer_text (sg ++ ds) (if neg then - Z.of_N n else Z.of_N n)%Z.
(** digits with an optional point, at least one digit: the number without the point, and how many digits follow it *)
Inductive mantissa : bytes -> N -> nat -> Prop :=
| ma_int ds n : decimal ds n -> ds <> [] -> mantissa ds n 0
| ma_point a b n : decimal (a ++ b) n -> a ++ b <> [] -> mantissa (a ++ B "." ++ b) n (length b).
Inductive exponent : bytes -> Z -> Prop :=
| ex_none : exponent [] 0
| ex_some c t z : c = "e"%char \/ c = "E"%char -> integer_text t z -> exponent (c :: t) z.
(** a word in any case *)
Definition word_like (w t : bytes) : Prop :=
  Forall2 (fun a b => b = a \/ (N_of_ascii b + 32 = N_of_ascii a)%N) w t.
(** m * 10^k is more than 2^-1075, half of the smallest positive double: it does not round to zero *)
Definition not_tiny (m : N) (k : Z) : Prop := (10 ^ Z.max 0 (- k) < Z.of_N m * 2 ^ 1075 * 10 ^ Z.max 0 k)%Z.
(** The texts that are floating-point numbers, and whether the double is positive. *)
Inductive float_text : bytes -> bool -> Prop :=
| fl_number sg neg ma m f ex e p : sign sg neg -> mantissa ma m f -> exponent ex e ->
    (p = true <-> neg = false /\ not_tiny m (e - Z.of_nat f)) -> float_text (sg ++ ma ++ ex) p
| fl_infinite sg neg w : sign sg neg -> word_like (B "inf") w \/ word_like (B "infinity") w -> float_text (sg ++ w) (negb neg)
| fl_nan sg neg w : sign sg neg -> word_like (B "nan") w -> float_text (sg ++ w) false.


(** an integer of 32 bits, and a natural number of 64 bits (a sign "+" is accepted) *)
Definition int32 (s : bytes) (z : Z) : Prop := integer_text s z /\ (- 2 ^ 31 <= z <= 2 ^ 31 - 1)%Z.
Definition nat64 (s : bytes) (n : N) : Prop :=
  exists sg ds, (sg = [] \/ sg = B "+") /\ s = sg ++ ds /\ decimal ds n /\ ds <> [] /\ (n <= 2 ^ 64 - 1)%N.

(** The components of a variable name: "->" and "/" separate, empty components are dropped. *)
Definition components (name : bytes) : list bytes :=
  filter (fun p => negb (is_empty p)) (split (B "/") (replace (B "->") (B "/") name)).

(** One step: an object key, or an index when the current value is an array. *)
Inductive steps : bytes -> json -> json -> Prop :=
| steps_key k m v : oget k m = Some v -> steps k (JObj m) v
| steps_index k i l v : nat64 k i -> nth_error l (N.to_nat i) = Some v ->
    steps k (JArr l) v.

(** Following all components. *)
Inductive reaches : list bytes -> json -> json -> Prop :=
| reaches_nil j : reaches [] j j
| reaches_cons k r j j' v : steps k j j' -> reaches r j' v -> reaches (k :: r) j v.


(** ** Template text *)

(** A template is a list of items: literal text, bifs and comments, nested to any depth. *)
Inductive item :=
| TLit (t : bytes)
| TBif (body : list item)
| TComment (body : list item).

Fixpoint text_of (i : item) : bytes :=
  match i with
  | TLit t => t
  | TBif b => B "{:" ++ flat_map text_of b ++ B ":}"
  | TComment b => B "{:*" ++ flat_map text_of b ++ B "*:}"
  end.

Definition texts (l : list item) : bytes := flat_map text_of l.

Definition is_lit (i : item) : Prop := exists t, i = TLit t.

(** Well-formed items: delimiters occur only as delimiters.  [inc] tells that the item stands
    inside a comment. *)
Inductive wf_item : bool -> item -> Prop :=
| wfi_lit inc t :
    t <> [] -> ~ occurs (B "{:") t -> ~ occurs (B ":}") t -> wf_item inc (TLit t)
| wfi_bif inc b :
    wf_items inc b ->
    ~ starts_byte "*" (texts b) ->                     (* otherwise it is a comment *)
    ~ ends_byte "{" (texts b) ->                       (* otherwise "{:" is read before the "}" *)
    (inc = true -> ~ ends_byte "*" (texts b)) ->       (* otherwise "*:}" ends the comment *)
    wf_item inc (TBif b)
| wfi_comment inc b : wf_items true b -> wf_item inc (TComment b)
with wf_items : bool -> list item -> Prop :=
| wfs_nil inc : wf_items inc []
| wfs_cons inc i l :
    wf_item inc i -> wf_items inc l ->
    (is_lit i -> match l with j :: _ => ~ is_lit j | [] => True end) ->
    wf_items inc (i :: l).

(** The spans of the outermost bifs and comments. *)
Fixpoint spans (pos : nat) (l : list item) : list (nat * nat) :=
  match l with
  | [] => []
  | i :: r =>
      let e := pos + length (text_of i) in
      match i with
      | TLit _ => spans e r
      | _ => (pos, e) :: spans e r
      end
  end.

(** a list of spans of [src] from position [p] on *)
Inductive ordered_spans (src : bytes) : nat -> list (nat * nat) -> Prop :=
| os_nil p : p <= length src -> ordered_spans src p []
| os_cons p a b l u :
    p <= a -> a <= b -> b <= length src ->
    slice a b src = B "{:" ++ u ++ B ":}" ->
    ordered_spans src b l -> ordered_spans src p ((a, b) :: l).

(** the text between and around the spans *)
Fixpoint gaps (src : bytes) (p : nat) (l : list (nat * nat)) : list bytes :=
  match l with
  | [] => [skipn p src]
  | (a, b) :: r => slice p a src :: gaps src b r
  end.

(** the gaps and the blocks together are the source *)
Fixpoint interleave (src : bytes) (p : nat) (l : list (nat * nat)) : bytes :=
  match l with
  | [] => skipn p src
  | (a, b) :: r => slice p a src ++ slice a b src ++ interleave src b r
  end.

Definition no_code (i : item) : Prop :=
  match i with TLit t => ~ occurs (B ">>") t | _ => True end.

(** Text and comments nested to any depth. *)
Inductive cpart :=
| CText (t : bytes)
| CNote (body : list cpart).

Fixpoint ctext (p : cpart) : bytes :=
  match p with
  | CText t => t
  | CNote b => B "{:*" ++ flat_map ctext b ++ B "*:}"
  end.

Definition ctexts (l : list cpart) : bytes := flat_map ctext l.

(** what must remain: the text outside the comments *)
Definition outside (l : list cpart) : bytes :=
  flat_map (fun p => match p with CText t => t | CNote _ => [] end) l.

Definition is_text (p : cpart) : Prop := exists t, p = CText t.

Inductive wf_note : cpart -> Prop :=
| wn_text t : t <> [] -> ~ occurs (B "{:*") t -> ~ occurs (B "*:}") t -> wf_note (CText t)
| wn_note b : wf_notes b ->
    ~ (exists r, ctexts b = B ":}" ++ r) ->          (* "{:*:}" would close *)
    ~ (exists r, ctexts b = r ++ B "{:") ->          (* "{:*:}" would open *)
    wf_note (CNote b)
with wf_notes : list cpart -> Prop :=
| wns_nil : wf_notes []
| wns_cons p l : wf_note p -> wf_notes l ->
    (is_text p -> match l with q :: _ => ~ is_text q | [] => True end) ->
    wf_notes (p :: l).

(** at the top level the text may contain anything but "{:*" *)
Inductive wf_top : list cpart -> Prop :=
| wt_nil : wf_top []
| wt_text t l : ~ occurs (B "{:*") t -> match l with q :: _ => ~ is_text q | [] => True end ->
    wf_top l -> wf_top (CText t :: l)
| wt_note b l : wf_note (CNote b) -> wf_top l -> wf_top (CNote b :: l).


(** ** The FastCGI 1.0 wire format *)

Definition val (a : ascii) : N := N_of_ascii a.

(** A record on the wire. *)
Record fcgi_record := Rec {
  rec_version : N; rec_type : N; rec_id : N; rec_content : bytes; rec_padding : bytes }.

(** Decoder of one record: header of eight bytes, content, padding; returns the rest too. *)
Definition decode_record (s : bytes) : option (fcgi_record * bytes) :=
  match s with
  | v :: t :: i1 :: i0 :: c1 :: c0 :: p :: _ :: r =>
      let clen := N.to_nat (val c1 * 256 + val c0) in
      let plen := N.to_nat (val p) in
      if Nat.leb (clen + plen) (length r)
      then Some (Rec (val v) (val t) (val i1 * 256 + val i0) (firstn clen r)
                   (firstn plen (skipn clen r)),
                 skipn (clen + plen) r)
      else None
  | _ => None
  end.

(** Decoder of a length: one byte below 128, or four bytes with the top bit set. *)
Definition decode_length (s : bytes) : option (N * bytes) :=
  match s with
  | a :: r =>
      if (val a <? 128)%N then Some (val a, r)
      else match r with
           | b :: c :: d :: r' => Some (((val a - 128) * 16777216 + val b * 65536 + val c * 256 + val d)%N, r')
           | _ => None
           end
  | [] => None
  end.

(** Decoder of a name-value list; every pair takes at least two bytes. *)
Fixpoint decode_pairs (fuel : nat) (s : bytes) : option (list (bytes * bytes)) :=
  match fuel, s with
  | _, [] => Some []
  | O, _ => None
  | S k, _ =>
      match decode_length s with
      | Some (n, s1) =>
          match decode_length s1 with
          | Some (m, s2) =>
              if (n + m <=? N.of_nat (length s2))%N then
                match decode_pairs k (skipn (N.to_nat (n + m)) s2) with
                | Some l => Some ((firstn (N.to_nat n) s2, firstn (N.to_nat m) (skipn (N.to_nat n) s2)) :: l)
                | None => None
                end
              else None
          | None => None
          end
      | None => None
      end
  end.

(** A stream of complete records. *)
Inductive records : bytes -> list fcgi_record -> Prop :=
| rs_nil : records [] []
| rs_cons s rest r l : decode_record s = Some (r, rest) -> records rest l -> records s (r :: l).

Definition pad_of (content : bytes) : nat := N.to_nat ((8 - blen content mod 8) mod 8).

Definition fits (s : bytes) : Prop := (blen s <= 65535)%N.

Definition rec_of (t : N) (content : bytes) : fcgi_record :=
  Rec 1 t 1 content (repeat (u8 0) (pad_of content)).

(** what a responder sees: BEGIN_REQUEST (responder, no keep-alive), one PARAMS record and the
    empty one, one STDIN record with the body (if any) and the empty one *)
Definition request_records (params body : bytes) : list fcgi_record :=
  [rec_of 1 [u8 0; u8 1; u8 0; u8 0; u8 0; u8 0; u8 0; u8 0]; rec_of 4 params; rec_of 4 []]
  ++ (if is_empty body then [] else [rec_of 5 body]) ++ [rec_of 5 []].

(** Encoding of an arbitrary record by a peer (any padding, any reserved byte). *)
Record wire := Wire { w_type : N; w_id : N; w_content : bytes; w_padding : bytes; w_reserved : ascii }.

Definition wire_ok (w : wire) : Prop :=
  (w_type w < 256)%N /\ (w_id w < 65536)%N /\ (blen (w_content w) <= 65535)%N /\
  (blen (w_padding w) <= 255)%N.

Definition wire_bytes (w : wire) : bytes :=
  [u8 1; u8 (w_type w); u8 (w_id w / 256); u8 (w_id w); u8 (blen (w_content w) / 256);
   u8 (blen (w_content w)); u8 (blen (w_padding w)); w_reserved w]
  ++ w_content w ++ w_padding w.

(** the stdout (6) and stderr (7) bytes of request 1 *)
Definition stream_of (t : N) (l : list wire) : bytes :=
  flat_map (fun w => if ((w_id w =? 1) && (w_type w =? t))%N then w_content w else []) l.

Definition is_end (w : wire) : Prop := w_id w = 1%N /\ w_type w = 3%N.

(** connection closed without an end record, possibly inside a record *)
Definition truncated (s : bytes) : Prop :=
  exists w r, wire_ok w /\ wire_bytes w = s ++ r /\ r <> [].


(** ** Characters of a text *)

(** One encoded character: a first byte and its continuation bytes (10xxxxxx). *)
Definition one_char (c : bytes) : Prop :=
  exists a r, c = a :: r /\ in_range 128 191 a = false /\ Forall (fun b => in_range 128 191 b = true) r.

(** [l] lists the characters of [s]. *)
Definition characters (s : bytes) (l : list bytes) : Prop := concat l = s /\ Forall one_char l.

(** ** Variable names *)

(** [name_path s l]: the name [s] has the components [l]; "/" and "->" separate and empty
    components are ignored. *)
Inductive name_path : bytes -> list bytes -> Prop :=
| np_empty : name_path [] []
| np_plain s : s <> [] -> ~ occurs (B "->") s -> ~ occurs (B "/") s -> name_path s [s]
| np_slash a b l l' : name_path a l -> name_path b l' -> name_path (a ++ B "/" ++ b) (l ++ l')
| np_arrow a b l l' : name_path a l -> name_path b l' -> name_path (a ++ B "->" ++ b) (l ++ l').

(** ** Truth values *)

(** not a value: missing or null; empty: "", [], {} as well *)
Definition empty_value (v : json) : Prop :=
  v = JNull \/ v = JStr [] \/ v = JArr [] \/ v = JObj [].

(** A string that is a floating-point number, with a value that is not above zero. *)
Definition non_positive_number (s : bytes) : Prop := float_text s false.

Definition truthy (v : json) : Prop :=
  match v with
  | JNull => False
  | JBool b => b = true
  | JNum (NPos n) => (0 < n)%N
  | JNum (NNeg _) => False
  | JNum (NFloat _ gt0) => gt0 = true
  | JStr s => s <> [] /\ s <> B "false" /\ ~ non_positive_number s
  | JArr l => l <> []
  | JObj m => m <> []
  end.

(** ** White space *)

(** The code points with the Unicode property White_Space. *)
Definition white_points : list N :=
  [9; 10; 11; 12; 13; 32; 133; 160; 5760; 8192; 8193; 8194; 8195; 8196; 8197; 8198; 8199; 8200;
   8201; 8202; 8232; 8233; 8239; 8287; 12288]%N.

(** UTF-8 encoding of a code point below 65536. *)
Definition utf8 (n : N) : bytes :=
  if (n <? 128)%N then [ascii_of_N n]
  else if (n <? 2048)%N then [ascii_of_N (192 + n / 64); ascii_of_N (128 + n mod 64)]
  else [ascii_of_N (224 + n / 4096); ascii_of_N (128 + n / 64 mod 64); ascii_of_N (128 + n mod 64)].

Definition white (c : bytes) : Prop := exists n, In n white_points /\ c = utf8 n.

Definition all_white (s : bytes) : Prop := exists l, s = concat l /\ Forall white l.

(** [t] is [s] without the white space around it. *)
Definition trimmed (s t : bytes) : Prop :=
  (exists p q, s = p ++ t ++ q /\ all_white p /\ all_white q) /\
  (forall w r, white w -> t <> w ++ r) /\ (forall w r, white w -> t <> r ++ w).

(** The words of a text, in order: what is between white space. *)
Inductive words : bytes -> list bytes -> Prop :=
| wo_none t : all_white t -> words t []
| wo_word u w v l : all_white u -> w <> [] -> (forall c, white c -> ~ occurs c w) ->
    (v = [] \/ exists c r, white c /\ v = c ++ r) -> words v l -> words (u ++ w ++ v) (w :: l).
(** "1..5" is read as "1 5" *)
Definition range_words (t : bytes) (l : list bytes) : Prop := exists q, replaced (B "..") (B " ") t q /\ words q l.
(** The pieces of a text, in order: it is cut at every [d], from left to right. *)
Inductive pieces (d : bytes) : bytes -> list bytes -> Prop :=
| pc_last s : ~ occurs d s -> pieces d s [s]
| pc_cut u v l : (forall i, i < length u -> ~ occurs_at d (u ++ d ++ v) i) -> pieces d v l ->
    pieces d (u ++ d ++ v) (u :: l).

(** ** Moving content *)

(** [o] can be obtained from [o'] by deleting bytes. *)
Inductive subseq : bytes -> bytes -> Prop :=
| sub_nil : subseq [] []
| sub_keep c o o' : subseq o o' -> subseq (c :: o) (c :: o')
| sub_skip c o o' : subseq o o' -> subseq o (c :: o').

(** "body", "<body" and "<body>" all name the tag "<body". *)
Inductive tag_named : bytes -> bytes -> Prop :=
| tn_full t : (exists r, t = B "<" ++ r) -> ~ ends_byte ">" t -> tag_named t t
| tn_close t : (exists r, t = B "<" ++ r) -> tag_named (t ++ B ">") t
| tn_bare t : ~ (exists r, t = B "<" ++ r) -> ~ ends_byte ">" t -> tag_named t (B "<" ++ t)
| tn_bare_close t : ~ (exists r, t ++ B ">" = B "<" ++ r) -> tag_named (t ++ B ">") (B "<" ++ t).

Definition closing (tag : bytes) : Prop := exists r, tag = B "</" ++ r.

(** [o = before ++ after] and content moved to [tag] goes between: before the first occurrence
    of a closing tag, or after the first '>' that follows the first occurrence of an opening
    tag. *)
Definition first_occurrence (p o : bytes) (a : nat) : Prop :=
  occurs_at p o a /\ forall i, i < a -> ~ occurs_at p o i.

Inductive place (tag o : bytes) : bytes -> bytes -> Prop :=
| pl_close u v : closing tag -> first_occurrence tag o (length u) -> o = u ++ v -> place tag o u v
| pl_open u x w : ~ closing tag -> first_occurrence tag o (length u) ->
    o = u ++ (x ++ B ">") ++ w -> ~ In ">"%char x -> place tag o (u ++ x ++ B ">") w.

(** Inserting the contents one after the other; unknown tags are ignored. *)
Inductive moved : list (bytes * bytes) -> bytes -> bytes -> Prop :=
| mv_done o : moved [] o o
| mv_insert k tag c l o u v o' : tag_named k tag -> place tag o u v ->
    moved l (u ++ c ++ v) o' -> moved ((k, c) :: l) o o'
| mv_ignore k tag c l o o' : tag_named k tag -> (forall u v, ~ place tag o u v) ->
    moved l o o' -> moved ((k, c) :: l) o o'.

(** ** Status codes *)

Definition is_digit_byte (a : ascii) : Prop := (48 <= N_of_ascii a <= 57)%N.

(** three digits, the first one a 4 or a 5 *)
Definition error_code (c : bytes) : Prop :=
  exists a b d, c = [a; b; d] /\ (a = "4"%char \/ a = "5"%char) /\ is_digit_byte b /\ is_digit_byte d.

(** three digits, the first one a 1, 2 or 3 *)
Definition other_code (c : bytes) : Prop :=
  exists a b d, c = [a; b; d] /\ (a = "1"%char \/ a = "2"%char \/ a = "3"%char) /\
                is_digit_byte b /\ is_digit_byte d.

Definition redirect_codes : list bytes := [B "301"; B "302"; B "303"; B "307"; B "308"].

(** ** Comments (C56) *)
(** how many occurrences of [d] start before position [n] of [x] *)
Fixpoint starts_before (d x : bytes) (n : nat) : nat :=
  match n with
  | O => 0
  | S k => starts_before d x k + if starts_with d (skipn k x) then 1 else 0
  end.
(** the comment at the start of [x] ends with the "*:}" at [q]: there as many are closed as opened, and not before *)
Definition balanced_at (x : bytes) (q : nat) : Prop :=
  occurs_at (B "*:}") x q /\ starts_before (B "*:}") x (S q) = starts_before (B "{:*") x (S q).
Definition comment_end (x : bytes) (q : nat) : Prop := balanced_at x q /\ forall p, p < q -> ~ balanced_at x p.
Definition unclosed_comment (x : bytes) : Prop := forall q, ~ balanced_at x q.
(** The text without its comments, [None] for a failure. *)
Inductive uncommented : bytes -> option bytes -> Prop :=
| un_text s : ~ occurs (B "{:*") s -> uncommented s (Some s)
| un_comment u x v r : (forall n, n < length u -> ~ occurs_at (B "{:*") (u ++ x ++ v) n) -> (exists y, x = B "{:*" ++ y) ->
    comment_end (x ++ v) (length x - 3) -> uncommented v r -> uncommented (u ++ x ++ v) (option_map (app u) r)
| un_open u x y z : (forall n, n < length u -> ~ occurs_at (B "{:*") (u ++ x) n) -> x = B "{:*" ++ y ++ z ->
    unclosed_comment x -> ~ ends_byte ":" x -> y = [] \/ ends_byte ":" y -> ~ In ":"%char z -> uncommented (u ++ x) (Some z)
| un_fails u x : (forall n, n < length u -> ~ occurs_at (B "{:*") (u ++ x) n) -> (exists y, x = B "{:*" ++ y) ->
    unclosed_comment x -> ends_byte ":" x -> uncommented (u ++ x) None.
(** The template ends in ':' inside a comment that is never closed. *)
Definition cut_short (s : bytes) : Prop := ends_byte ":" s /\ exists w y, s = w ++ B "{:*" ++ y /\ unclosed_comment (B "{:*" ++ y).
