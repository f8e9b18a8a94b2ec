(** * Model of /repo/src/utils.rs *)

From Verif Require Import Bytes Json.

(** ** Constants of /repo/src/constants.rs used here *)
(** constants.rs: BIF_OPEN "{:", BIF_CLOSE ":}", BIF_DELIM ":", BIF_COMMENT_OPEN "{:*",
    BIF_CODE ">>", BIF_ARRAY "->", and their byte forms. *)
Definition c_colon : ascii := ":"%char.
Definition c_lbrace : ascii := "{"%char.
Definition c_rbrace : ascii := "}"%char.
Definition c_star : ascii := "*"%char.
Definition c_slash : ascii := "/"%char.
Definition c_gt : ascii := ">"%char.
Definition c_amp : ascii := "&"%char.
Definition c_semi : ascii := ";"%char.
Definition c_quot : ascii := ascii_of_N 34.
Definition c_apos : ascii := "'"%char.
Definition c_lt : ascii := "<"%char.
Definition c_dash : ascii := "-"%char.
Definition BIF_OPEN : bytes := [c_lbrace; c_colon].
Definition BIF_CLOSE : bytes := [c_colon; c_rbrace].
Definition BIF_COMMENT_OPEN : bytes := [c_lbrace; c_colon; c_star].
Definition BIF_CODE : bytes := [c_gt; c_gt].
Definition BIF_ARRAY : bytes := [c_dash; c_gt].

(** constants.rs 7: VERSION = CARGO_PKG_VERSION (Cargo.toml: 1.4.3). *)
Definition VERSION : bytes := B "1.4.3".

(** ** merge_schema (utils.rs 38-51) *)
Fixpoint merge_schema (a b : json) {struct b} : json :=
  match b with
  | JObj mb =>
      match a with
      | JObj ma =>
          JObj ((fix go (mb : obj) (acc : obj) : obj :=
                   match mb with
                   | [] => acc
                   | (k, v) :: r =>
                       go r (match oget k acc with
                             | Some va => oset k (merge_schema va v) acc
                             | None => oset k v acc
                             end)
                   end) mb ma)
      | _ => b
      end
  | _ => b
  end.

(** ** merge_schema_owned (utils.rs 55-71): [Map::entry], occupied entries are merged in place,
    vacant ones inserted at the end. *)
Fixpoint entry_upd (k : bytes) (occ : json -> json) (vac : json) (m : obj) : obj :=
  match m with
  | [] => [(k, vac)]
  | (k', v) :: r => if beq k k' then (k', occ v) :: r else (k', v) :: entry_upd k occ vac r
  end.

Fixpoint merge_schema_owned (a b : json) {struct b} : json :=
  match b with
  | JObj mb =>
      match a with
      | JObj ma =>
          JObj ((fix go (mb : obj) (acc : obj) : obj :=
                   match mb with
                   | [] => acc
                   | (k, v) :: r => go r (entry_upd k (fun va => merge_schema_owned va v) v acc)
                   end) mb ma)
      | _ => b
      end
  | _ => b
  end.

(** [if let Some(x) = a.get_mut(k)] followed by a modification of the place; nothing happens
    when [a] is not an object or has no such key (utils.rs 92-96, 123-127). *)
Definition modify_at (k : bytes) (f : json -> json) (j : json) : json :=
  match j with
  | JObj m => match oget k m with Some v => JObj (oset k (f v) m) | None => j end
  | _ => j
  end.

Definition H_LOWER : bytes := B "requested-with-ajax".
Definition H_PASCAL : bytes := B "Requested-With-Ajax".
Definition H_UPPER : bytes := B "REQUESTED-WITH-AJAX".

(** utils.rs 97-107 (and 128-138): header variants. *)
Definition header_variants (h : json) : json :=
  match h with
  | JObj m =>
      match oget H_LOWER m with
      | Some v => JObj (oset H_UPPER v (oset H_PASCAL v m))
      | None =>
          match oget H_PASCAL m with
          | Some v => JObj (oset H_UPPER v (oset H_LOWER v m))
          | None =>
              match oget H_UPPER m with
              | Some v => JObj (oset H_PASCAL v (oset H_LOWER v m))
              | None => h
              end
          end
      end
  | _ => h
  end.

(** utils.rs 91-115: what both update functions do after merging; [None] is the panic of
    [a["version"] = ...] on a value that is neither an object nor null. *)
Definition update_tail (a : json) : option json :=
  let a := modify_at (B "data") (modify_at (B "CONTEXT") (modify_at (B "HEADERS") header_variants)) a in
  put (B "version") (JStr VERSION) a.

(** update_schema (utils.rs 88-116) and update_schema_owned (utils.rs 119-147). *)
Definition update_schema (a b : json) : option json := update_tail (merge_schema a b).
Definition update_schema_owned (a b : json) : option json := update_tail (merge_schema_owned a b).

(** ** extract_blocks (utils.rs 172-253)

    The [find(':')] loops are written as scans over the bytes; [prev] is the byte before the
    current one, results are offsets from the start of the scanned text to the byte after the
    closing ":}". *)

(** utils.rs 211-235: end of a bif body. *)
Fixpoint close_bif (prev : ascii) (s : bytes) (nested : nat) : option nat :=
  match s with
  | [] => None
  | c :: r =>
      if aeqb c c_colon then
        match r with
        | [] => None
        | n :: _ =>
            if aeqb prev c_lbrace then option_map S (close_bif c r (S nested))
            else if aeqb n c_rbrace then
                   match nested with
                   | S k => option_map S (close_bif c r k)
                   | O => Some 2
                   end
            else option_map S (close_bif c r nested)
        end
      else option_map S (close_bif c r nested)
  end.

(** utils.rs 184-209: end of a comment body. *)
Fixpoint close_comment (prev : ascii) (s : bytes) (nested : nat) : option nat :=
  match s with
  | [] => None
  | c :: r =>
      if aeqb c c_colon then
        match r with
        | [] => None
        | n :: _ =>
            if aeqb prev c_lbrace && aeqb n c_star then option_map S (close_comment c r (S nested))
            else if aeqb prev c_star && aeqb n c_rbrace then
                   match nested with
                   | S k => option_map S (close_comment c r k)
                   | O => Some 2
                   end
            else option_map S (close_comment c r nested)
        end
      else option_map S (close_comment c r nested)
  end.

(** utils.rs 183, 211: the body starts after "{:", a comment if its first byte is '*'. *)
Definition close_body (body : bytes) : option nat :=
  match body with
  | c :: _ => if aeqb c c_star then close_comment c_colon body 0 else close_bif c_colon body 0
  | [] => close_bif c_colon body 0
  end.

(** utils.rs 178-237: main loop.  [k] skips the bytes already consumed, [pos] is the offset of
    [s] in the source.  An unclosed block leaves the search right after its "{:". *)
Fixpoint scan_blocks (k pos : nat) (s : bytes) : list (nat * nat) :=
  match s with
  | [] => []
  | _ :: r =>
      match k with
      | S k' => scan_blocks k' (S pos) r
      | O =>
          if starts_with BIF_OPEN s then
            match close_body (skipn 2 s) with
            | Some e => (pos, pos + 2 + e) :: scan_blocks (1 + e) (S pos) r
            | None => scan_blocks 1 (S pos) r
            end
          else scan_blocks 0 (S pos) r
      end
  end.

(** utils.rs 239-250: a ":}" left between the blocks or after them is an error. *)
Fixpoint check_gaps (src : bytes) (prev_end : nat) (bl : list (nat * nat)) : option nat :=
  match bl with
  | [] => option_map (fun p => prev_end + p) (find BIF_CLOSE (skipn prev_end src))
  | (st, en) :: r =>
      match find BIF_CLOSE (slice prev_end st src) with
      | Some p => Some (prev_end + p)
      | None => check_gaps src en r
      end
  end.

Inductive blocks_result :=
| Blocks (l : list (nat * nat))
| Unmatched (pos : nat).

Definition extract_blocks (src : bytes) : blocks_result :=
  let bl := scan_blocks 0 0 src in
  match check_gaps src 0 bl with
  | Some p => Unmatched p
  | None => Blocks bl
  end.

(** ** strip_prefix_suffix (utils.rs 266-278) *)
Definition strip_prefix_suffix (s p q : bytes) : bytes :=
  match strip_prefix p s with
  | None => s
  | Some r => match strip_suffix q r with
              | None => s
              | Some m => m
              end
  end.

(** ** resolve_pointer (utils.rs 394-450) *)
Definition step (part : bytes) (j : json) : option json :=
  match j with
  | JObj m => oget part m
  | JArr l => match parse_usize part with
              | Some i => nth_error l (N.to_nat i)
              | None => None
              end
  | _ => None
  end.

(** utils.rs 399-449: the scanning loop; [part] is the current part, reversed (the slice
    [key[start..i]]); an empty part between delimiters is skipped, an empty last part too. *)
Definition step_nonempty (rpart : bytes) (j : json) : option json :=
  match rpart with [] => Some j | _ => step (rev rpart) j end.

Fixpoint walk (rpart : bytes) (s : bytes) (j : json) : option json :=
  match s with
  | [] => step_nonempty rpart j
  | c :: r =>
      if aeqb c c_slash then
        match step_nonempty rpart j with Some j' => walk [] r j' | None => None end
      else
        match r with
        | d :: r' =>
            if aeqb c c_dash && aeqb d c_gt then
              match step_nonempty rpart j with Some j' => walk [] r' j' | None => None end
            else walk (c :: rpart) r j
        | [] => walk (c :: rpart) r j
        end
  end.

Definition resolve_pointer (schema : json) (key : bytes) : option json :=
  if negb (contains BIF_ARRAY key) && negb (contains [c_slash] key) then vget key schema
  else walk [] key schema.

(** ** get_from_key (utils.rs 289-302) *)
Definition get_from_key (schema : json) (key : bytes) : bytes :=
  match resolve_pointer schema key with
  | Some JNull => []
  | Some (JBool b) => bool_to_string b
  | Some (JNum n) => num_to_string n
  | Some (JStr s) => s
  | _ => []
  end.

(** ** is_empty_key (utils.rs 313-327) *)
Definition is_empty_key (schema : json) (key : bytes) : bool :=
  match resolve_pointer schema key with
  | Some (JObj m) => is_empty m
  | Some (JArr l) => is_empty l
  | Some (JStr s) => is_empty s
  | Some JNull => true
  | Some (JNum _) => false
  | Some (JBool _) => false
  | None => true
  end.

(** ** is_bool_key (utils.rs 338-353) *)
Definition is_bool_key (schema : json) (key : bytes) : bool :=
  match resolve_pointer schema key with
  | Some (JObj m) => negb (is_empty m)
  | Some (JArr l) => negb (is_empty l)
  | Some (JStr s) =>
      if is_empty s || beq s (B "false") then false
      else match f64_gt0 s with Some b => b | None => true end
  | Some JNull => false
  | Some (JNum n) => num_gt0 n
  | Some (JBool b) => b
  | None => false
  end.

(** ** is_array_key (utils.rs 364-374) *)
Definition is_array_key (schema : json) (key : bytes) : bool :=
  match resolve_pointer schema key with
  | Some (JObj _) => true
  | Some (JArr _) => true
  | _ => false
  end.

(** ** is_defined_key (utils.rs 386-391) *)
Definition is_defined_key (schema : json) (key : bytes) : bool :=
  match resolve_pointer schema key with
  | Some v => negb (is_null v)
  | None => false
  end.

(** ** get_code_position (utils.rs 464-495); the nesting level is a signed integer. *)
Fixpoint code_pos (level : Z) (i : nat) (s : bytes) : option nat :=
  match s with
  | b0 :: ((b1 :: r) as t) =>
      if aeqb b0 c_lbrace && aeqb b1 c_colon then code_pos (level + 1) (i + 2) r
      else if aeqb b0 c_colon && aeqb b1 c_rbrace then code_pos (level - 1) (i + 2) r
      else if aeqb b0 c_gt && aeqb b1 c_gt then
             if (level =? 0)%Z then Some i else code_pos level (i + 2) r
      else code_pos level (i + 1) t
  | _ => None
  end.

Definition get_code_position (s : bytes) : option nat :=
  if negb (contains BIF_CODE s) then None else code_pos 0 0 s.

(** ** remove_comments (utils.rs 498-552) *)
Inductive rc_inner_result :=
| RcClosed (e : nat)      (* offset after ":}" *)
| RcUnclosed (cur : nat)  (* offset [curr_pos] stays at *)
| RcPanic.                (* bytes[curr_pos + 1] out of bounds *)

(** utils.rs 516-540: inner loop over the ':' bytes; [i] is the offset of [s] in the comment
    body, [cur] the offset of [curr_pos]. *)
Fixpoint rc_inner (prev : ascii) (s : bytes) (nested i cur : nat) : rc_inner_result :=
  match s with
  | [] => RcUnclosed cur
  | c :: r =>
      if aeqb c c_colon then
        match r with
        | [] => RcPanic
        | n :: _ =>
            if aeqb prev c_lbrace && aeqb n c_star then rc_inner c r (S nested) (S i) (S i)
            else if aeqb n c_rbrace && aeqb prev c_star then
                   match nested with
                   | S k => rc_inner c r k (S i) (S i)
                   | O => RcClosed (i + 2)
                   end
            else rc_inner c r nested (S i) (S i)
        end
      else rc_inner c r nested (S i) cur
  end.

(** utils.rs 511-541: outer loop; returns the comment spans and the final [curr_pos], or [None]
    for the panic.  After an unclosed comment no ':' is left, so the outer loop ends. *)
Fixpoint rc_outer (k pos cur : nat) (s : bytes) : option (list (nat * nat) * nat) :=
  match s with
  | [] => Some ([], cur)
  | _ :: r =>
      match k with
      | S k' => rc_outer k' (S pos) cur r
      | O =>
          if starts_with BIF_COMMENT_OPEN s then
            match rc_inner c_star (skipn 3 s) 0 0 0 with
            | RcClosed e =>
                match rc_outer (2 + e) (S pos) (pos + 3 + e) r with
                | Some (bl, c') => Some ((pos, pos + 3 + e) :: bl, c')
                | None => None
                end
            | RcUnclosed e => Some ([], pos + 3 + e)
            | RcPanic => None
            end
          else rc_outer 0 (S pos) cur r
      end
  end.

(** utils.rs 543-548. *)
Fixpoint rc_build (src : bytes) (prev_end : nat) (bl : list (nat * nat)) : bytes :=
  match bl with
  | [] => []
  | (st, en) :: r => slice prev_end st src ++ rc_build src en r
  end.

Definition remove_comments (src : bytes) : option bytes :=
  match rc_outer 0 0 0 src with
  | Some (bl, cur) => Some (rc_build src 0 bl ++ skipn cur src)
  | None => None
  end.

(** ** wildcard_match (utils.rs 566-608) on chars *)
Fixpoint match_rec (pat : list bytes) (text : list bytes) {struct pat} : bool :=
  match pat with
  | [] => is_empty text
  | f :: rest =>
      if beq f (B "\") then
        match rest, text with
        | e :: rest', t :: text' => match_rec rest' text' && beq t e
        | _, _ => false
        end
      else if beq f (B ".") then
        match_rec rest text
        || match text with _ :: text' => match_rec rest text' | [] => false end
      else if beq f (B "?") then
        match text with _ :: text' => match_rec rest text' | [] => false end
      else if beq f (B "*") then
        (fix star (text : list bytes) : bool :=
           match_rec rest text
           || match text with _ :: text' => star text' | [] => false end) text
      else if beq f (B "~") then is_empty text
      else match text with
           | t :: text' => if beq f t then match_rec rest text' else false
           | [] => false
           end
  end.

Definition wildcard_match (text pattern : bytes) : bool :=
  match_rec (chars pattern) (chars text).

(** ** find_tag_position (utils.rs 622-634) *)
Definition find_tag_position (text tag : bytes) : option nat :=
  match find tag text with
  | Some start =>
      if negb (starts_with (B "</") tag) then
        match find [c_gt] (skipn start text) with
        | Some e => Some (start + e + 1)
        | None => None
        end
      else Some start
  | None => None
  end.

(** ** escape_chars (utils.rs 677-711) *)
Definition needs_escape (braces : bool) (c : ascii) : bool :=
  aeqb c c_amp || aeqb c c_lt || aeqb c c_gt || aeqb c c_quot || aeqb c c_apos || aeqb c c_slash
  || (braces && (aeqb c c_lbrace || aeqb c c_rbrace)).

Definition escape_char (braces : bool) (c : ascii) : bytes :=
  if aeqb c c_amp then B "&amp;"
  else if aeqb c c_lt then B "&lt;"
  else if aeqb c c_gt then B "&gt;"
  else if aeqb c c_quot then B "&quot;"
  else if aeqb c c_apos then B "&#x27;"
  else if aeqb c c_slash then B "&#x2F;"
  else if braces && aeqb c c_lbrace then B "&#123;"
  else if braces && aeqb c c_rbrace then B "&#125;"
  else [c].

Definition escape_chars (s : bytes) (braces : bool) : bytes :=
  if negb (existsb (needs_escape braces) s) then s
  else flat_map (escape_char braces) s.

(** ** unescape_chars (utils.rs 757-797) *)
Definition unescape_entity (braces : bool) (e : bytes) : bytes :=
  if beq e (B "amp") then [c_amp]
  else if beq e (B "lt") then [c_lt]
  else if beq e (B "gt") then [c_gt]
  else if beq e (B "quot") then [c_quot]
  else if beq e (B "#x27") then [c_apos]
  else if beq e (B "#x2F") then [c_slash]
  else if braces && beq e (B "#123") then [c_lbrace]
  else if braces && beq e (B "#125") then [c_rbrace]
  else c_amp :: e ++ [c_semi].

(** the loop; [ent] is the entity being collected, reversed *)
Fixpoint unescape_go (braces : bool) (ent : option bytes) (s : bytes) : bytes :=
  match s with
  | [] => match ent with Some e => c_amp :: rev e | None => [] end
  | c :: r =>
      match ent with
      | None => if aeqb c c_amp then unescape_go braces (Some []) r
                else c :: unescape_go braces None r
      | Some e => if aeqb c c_semi then unescape_entity braces (rev e) ++ unescape_go braces None r
                  else unescape_go braces (Some (c :: e)) r
      end
  end.

Definition unescape_chars (s : bytes) (braces : bool) : bytes :=
  if negb (existsb (aeqb c_amp) s) then s else unescape_go braces None s.

(** ** filter_value (utils.rs 805-830)

    A string is replaced only if the final escape allocated ([Cow::Owned]). *)
Definition filter_string (s : bytes) : bytes :=
  let u := unescape_chars s true in
  if existsb (needs_escape true) u then escape_chars u true else s.

Fixpoint filter_value (j : json) : json :=
  match j with
  | JStr s => JStr (filter_string s)
  | JObj m => JObj (map (fun kv => (fst kv, filter_value (snd kv))) m)
  | JArr l => JArr (map filter_value l)
  | _ => j
  end.

(** ** filter_value_keys (utils.rs 838-880) *)
Definition key_needs_change (k : bytes) : bool :=
  existsb (aeqb c_amp) k || existsb (needs_escape true) k.

Definition filter_key (k : bytes) : bytes := escape_chars (unescape_chars k true) true.

Fixpoint filter_value_keys (j : json) : json :=
  match j with
  | JObj m =>
      if negb (existsb (fun kv => key_needs_change (fst kv)) m)
      then JObj (map (fun kv => (fst kv, filter_value_keys (snd kv))) m)
      else JObj (fold_left (fun acc kv => oset (filter_key (fst kv)) (snd kv) acc)
                           (map (fun kv => (fst kv, filter_value_keys (snd kv))) m) [])
  | JArr l => JArr (map filter_value_keys l)
  | _ => j
  end.
