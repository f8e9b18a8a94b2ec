(** * Model of /repo/src/bif/*.rs, /repo/src/block_parser.rs and /repo/src/macros.rs *)

From Verif Require Import Bytes Json Utils ConstantsGen State.

(** bif/constants.rs 1-27 *)
Definition E_MODIFIER := B "modifier not allowed".
Definition E_FLAGS := B "flags not allowed".
Definition E_ARGS := B "arguments not found".
Definition E_NOT_NUMBER := B "argument is not a number".
Definition E_INVALID_1 := B "invalid argument 1".
Definition E_INVALID_2 := B "invalid argument 2".
Definition E_UNKNOWN := B "unknown bif".
Definition E_DEPRECATED := B "Bif 'count' is deprecated".
Definition E_INSECURE_FILE := B "insecure file name".
Definition E_FILE_NOT_FOUND := B "file not found".
Definition E_ENGINE := B "only Python and PHP engines are supported".
Definition E_OBJ_FILE := B "obj script not found".
Definition E_FROM_TO := B "arguments 'from' and 'to' not found".
Definition E_TO := B "arguments 'to' not found".
Definition E_KEY := B "arguments 'key' not found".
Definition E_VALUE := B "arguments 'value' not found".
Definition E_PARAM_SET := B "param cannot be set here".
Definition E_JSON := B "not a valid JSON file".
Definition E_INSECURE_VAR := B "insecure varname".
Definition E_ARRAY := B "arguments 'array' not found".
Definition E_SEPARATOR := B "arguments 'separator' not found".
Definition E_DECLARE_SET := B "declare cannot be set here".
Definition E_FROM_GT_TO := B "from > to".
Definition E_URL := B "this redirection requires URL".
Definition E_STATUS := B "status code not allowed".
Definition E_REDIR_TYPE := B "redirect type not allowed".
Definition E_DECLARED_EMPTY := B " declared is empty".
Definition E_SNIPPET_SET := B "snippet cannot be set here".   (* parse_bif_snippet.rs 54 *)
Definition LOCAL := B "local::".

(** [error_line.replace(['\n', '\r'], " ")] (bif/mod.rs 138, 219) *)
Definition one_line (s : bytes) : bytes :=
  map (fun c => if (N_of_ascii c =? 10)%N || (N_of_ascii c =? 13)%N then " "%char else c) s.

(** [if let Some(Value::Array(errors)) = schema.get_mut("__error") { errors.push(..) }]
    followed by [has_error = true] (bif/mod.rs 140-148, 221-229) *)
Definition push_error (line : bytes) (s : Shared) : Shared :=
  set_has_error true
    (set_schema (modify_at (B "__error")
                   (fun v => match v with JArr l => JArr (l ++ [JStr line]) | _ => v end)
                   s.(schema)) s).

(** [schema["config"]["error"]["show"].as_bool()] (bif/mod.rs 132-134, 204-206) *)
Definition show_error (s : Shared) : option bool :=
  as_bool (idx (idx (idx s.(schema) (B "config")) (B "error")) (B "show")).

(** Bif::set_modifiers (bif/mod.rs 250-273): [None] is the panic of the slice
    [name[index..index+1]] when a multi-byte char starts at [index]. *)
Fixpoint scan_modifiers (n : bytes) (f g u s : bool) : option (bytes * (bool * bool * bool * bool)) :=
  match n with
  | [] => Some ([], (f, g, u, s))
  | c :: r =>
      if (128 <=? N_of_ascii c)%N then None
      else if aeqb c "&"%char then scan_modifiers r true g u s
      else if aeqb c "!"%char then scan_modifiers r f true u s
      else if aeqb c "^"%char then scan_modifiers r f g true s
      else if aeqb c "+"%char then scan_modifiers r f g u true
      else Some (n, (f, g, u, s))
  end.

(** Bif::contains_allow (bif/mod.rs 341-350); [None]: remove_comments panics. *)
Definition contains_allow (source : bytes) : option bool :=
  if contains (B "{:allow;") source || contains (B "{:!allow;") source then Some true
  else match remove_comments source with
       | Some s => Some (negb (starts_with BIF_VAR s && ends_with BIF_CLOSE s))
       | None => None
       end.

(** escape_chars(&unescape_chars(s, false), false) (parse_bif_code.rs 36, 41, 54,
    parse_bif_include.rs 70) *)
Definition encode_tags (s : bytes) : bytes := escape_chars (unescape_chars s false) false.
(** replace BIF_OPEN, then BIF_CLOSE (parse_bif_code.rs 37-38, 45-46, parse_bif_var.rs 51-52) *)
Definition encode_bifs (s : bytes) : bytes :=
  replace BIF_CLOSE BIF_SANITIZE_CLOSE (replace BIF_OPEN BIF_SANITIZE_OPEN s).

(** args.get(i).cloned() *)
Definition arg (l : list bytes) (i : nat) : option bytes := nth_error l i.
Definition arg_or_empty (l : list bytes) (i : nat) : bytes :=
  match nth_error l i with Some a => a | None => [] end.

(** the inclusive ranges of parse_bif_for.rs 62-69 *)
Fixpoint zrange (from : Z) (n : nat) : list Z :=
  match n with O => [] | S k => from :: zrange (from + 1) k end.
Definition for_values (from to : Z) : list Z :=
  if (to <? from)%Z then rev (zrange to (Z.to_nat (from - to + 1)))
  else zrange from (Z.to_nat (to - from + 1)).

(** "#path" is relative to the current directory (parse_bif_include.rs 40-42, data, locale, obj) *)
Definition expand_hash (dir p : bytes) : bytes :=
  match p with
  | c :: r => if aeqb c "#"%char then dir ++ r else p
  | [] => p
  end.

(** parse_bif_join.rs 62-73: text of an object value *)
Definition join_value (v : json) : bytes :=
  match v with
  | JObj _ => []
  | JArr _ => []
  | JStr s => s
  | JNum n => num_to_string n
  | JBool b => bool_to_string b
  | JNull => B "null"
  end.

Section Engine.
  Variable env : Env.

  (** Parsing of a block given its extracted blocks (BlockParser::parse_with_blocks); the knot
      is tied in [run_blocks] below. *)
  Variable rec : Shared -> Inherit -> bytes -> list (nat * nat) -> bytes -> BRes.

  (** BlockParser::parse (block_parser.rs 129-139) *)
  Definition block_parse (s : Shared) (i : Inherit) (source only : bytes) : BRes :=
    match extract_blocks source with
    | Blocks bl => rec s i source bl only
    | Unmatched p => BOk [] (handle_unmatched p s) i
    end.

  (** The common part of new_child_parse! (macros.rs 33-69), parse_bif_each_iter and
      parse_bif_for_iter: clone the inherit, optionally create a schema for this level, parse,
      optionally copy the child's schema back, drop the child. *)
  Definition with_child (scope : bool) (p : Shared -> Inherit -> BRes) : M bytes := fun st =>
    let b := st.(bf) in
    let ci := iset_alias b.(alias) st.(inh) in
    let ci := if is_empty b.(file_path) then ci else iset_current_file b.(file_path) ci in
    let ci := if is_empty b.(dir) then ci else iset_current_dir b.(dir) ci in
    let '(s1, i1) := if scope then create_block_schema st.(sh) st.(inh) else (st.(sh), st.(inh)) in
    let ci := iset_block_count (ci.(block_count) + 1) ci in       (* BlockParser::new *)
    match p s1 ci with
    | BOk o s2 ci2 =>
        let s3 := if scope then update_indir s2 ci2.(indir) i1.(indir) else s2 in
        Done o (mkSt (drop_block s3 ci2) i1 b)
    | BPanic q => Panic q
    | BNoFuel => NoFuel
    end.

  (** new_child_parse! (macros.rs 33-69) *)
  Definition child (source : bytes) (scope : bool) : M bytes := fun st =>
    with_child scope (fun s i => block_parse s i source st.(bf).(only)) st.

  (** [if self.code.contains(BIF_OPEN) { self.code = new_child_parse!(..) }] *)
  Definition parse_code (scope : bool) : M unit :=
    b <- getB ;;
    if contains BIF_OPEN b.(code) then
      c <- child b.(code) scope ;; modB (bset_code c)
    else ret tt.

  (** Bif::extract_params_code (bif/mod.rs 365-385) *)
  Definition extract_params_code (parse : bool) : M bool :=
    b <- getB ;;
    let pos := get_code_position b.(src) in
    (match pos with
     | Some p => modB (fun b => bset_code (trim (skipn (p + 2) b.(src)))
                                  (bset_params (trim (firstn p b.(src))) b))
     | None => modB (fun b => bset_code (trim b.(src)) (bset_params [] b))
     end) ;;;
    b <- getB ;;
    (if parse && contains BIF_OPEN b.(params) then
       modS (set_sflags []) ;;;
       p <- child b.(params) false ;;
       modB (bset_params p) ;;;
       s <- getS ;;
       modB (bset_flags s.(sflags))
     else ret tt) ;;;
    ret (match pos with Some _ => true | None => false end).

  (** Bif::extract_args (bif/mod.rs 397-420) *)
  Fixpoint parse_parts (l : list bytes) : M (list bytes) :=
    match l with
    | [] => ret []
    | p :: r =>
        a <- (if contains BIF_OPEN p then child p false else ret p) ;;
        t <- parse_parts r ;;
        ret (a :: t)
    end.
  Definition extract_args : M (list bytes) :=
    b <- getB ;;
    match chars b.(params) with
    | [] => ret [[]]
    | d :: _ => parse_parts (split d b.(params))
    end.

  (** Bif::get_data (bif/mod.rs 286-296), Bif::set_data (305-307), Bif::get_trans (327-333) *)
  Definition data_of (s : Shared) : json := idx s.(schema) (B "data").
  Definition local_data_of (s : Shared) (i : Inherit) : json := idx (get_indir s i.(indir)) (B "data").
  Definition get_data_of (s : Shared) (i : Inherit) (nm : bytes) : bytes :=
    match strip_prefix LOCAL nm with
    | Some l => get_from_key (local_data_of s i) l
    | None => get_from_key (data_of s) nm
    end.
  Definition get_data (nm : bytes) : M bytes :=
    s <- getS ;; i <- getI ;; ret (get_data_of s i nm).

  (** [schema["data"][name] = v] *)
  Definition put_data (nm : bytes) (v : json) : M unit := fun st =>
    match upd (B "data") (put nm v) st.(sh).(schema) with
    | Some j => Done tt (mkSt (set_schema j st.(sh)) st.(inh) st.(bf))
    | None => Panic PIndex
    end.
  Definition set_data (nm v : bytes) : M unit := put_data nm (JStr v).
  Definition get_trans (text : bytes) : M bytes :=
    s <- getS ;; i <- getI ;;
    ret (get_from_key (idx (idx (idx (get_indir s i.(indir)) (B "locale")) (B "trans"))
                           s.(cfg).(lang)) text).

  (** [shared.get_indir_mut(&inherit.indir)] with an update of the place *)
  Definition upd_local (f : json -> option json) : M unit := fun st =>
    match upd_indir st.(inh).(indir) f st.(sh) with
    | Some s => Done tt (mkSt s st.(inh) st.(bf))
    | None => Panic PIndex
    end.
  (** [self.inherit.create_block_schema(self.shared)] *)
  Definition create_schema : M unit := fun st =>
    let '(s, i) := create_block_schema st.(sh) st.(inh) in Done tt (mkSt s i st.(bf)).

  Definition set_out (o : bytes) : M unit := modB (bset_out o).
  Definition lift_option {A} (p : panic) (o : option A) : M A :=
    match o with Some x => ret x | None => panicM p end.
  (** [args.get(i).cloned().ok_or_else(..)?] *)
  Definition need_arg (l : list bytes) (i : nat) (msg : bytes) : M bytes :=
    match arg l i with Some a => ret a | None => err msg end.
  (** [if !self.flags.is_empty() { return Err(flags not allowed) }] *)
  Definition no_flags : M unit :=
    b <- getB ;; if is_empty b.(bflags) then ret tt else err E_FLAGS.
  (** the loops over [flags.split('|')] (parse_bif_allow.rs 31-40, code 18-33, include 20-28,
      snippet 24-32) *)
  Definition bad_flag (allowed : list bytes) (flags : bytes) : option bytes :=
    List.find (fun f => negb (is_empty f) && negb (existsb (beq f) allowed)) (split (B "|") flags).
  Definition check_flags (allowed : list bytes) : M unit :=
    b <- getB ;;
    match bad_flag allowed b.(bflags) with
    | Some f => err (f ++ B " flag not allowed")
    | None => ret tt
    end.
  Definition has_flag (f : bytes) (b : Bif) : bool := contains f b.(bflags).

  (** [if modifier { return Err(modifier not allowed) }] at the start of every handler *)
  Definition reject (t : Bif -> bool) : M unit :=
    b <- getB ;; if t b then err E_MODIFIER else ret tt.

  (** ** Handlers *)

  (** parse_bif_var.rs 10-63 *)
  Definition bif_var : M unit :=
    reject mod_scope ;;;
    b <- getB ;;
    if is_empty b.(src) then
      modB (bset_alias (B "unprintable")) ;;; set_out UNPRINTABLE
    else
      modB (bset_alias (B "var")) ;;;
      var_name <-
        (if contains BIF_OPEN b.(src) then
           ok <- lift_option PRemoveComments (contains_allow b.(src)) ;;
           if negb ok then set_out [] ;;; err E_INSECURE_VAR
           else child b.(src) b.(mod_scope)
         else ret b.(src)) ;;
      v <- get_data var_name ;;
      s <- getS ;;
      let o :=
        if (b.(mod_filter) || s.(cfg).(filter_all)) && negb b.(mod_negate) then
          if negb (starts_with (B "CONTEXT->") var_name)
          then escape_chars (unescape_chars v true) true else v
        else if s.(cfg).(filter_bifs) then encode_bifs v else v in
      let o :=
        if b.(mod_negate) && negb s.(cfg).(filter_bifs) && starts_with (B "CONTEXT->") var_name
        then unescape_chars o true else o in
      set_out o.

  (** parse_bif_allow.rs 46-67: does the word match, with the flags *)
  Definition allow_word (flags content word : bytes) : bool :=
    let pattern := if contains (B "|partial|") flags || contains (B "|replace|") flags
                   then B "*" ++ word ++ B "*" else word in
    if contains (B "|casein|") flags
    then wildcard_match (env.(e_lower) content) (env.(e_lower) pattern)
    else wildcard_match content pattern.

  (** parse_bif_allow.rs 10-76 *)
  Definition bif_allow : M unit :=
    reject (fun b => b.(mod_filter) || b.(mod_scope)) ;;;
    extract_params_code true ;;;
    b <- getB ;; s <- getS ;; i <- getI ;;
    let words := get_from_key (idx (get_indir s i.(indir)) (B "declare")) b.(params) in
    if is_empty words then err (b.(params) ++ E_DECLARED_EMPTY)
    else
      check_flags [B "partial"; B "replace"; B "casein"] ;;;
      c <- child b.(code) b.(mod_scope) ;;
      modB (bset_code c) ;;;
      let found := match List.find (allow_word b.(bflags) c) (split_whitespace words) with
                   | Some w => w
                   | None => []
                   end in
      if xorb (negb (is_empty found)) b.(mod_negate) then
        if has_flag (B "|replace|") b then
          set_out (replace (B ".") [] (replace (B "?") [] (replace (B "*") [] (replace (B "~") [] found))))
        else set_out c
      else set_out [].

  (** parse_bif_array.rs 9-36, parse_bif_bool.rs 9-36, parse_bif_defined.rs 9-36,
      parse_bif_filled.rs 12-40: the same text with different tests *)
  Definition var_test (t : json -> bytes -> bool) (s : Shared) (i : Inherit) (v : bytes) : bool :=
    match strip_prefix LOCAL v with
    | Some l => t (local_data_of s i) l
    | None => t (data_of s) v
    end.
  Definition bif_cond (t : json -> bytes -> bool) : M unit :=
    reject mod_filter ;;;
    extract_params_code true ;;;
    no_flags ;;;
    b <- getB ;; s <- getS ;; i <- getI ;;
    if xorb (var_test t s i b.(params)) b.(mod_negate) then
      parse_code b.(mod_scope) ;;;
      b <- getB ;; set_out b.(code)
    else ret tt.
  Definition bif_array := bif_cond is_array_key.
  Definition bif_bool := bif_cond is_bool_key.
  Definition bif_defined := bif_cond is_defined_key.
  Definition bif_filled := bif_cond (fun s k => negb (is_empty_key s k)).

  (** parse_bif_contains.rs 9-42, parse_bif_same.rs 9-42 *)
  Definition bif_compare (t : bytes -> bytes -> bool) : M unit :=
    reject mod_filter ;;;
    extract_params_code false ;;;
    b <- getB ;;
    if contains (B "{:flg;") b.(params) then err E_FLAGS
    else
      args <- extract_args ;;
      x <- need_arg args 1 E_ARGS ;;
      y <- need_arg args 2 E_ARGS ;;
      if xorb (t x y) b.(mod_negate) then
        parse_code b.(mod_scope) ;;;
        b <- getB ;; set_out b.(code)
      else set_out [].
  Definition bif_same := bif_compare beq.
  Definition bif_contains := bif_compare (fun hay needle => contains needle hay).

  (** parse_bif_coalesce.rs 13-23 *)
  Definition bif_coalesce : M unit :=
    reject (fun b => b.(mod_filter) || b.(mod_negate)) ;;;
    modI (iset_coalesce false) ;;;
    b <- getB ;;
    o <- child b.(src) b.(mod_scope) ;; set_out o.

  (** parse_bif_code.rs 11-62 *)
  Definition bif_code : M unit :=
    reject (fun b => b.(mod_filter) || b.(mod_negate)) ;;;
    extract_params_code true ;;;
    check_flags [B "safe"; B "encode_tags"; B "encode_bifs"; B "noparse"; B "encode_tags_after"] ;;;
    b <- getB ;;
    (if has_flag (B "|safe|") b then modB (bset_code (encode_bifs (encode_tags b.(code))))
     else
       (if has_flag (B "|encode_tags|") b then modB (fun b => bset_code (encode_tags b.(code)) b)
        else ret tt) ;;;
       (if has_flag (B "|encode_bifs|") b then modB (fun b => bset_code (encode_bifs b.(code)) b)
        else ret tt) ;;;
       (if negb (has_flag (B "|noparse|") b) then parse_code b.(mod_scope) else ret tt)) ;;;
    (if has_flag (B "|encode_tags_after|") b then modB (fun b => bset_code (encode_tags b.(code)) b)
     else ret tt) ;;;
    b <- getB ;; set_out b.(code).

  (** parse_bif_count.rs 19-56 *)
  Definition bif_count_ : M unit :=
    reject (fun b => b.(mod_filter) || b.(mod_negate) || b.(mod_scope)) ;;;
    is_set <- extract_params_code true ;;
    b <- getB ;;
    parse_code b.(mod_scope) ;;;
    b <- getB ;;
    (if (is_set : bool) then
       match parse_i32 b.(code) with
       | Some n => set_data b.(params) (dec_Z n) ;;; set_out []
       | None => err E_NOT_NUMBER
       end
     else
       v <- get_data b.(code) ;;
       match parse_i32 v with
       | Some n =>
           if (n =? i32_max)%Z then panicM PCountOverflow
           else set_data b.(code) (dec_Z (n + 1)) ;;; set_out (dec_Z n)
       | None => err E_NOT_NUMBER
       end) ;;;
    err E_DEPRECATED.

  (** parse_bif_declare.rs 9-35 *)
  Definition bif_declare : M unit :=
    reject (fun b => b.(mod_filter) || b.(mod_negate) || b.(mod_scope)) ;;;
    extract_params_code true ;;;
    no_flags ;;;
    i <- getI ;;
    if contains SNIPPETS_FILES i.(current_file) then
      create_schema ;;;
      b <- getB ;;
      (if contains BIF_OPEN b.(code) then
         c <- child b.(code) false ;; modB (bset_code (replace UNPRINTABLE [] c))
       else ret tt) ;;;
      b <- getB ;;
      upd_local (upd (B "declare") (put b.(params) (JStr b.(code)))) ;;;
      set_out []
    else err E_DECLARE_SET.

  (** parse_bif_each.rs 94-126: one iteration *)
  Definition each_iter (key_name val_name key : bytes) (val : json) (bl : list (nat * nat)) : M unit :=
    put_data key_name (JStr key) ;;;
    put_data val_name val ;;;
    b <- getB ;;
    o <- with_child b.(mod_scope) (fun s i => rec s i b.(code) bl b.(only)) ;;
    modB (fun b => bset_out (b.(out) ++ o) b).

  Fixpoint each_loop (kn vn : bytes) (l : list (bytes * json)) (bl : list (nat * nat)) : M unit :=
    match l with
    | [] => ret tt
    | (k, v) :: r => each_iter kn vn k v bl ;;; each_loop kn vn r bl
    end.

  (** parse_bif_each.rs 74-87: the (key, value) pairs visited *)
  Fixpoint enumerate_from (n : nat) (l : list json) : list (bytes * json) :=
    match l with [] => [] | v :: r => (dec_nat n, v) :: enumerate_from (S n) r end.
  Definition each_items (j : json) : list (bytes * json) :=
    match j with
    | JObj m => m
    | JArr l => enumerate_from 0 l
    | _ => []
    end.

  (** parse_bif_each.rs 14-92 *)
  Definition bif_each : M unit :=
    reject (fun b => b.(mod_filter) || b.(mod_negate)) ;;;
    extract_params_code true ;;;
    no_flags ;;;
    b <- getB ;;
    let parts := split_whitespace b.(params) in
    array_name <- need_arg parts 0 E_ARGS ;;
    key_name <- need_arg parts 1 E_KEY ;;
    val_name <- need_arg parts 2 E_VALUE ;;
    if starts_with LOCAL key_name || starts_with LOCAL val_name then err E_INSECURE_VAR
    else
      s <- getS ;; i <- getI ;;
      let restore_key := idx (data_of s) key_name in
      let restore_val := idx (data_of s) val_name in
      let found := match strip_prefix LOCAL array_name with
                   | Some l => resolve_pointer (local_data_of s i) l
                   | None => resolve_pointer (data_of s) array_name
                   end in
      let collection := match found with Some v => v | None => JNull end in
      match extract_blocks b.(code) with
      | Unmatched p => err (B "Unmatched block at position " ++ dec_nat p)
      | Blocks bl =>
          each_loop key_name val_name (each_items collection) bl ;;;
          put_data key_name restore_key ;;;
          put_data val_name restore_val
      end.

  (** parse_bif_else.rs 11-35 *)
  Definition bif_else : M unit :=
    reject mod_filter ;;;
    extract_params_code true ;;;
    no_flags ;;;
    b <- getB ;; i <- getI ;;
    if xorb i.(last_bif_out) b.(mod_negate) then set_out []
    else
      parse_code b.(mod_scope) ;;;
      b <- getB ;; set_out b.(code).

  (** parse_bif_eval.rs 9-38 *)
  Definition bif_eval : M unit :=
    reject mod_filter ;;;
    extract_params_code false ;;;
    b <- getB ;;
    if contains (B "{:flg;") b.(params) then err E_FLAGS
    else
      (if contains BIF_OPEN b.(params) then
         p <- child b.(params) b.(mod_scope) ;; modB (bset_params p)
       else ret tt) ;;;
      b <- getB ;;
      if xorb (negb (is_empty b.(params))) b.(mod_negate) then
        (if contains BIF_OPEN b.(code) then
           restore <- get_data (B "__eval__") ;;
           set_data (B "__eval__") b.(params) ;;;
           c <- child b.(code) b.(mod_scope) ;;
           modB (bset_code c) ;;;
           set_data (B "__eval__") restore
         else ret tt) ;;;
        b <- getB ;; set_out b.(code)
      else set_out [].

  (** "{:!cache;" + raw + ":}" inside a cache block (parse_bif_exit.rs 17-21, moveto 16-20,
      redirect 15-19) *)
  Definition echo_in_cache : M unit :=
    i <- getI ;; b <- getB ;;
    if i.(in_cache) then set_out (B "{:!cache;" ++ b.(raw) ++ B ":}") else set_out [].

  (** parse_bif_exit.rs 12-57 *)
  Definition bif_exit : M unit :=
    reject (fun b => b.(mod_filter) || b.(mod_scope)) ;;;
    echo_in_cache ;;;
    has_params <- extract_params_code true ;;
    no_flags ;;;
    parse_code false ;;;
    b <- getB ;;
    let '(c, p) :=
      if (has_params : bool) then (if is_empty b.(params) then B "200" else b.(params), b.(code))
      else (if is_empty b.(code) then B "200" else b.(code), []) in
    modS (set_status c (status_text_of c) p) ;;;
    modS (set_exit (negb b.(mod_negate))).

  (** parse_bif_fetch.rs 9-67 *)
  Definition fetch_div (event : bytes) : bytes :=
    if beq event (B "form") then DIV_FETCH_FORM
    else if beq event (B "none") then DIV_FETCH_NONE
    else if beq event (B "visible") then DIV_FETCH_VISIBLE
    else if beq event (B "click") then DIV_FETCH_CLICK
    else DIV_FETCH_AUTO.
  Definition bif_fetch : M unit :=
    reject (fun b => b.(mod_filter) || b.(mod_negate) || b.(mod_scope)) ;;;
    extract_params_code true ;;;
    no_flags ;;;
    args <- extract_args ;;
    url <- need_arg args 1 E_ARGS ;;
    let event := arg_or_empty args 2 in
    let wrap := arg_or_empty args 3 in
    let class := arg_or_empty args 4 in
    let id := arg_or_empty args 5 in
    let nm := arg_or_empty args 6 in
    b <- getB ;;
    parse_code b.(mod_scope) ;;;
    b <- getB ;;
    let o := replace (B "{endpoint}") url
              (replace (B "{body}") b.(code)
                (replace (B "{class}") class
                  (replace (B "{wrap}") wrap
                    (replace (B "{name}") nm
                      (replace (B "{id}") id (fetch_div event)))))) in
    s <- getS ;;
    if negb s.(cfg).(disable_js) && negb s.(already_js) then
      set_out (o ++ B "{:!cache;{:moveto;</body>>" ++ NEUTRAL_JS ++ B ":}:}") ;;;
      modS (set_already_js true)
    else set_out o.

  (** parse_bif_flg.rs 10-30 *)
  Definition bif_flg : M unit :=
    reject (fun b => b.(mod_filter) || b.(mod_negate) || b.(mod_upline) || b.(mod_scope)) ;;;
    extract_params_code true ;;;
    no_flags ;;;
    parse_code false ;;;
    b <- getB ;;
    modS (set_sflags (replace (B " ") (B "|") (B " " ++ b.(code) ++ B " "))) ;;;
    set_out [].

  (** parse_bif_for.rs 76-100 *)
  Definition for_iter (v : bytes) (z : Z) (bl : list (nat * nat)) : M unit :=
    set_data v (dec_Z z) ;;;
    b <- getB ;;
    o <- with_child b.(mod_scope) (fun s i => rec s i b.(code) bl b.(only)) ;;
    modB (fun b => bset_out (b.(out) ++ o) b).
  Fixpoint for_loop (v : bytes) (l : list Z) (bl : list (nat * nat)) : M unit :=
    match l with
    | [] => ret tt
    | z :: r => for_iter v z bl ;;; for_loop v r bl
    end.
  (** [match parts.next() { Some(v) => v.parse::<i32>() .. }] (parse_bif_for.rs 32-53, rand) *)
  Definition need_i32 (l : list bytes) (i : nat) (missing : bytes) : M Z :=
    match nth_error l i with
    | Some v => match parse_i32 v with Some z => ret z | None => err E_NOT_NUMBER end
    | None => err missing
    end.
  (** parse_bif_for.rs 11-74 *)
  Definition bif_for : M unit :=
    reject (fun b => b.(mod_filter) || b.(mod_negate)) ;;;
    extract_params_code true ;;;
    no_flags ;;;
    modB (fun b => bset_params (replace (B "..") (B " ") b.(params)) b) ;;;
    b <- getB ;;
    let parts := split_whitespace b.(params) in
    var_name <- need_arg parts 0 E_ARGS ;;
    from <- need_i32 parts 1 E_FROM_TO ;;
    to <- need_i32 parts 2 E_TO ;;
    match extract_blocks b.(code) with
    | Unmatched p => err (B "Unmatched block at position " ++ dec_nat p)
    | Blocks bl =>
        restore <- get_data var_name ;;
        for_loop var_name (for_values from to) bl ;;;
        set_data var_name restore
    end.

  (** parse_bif_hash.rs 12-38 *)
  Definition bif_hash : M unit :=
    reject (fun b => b.(mod_filter) || b.(mod_negate) || b.(mod_scope)) ;;;
    modB (fun b => bset_code (trim b.(src)) b) ;;;
    b <- getB ;;
    (if contains BIF_OPEN b.(src) then c <- child b.(code) b.(mod_scope) ;; modB (bset_code c)
     else modB (fun b => bset_code (trim b.(code)) b)) ;;;
    b <- getB ;;
    if is_empty b.(code) then r <- ask_rand_bytes env ;; set_out (env.(e_md5) r)
    else set_out (env.(e_md5) b.(code)).

  (** The file name part common to include, data and locale (parse_bif_include.rs 30-42,
      parse_bif_data.rs 53-66, parse_bif_locale.rs 52-65): file_path is the code, evaluated if it
      contains a bif (which requires allow), and "#" is the current directory. *)
  Definition resolve_file : M unit :=
    modB (fun b => bset_file_path b.(code) b) ;;;
    b <- getB ;;
    (if contains BIF_OPEN b.(file_path) then
       ok <- lift_option PRemoveComments (contains_allow b.(file_path)) ;;
       if negb ok then err E_INSECURE_FILE
       else p <- child b.(code) false ;; modB (bset_file_path p)
     else ret tt) ;;;
    i <- getI ;;
    modB (fun b => bset_file_path (expand_hash i.(current_dir) b.(file_path)) b).

  (** fs::read_to_string(..).unwrap_or("") *)
  Definition read_or_empty (p : bytes) : M bytes :=
    r <- ask_read env p ;; ret (match r with Some c => c | None => [] end).

  (** parse_bif_include.rs 13-95 *)
  Definition bif_include : M unit :=
    reject (fun b => b.(mod_filter) || b.(mod_scope)) ;;;
    extract_params_code true ;;;
    check_flags [B "require"; B "safe"; B "noparse"] ;;;
    resolve_file ;;;
    b <- getB ;;
    ex <- ask_exists env b.(file_path) ;;
    if negb ex then
      if has_flag (B "|require|") b then err E_FILE_NOT_FOUND else ret tt
    else
      (match env.(e_parent) b.(file_path) with
       | Some d => modB (bset_dir d)
       | None => ret tt
       end) ;;;
      cn <- ask_canon env b.(file_path) ;;
      canonical <- lift_option PCanonicalize cn ;;
      i <- getI ;;
      if b.(mod_negate) && existsb (beq canonical) i.(include_files) then set_out []
      else if has_flag (B "|safe|") b then
        c <- read_or_empty b.(file_path) ;;
        modB (bset_code (encode_bifs (encode_tags c))) ;;;
        set_out (encode_bifs (encode_tags c))
      else if has_flag (B "|noparse|") b then
        c <- read_or_empty b.(file_path) ;;
        modB (bset_code c) ;;; set_out c
      else
        modI (fun i => iset_include_files (i.(include_files) ++ [canonical]) i) ;;;
        c <- read_or_empty b.(file_path) ;;
        s <- getS ;;
        file_raw <- (if contains (B "remove") s.(cfg).(comments)
                     then lift_option PRemoveComments (remove_comments c) else ret c) ;;
        o <- child file_raw true ;;
        set_out o.

  (** parse_bif_data.rs 36-48, 94-107: merge the "data" member of the value into the local data *)
  Definition merge_local_data (j : json) : M unit :=
    create_schema ;;;
    let d := match j with JObj m => match oget (B "data") m with Some v => v | None => JNull end
                        | _ => JNull end in
    upd_local (upd (B "data") (fun old => Some (merge_schema_owned old d))).

  (** parse_bif_data.rs 11-110 *)
  Definition bif_data : M unit :=
    reject (fun b => b.(mod_filter) || b.(mod_scope)) ;;;
    extract_params_code true ;;;
    b <- getB ;;
    if negb (is_empty b.(bflags)) && negb (has_flag (B "|require|") b) && negb (has_flag (B "|inline|") b)
    then err E_FLAGS
    else if has_flag (B "|inline|") b then
      match env.(e_from_str) b.(code) with
      | inl j => merge_local_data j ;;; set_out UNPRINTABLE
      | inr _ => err E_JSON
      end
    else
      resolve_file ;;;
      b <- getB ;;
      ex <- ask_exists env b.(file_path) ;;
      if negb ex then
        if has_flag (B "|require|") b then err E_FILE_NOT_FOUND else set_out []
      else
        cn <- ask_canon env b.(file_path) ;;
        canonical <- lift_option PCanonicalize cn ;;
        i <- getI ;;
        if b.(mod_negate) && existsb (beq canonical) i.(data_files) then set_out UNPRINTABLE
        else
          modI (fun i => iset_data_files (i.(data_files) ++ [canonical]) i) ;;;
          c <- read_or_empty b.(file_path) ;;
          match env.(e_from_str) c with
          | inl j => merge_local_data j ;;; set_out UNPRINTABLE
          | inr _ => err E_JSON
          end.

  (** parse_bif_locale.rs 41-46, 99-104 *)
  Definition merge_local_locale (j : json) : M unit :=
    create_schema ;;;
    upd_local (upd (B "locale") (fun old => Some (merge_schema_owned old j))).

  (** parse_bif_locale.rs 11-108 *)
  Definition bif_locale : M unit :=
    reject (fun b => b.(mod_filter) || b.(mod_scope)) ;;;
    extract_params_code true ;;;
    b <- getB ;;
    if negb (is_empty b.(bflags)) && negb (has_flag (B "|require|") b)
       && negb (has_flag (B "|inline|") b) && negb (has_flag (B "|noparse|") b)
    then err E_FLAGS
    else if has_flag (B "|inline|") b then
      parse_code false ;;;
      b <- getB ;;
      match env.(e_from_str) b.(code) with
      | inl j => merge_local_locale j ;;; set_out []
      | inr _ => err E_JSON
      end
    else
      resolve_file ;;;
      b <- getB ;;
      ex <- ask_exists env b.(file_path) ;;
      if negb ex then
        if has_flag (B "|require|") b then err E_FILE_NOT_FOUND else ret tt
      else
        cn <- ask_canon env b.(file_path) ;;
        canonical <- lift_option PCanonicalize cn ;;
        i <- getI ;;
        if b.(mod_negate) && existsb (beq canonical) i.(locale_files) then set_out UNPRINTABLE
        else
          modI (fun i => iset_locale_files (i.(locale_files) ++ [canonical]) i) ;;;
          c <- read_or_empty b.(file_path) ;;
          file_raw <- (if negb (has_flag (B "|noparse|") b) && contains BIF_OPEN c
                       then child c false else ret c) ;;
          match env.(e_from_str) file_raw with
          | inl j => merge_local_locale j ;;; set_out UNPRINTABLE
          | inr _ => err E_JSON
          end.

  (** parse_bif_date.rs 11-37 (the format is the source text, not the evaluated code) *)
  Definition bif_date : M unit :=
    reject (fun b => b.(mod_filter) || b.(mod_negate) || b.(mod_scope)) ;;;
    extract_params_code true ;;;
    no_flags ;;;
    now <- ask_now env ;;
    b <- getB ;;
    (if contains BIF_OPEN b.(src) then c <- child b.(code) b.(mod_scope) ;; modB (bset_code c)
     else modB (fun b => bset_code (trim b.(src)) b)) ;;;
    b <- getB ;;
    if is_empty b.(code) then set_out (dec_N now)
    else o <- lift_option PDate (env.(e_date) now b.(src)) ;; set_out o.

  (** Bif::debug_enable (parse_bif_debug.rs 76-103) *)
  Definition debug_enable : M bool :=
    s <- getS ;;
    let f := s.(cfg).(debug_file) in
    if is_empty f then ret false
    else
      ex <- ask_exists env f ;;
      if negb ex then ret false
      else
        fl <- ask_is_file env f ;;
        if negb fl then ret false
        else
          a <- ask_age env f ;;
          ret (match a with Some n => (n <? s.(cfg).(debug_expire))%N | None => false end).

  (** parse_bif_debug.rs 12-73 *)
  Definition bif_debug : M unit :=
    reject mod_scope ;;;
    enabled <- debug_enable ;;
    b <- getB ;;
    if b.(mod_negate) then (if enabled then set_out UNPRINTABLE else set_out [])
    else if negb enabled then
      set_out [] ;;;
      err (B "Debug is disabled. Remember to remove the bif debug in production.")
    else
      extract_params_code true ;;;
      b <- getB ;; s <- getS ;; i <- getI ;;
      let '(root, key_name) :=
        match strip_prefix LOCAL b.(code) with
        | Some l => (get_indir s i.(indir), l)
        | None => (s.(schema), b.(code))
        end in
      if is_empty b.(code) then set_out VERSION
      else
        let k := if beq key_name (B "full-schema") then []
                 else replace BIF_ARRAY (B "/") (B "/" ++ key_name) in
        let o := match pointer k root with
                 | Some v => env.(e_to_pretty) v
                 | None => B "Undefined: '" ++ b.(code) ++ B "'"
                 end in
        set_out (if b.(mod_filter) then escape_chars (unescape_chars o true) true else o).

  (** parse_bif_join.rs 12-93 *)
  Definition join_items (keys : bool) (v : json) : list bytes :=
    match v with
    | JObj m => if keys then okeys m else map (fun kv => join_value (snd kv)) m
    | JArr l => if keys then map fst (enumerate_from 0 l)
                else map (fun v => match as_str v with Some s => s | None => [] end) l
    | _ => []
    end.
  Definition bif_join : M unit :=
    reject (fun b => b.(mod_filter) || b.(mod_negate) || b.(mod_scope)) ;;;
    modB (fun b => bset_params b.(src) b) ;;;
    args <- extract_args ;;
    array_name <- need_arg args 1 E_ARRAY ;;
    separator <- need_arg args 2 E_SEPARATOR ;;
    let use_keys := arg_or_empty args 3 in
    let keys := negb (is_empty use_keys || beq use_keys (B "false") || beq use_keys (B "0")) in
    let p := replace BIF_ARRAY (B "/") (B "/" ++ array_name) in
    s <- getS ;; i <- getI ;;
    let found := if starts_with (B "/local::") p
                 then pointer (replace (B "/local::") (B "/") p) (local_data_of s i)
                 else pointer p (data_of s) in
    set_out (match found with
             | Some v => join separator (join_items keys v)
             | None => []
             end).

  (** parse_bif_lang.rs 9-17 *)
  Definition bif_lang : M unit :=
    reject (fun b => b.(mod_filter) || b.(mod_negate) || b.(mod_scope)) ;;;
    s <- getS ;; set_out s.(cfg).(lang).

  (** Bif::moveto (parse_bif_moveto.rs 37-48) *)
  Definition moveto (to code : bytes) : M unit := fun st =>
    let h := env.(e_md5) (replace (B " ") [] (replace [ascii_of_N 10] [] code)) in
    match upd (B "__moveto") (put h (JObj [(to, JStr code)])) st.(sh).(schema) with
    | Some j => Done tt (mkSt (set_schema j st.(sh)) st.(inh) st.(bf))
    | None => Panic PIndex
    end.
  (** parse_bif_moveto.rs 11-35 *)
  Definition bif_moveto : M unit :=
    reject (fun b => b.(mod_filter) || b.(mod_negate) || b.(mod_scope)) ;;;
    echo_in_cache ;;;
    extract_params_code true ;;;
    no_flags ;;;
    b <- getB ;;
    parse_code b.(mod_scope) ;;;
    b <- getB ;;
    moveto b.(params) b.(code).

  (** parse_bif_neutral.rs 10-18 *)
  Definition bif_neutral : M unit :=
    reject (fun b => b.(mod_filter) || b.(mod_negate) || b.(mod_scope)) ;;;
    b <- getB ;; set_out b.(raw).

  (** parse_bif_param.rs 10-49 *)
  Definition bif_param : M unit :=
    reject (fun b => b.(mod_filter) || b.(mod_negate) || b.(mod_scope)) ;;;
    is_set <- extract_params_code true ;;
    no_flags ;;;
    i <- getI ;;
    b <- getB ;;
    if (is_set : bool) then
      if beq i.(ialias) (B "code") then
        parse_code b.(mod_scope) ;;;
        create_schema ;;;
        b <- getB ;;
        upd_local (upd (B "params") (put b.(params) (JStr b.(code)))) ;;;
        set_out []
      else err E_PARAM_SET
    else
      parse_code b.(mod_scope) ;;;
      b <- getB ;; s <- getS ;; i <- getI ;;
      let v := get_from_key (idx (get_indir s i.(indir)) (B "params")) b.(code) in
      modB (bset_code v) ;;; set_out v.

  (** parse_bif_rand.rs 11-64 *)
  Definition bif_rand : M unit :=
    reject (fun b => b.(mod_filter) || b.(mod_negate) || b.(mod_scope)) ;;;
    modB (fun b => bset_code (trim b.(src)) b) ;;;
    b <- getB ;;
    (if contains BIF_OPEN b.(src) then c <- child b.(code) b.(mod_scope) ;; modB (bset_code c)
     else ret tt) ;;;
    b <- getB ;;
    if is_empty b.(code) then
      r <- ask_rand env 100000000 999999999 ;; set_out (dec_Z r)
    else
      modB (fun b => bset_code (replace (B "..") (B " ") b.(code)) b) ;;;
      b <- getB ;;
      let parts := split_whitespace b.(code) in
      from <- need_i32 parts 0 E_ARGS ;;
      to <- need_i32 parts 1 E_ARGS ;;
      if (to <? from)%Z then err E_FROM_GT_TO
      else r <- ask_rand env from to ;; set_out (dec_Z r).

  (** parse_bif_redirect.rs 10-139 *)
  Definition redirect_url : M unit :=
    b <- getB ;; if is_empty b.(code) then err E_URL else ret tt.
  Definition bif_redirect : M unit :=
    reject (fun b => b.(mod_filter) || b.(mod_scope) || b.(mod_negate)) ;;;
    echo_in_cache ;;;
    has_params <- extract_params_code true ;;
    no_flags ;;;
    parse_code false ;;;
    b <- getB ;;
    c <- (if (has_params : bool) then
            let p := b.(params) in
            if beq p (B "301") || beq p (B "302") || beq p (B "303") || beq p (B "307") || beq p (B "308")
            then redirect_url ;;; ret p
            else if beq p (B "js:reload:top") then
              modS (set_redirect_js REDIR_JS_RELOAD_TOP) ;;; ret (B "200")
            else if beq p (B "js:reload:self") then
              modS (set_redirect_js REDIR_JS_RELOAD_SELF) ;;; ret (B "200")
            else if beq p (B "js:redirect:top") then
              redirect_url ;;;
              modS (set_redirect_js (replace (B "{}") b.(code) REDIR_JS_REDIRECT_TOP)) ;;; ret (B "200")
            else if beq p (B "js:redirect:self") then
              redirect_url ;;;
              modS (set_redirect_js (replace (B "{}") b.(code) REDIR_JS_REDIRECT_SELF)) ;;; ret (B "200")
            else if negb (contains (B "js:reload:self") b.(code))
                    || negb (contains (B "js:reload:top") b.(code))
            then err E_STATUS else ret (B "200")
          else if beq b.(code) (B "js:reload:top") then
            modS (set_redirect_js REDIR_JS_RELOAD_TOP) ;;; ret (B "200")
          else if beq b.(code) (B "js:reload:self") then
            modS (set_redirect_js REDIR_JS_RELOAD_SELF) ;;; ret (B "200")
          else err E_REDIR_TYPE) ;;
    modS (set_status c (status_text_of c) b.(code)) ;;;
    modS (set_exit (negb b.(mod_negate))).

  (** parse_bif_replace.rs 10-40 *)
  Definition bif_replace : M unit :=
    reject (fun b => b.(mod_filter) || b.(mod_negate) || b.(mod_scope)) ;;;
    extract_params_code false ;;;
    b <- getB ;;
    if contains (B "{:flg;") b.(params) then err E_FLAGS
    else
      args <- extract_args ;;
      from <- need_arg args 1 E_ARGS ;;
      to <- need_arg args 2 E_ARGS ;;
      parse_code b.(mod_scope) ;;;
      b <- getB ;;
      set_out (replace from to b.(code)).

  (** parse_bif_snippet.rs 16-89 *)
  Definition bif_snippet : M unit :=
    reject (fun b => b.(mod_filter) || b.(mod_negate) || b.(mod_scope)) ;;;
    modB (bset_alias (B "snippet")) ;;;
    is_set <- extract_params_code true ;;
    check_flags [B "static"] ;;;
    b <- getB ;; i <- getI ;;
    if (is_set : bool) then
      if contains SNIPPETS_FILES i.(current_file) || beq i.(ialias) (B "snippet") then
        (if has_flag (B "|static|") b then
           c <- child b.(code) b.(mod_scope) ;; modB (bset_code c)
         else create_schema) ;;;
        b <- getB ;;
        upd_local (upd (B "snippets") (put b.(params) (JStr b.(code)))) ;;;
        i <- getI ;;
        upd_local (upd (B "snippets_set_dir") (put b.(params) (JStr i.(current_dir)))) ;;;
        set_out []
      else err E_SNIPPET_SET
    else
      parse_code false ;;;
      b <- getB ;; s <- getS ;; i <- getI ;;
      let snip := b.(code) in
      let c := get_from_key (idx (get_indir s i.(indir)) (B "snippets")) snip in
      modB (bset_code c) ;;;
      (if contains BIF_OPEN c then
         let set_dir := get_from_key (idx (get_indir s i.(indir)) (B "snippets_set_dir")) snip in
         (if is_empty set_dir then ret tt else modI (iset_current_dir set_dir)) ;;;
         c' <- child c (contains (B "{:snip") c) ;;
         modB (bset_code c')
       else ret tt) ;;;
      b <- getB ;; set_out b.(code).

  (** parse_bif_sum.rs 9-43 *)
  Definition bif_sum : M unit :=
    reject (fun b => b.(mod_filter) || b.(mod_negate) || b.(mod_scope)) ;;;
    modB (fun b => bset_params b.(src) b) ;;;
    b <- getB ;;
    if contains (B "{:flg;") b.(params) then err E_FLAGS
    else
      args <- extract_args ;;
      x <- need_arg args 1 E_ARGS ;;
      y <- need_arg args 2 E_ARGS ;;
      match f64_gt0 x with
      | None => err E_INVALID_1
      | Some _ =>
          match f64_gt0 y with
          | None => err E_INVALID_2
          | Some _ => set_out (env.(e_fadd) x y)
          end
      end.

  (** parse_bif_trans.rs 9-33 *)
  Definition bif_trans : M unit :=
    reject (fun b => b.(mod_filter) || b.(mod_scope)) ;;;
    b <- getB ;;
    (if contains BIF_OPEN b.(src) then c <- child b.(src) b.(mod_scope) ;; modB (bset_src c)
     else ret tt) ;;;
    b <- getB ;;
    t <- get_trans b.(src) ;;
    if is_empty t then (if b.(mod_negate) then set_out [] else set_out b.(src))
    else set_out t.

  (** parse_bif_unknown.rs 7-11 *)
  Definition bif_unknown : M unit :=
    modB (bset_alias (B "unknown")) ;;; err E_UNKNOWN.

  (** Bif::get_cache_dir (parse_bif_cache.rs 207-219): [None] is the panic of file[0..3] on a
      shorter string (a sha256 digest has 64 digits). *)
  Definition cache_dir_of (s : Shared) (id : bytes) : option bytes :=
    if length id <? 3 then None
    else Some (s.(cfg).(cache_dir)
               ++ (if is_empty s.(cfg).(cache_prefix) then [] else B "/" ++ s.(cfg).(cache_prefix))
               ++ B "/" ++ firstn 3 id).

  (** the text whose digest names the cache file (parse_bif_cache.rs 72-101); [s0] is the state
      before the arguments were evaluated, where has_post, has_get and has_cookies are computed
      (parse_bif_cache.rs 42-44) *)
  Definition cache_key (s0 s : Shared) (i : Inherit) (id expires code : bytes) (only_custom : bool) : bytes :=
    if only_custom then id
    else
      let ctx0 := idx (data_of s0) (B "CONTEXT") in
      let ctx := idx (data_of s) (B "CONTEXT") in
      let part k := if is_empty_key ctx0 k then [] else env.(e_to_string) (idx ctx k) in
      id ++ s.(cfg).(lang) ++ expires ++ part (B "POST") ++ part (B "GET") ++ part (B "COOKIES")
         ++ get_data_of s i (B "CONTEXT->HOST") ++ get_data_of s i (B "CONTEXT->ROUTE") ++ code.

  (** Bif::cache_file_expires (parse_bif_cache.rs 161-190) *)
  Definition cache_file_expires (p : bytes) (expires : N) : M bool :=
    now <- ask_now env ;;
    m <- ask_mtime env p ;;
    match m with
    | None => ret true
    | Some t => if (u64_max <? t + expires)%N then panicM PExpireOverflow
                else ret (t + expires <? now)%N
    end.

  (** [self.inherit.in_cache = true; ..; self.inherit.in_cache = restore] around a child parse *)
  Definition child_in_cache (source : bytes) (scope restore : bool) : M bytes :=
    modI (iset_in_cache true) ;;;
    c <- child source scope ;;
    modI (iset_in_cache restore) ;;;
    ret c.

  (** is the cache bypassed for this request (parse_bif_cache.rs 41-50) *)
  Definition cache_bypass (s : Shared) : bool :=
    let ctx := idx (data_of s) (B "CONTEXT") in
    s.(cfg).(cache_disable)
    || (negb (is_empty_key ctx (B "POST")) && negb s.(cfg).(cache_on_post))
    || (negb (is_empty_key ctx (B "GET")) && negb s.(cfg).(cache_on_get))
    || (negb (is_empty_key ctx (B "COOKIES")) && negb s.(cfg).(cache_on_cookies)).

  (** parse_bif_cache.rs 19-159 *)
  Definition bif_cache : M unit :=
    reject (fun b => b.(mod_filter) || b.(mod_scope)) ;;;
    extract_params_code false ;;;
    b <- getB ;; i <- getI ;; s <- getS ;;
    if contains (B "{:flg;") b.(params) then err E_FLAGS
    else if b.(mod_negate) then
      if i.(in_cache) then set_out b.(raw)
      else o <- child b.(code) b.(mod_scope) ;; set_out o
    else if cache_bypass s then
      parse_code b.(mod_scope) ;;;
      b <- getB ;; set_out b.(code)
    else
      let restore := i.(in_cache) in
      modI (iset_in_cache true) ;;;
      args <- extract_args ;;
      modI (iset_in_cache restore) ;;;
      expires <- need_arg args 1 (B "arguments 'expires' not found") ;;
      let id := arg_or_empty args 2 in
      let only_custom := match arg args 3 with
                         | Some v => negb (beq v (B "false") || beq v (B "0") || is_empty v)
                         | None => false
                         end in
      s1 <- getS ;; i <- getI ;;
      let cache_id := env.(e_sha256) (cache_key s s1 i id expires b.(code) only_custom) in
      cdir <- lift_option PHashSlice (cache_dir_of s1 cache_id) ;;
      let file := cdir ++ B "/" ++ cache_id ++ B "-" ++ expires in
      ex <- ask_exists env file ;;
      expired <- (if ex then
                    cache_file_expires file (match parse_u64 expires with Some n => n | None => 0%N end)
                  else ret true) ;;
      if ex && negb expired then
        r <- ask_read env file ;;
        match r with
        | Some c => set_out c
        | None =>
            (if contains BIF_OPEN b.(code) then
               o <- child_in_cache b.(code) b.(mod_scope) restore ;; set_out o
             else ret tt) ;;;
            err (B "Failed to read cache " ++ file)
        end
      else
        (if contains BIF_OPEN b.(code) then
           c <- child_in_cache b.(code) b.(mod_scope) restore ;; modB (bset_code c)
         else ret tt) ;;;
        b <- getB ;;
        set_out b.(code) ;;;
        md <- ask_mkdir env cdir ;;
        match md with
        | Some e => err (B "Failed to create cache directory " ++ cdir ++ B ": " ++ e)
        | None =>
            cr <- ask_create env file ;;
            match cr with
            | Some e => err (B "Failed to create file " ++ file ++ B ": " ++ e)
            | None =>
                w <- ask_write env file b.(code) ;;
                match w with
                | Some e => err (B "Failed to write to cache " ++ file ++ B ": " ++ e)
                | None => ret tt
                end
            end
        end.

  (** Bif::parse_obj_values (parse_bif_obj.rs 221-247) *)
  Definition obj_file_key (k : bytes) : bool :=
    beq k (B "file") || beq k (B "template") || beq k (B "venv") || beq k (B "schema_data")
    || beq k (B "fpm").
  Definition parse_str_value (v : json) : M json :=
    match v with
    | JStr s => if contains BIF_OPEN s then o <- child s false ;; ret (JStr o) else ret v
    | _ => ret v
    end.
  Fixpoint parse_obj_values (j : json) (is_rec : bool) : M json :=
    match j with
    | JObj m =>
        m' <- (fix go (m : obj) : M obj :=
                 match m with
                 | [] => ret []
                 | (k, v) :: r =>
                     v' <- (if obj_file_key k then parse_str_value v
                            else if beq k (B "params") || is_rec then
                              match v with
                              | JObj _ => parse_obj_values v true
                              | _ => parse_str_value v
                              end
                            else ret v) ;;
                     r' <- go r ;;
                     ret ((k, v') :: r')
                 end) m ;;
        ret (JObj m')
    | _ => ret j
    end.

  (** obj[k].as_str().unwrap_or(d) *)
  Definition str_or (d : bytes) (j : json) : bytes := match as_str j with Some s => s | None => d end.

  (** [if !venv.is_empty() { expand '#'; must exist }] (parse_bif_obj.rs 134-147, 171-180) *)
  Definition check_venv (v : bytes) : M (option bytes) :=
    if is_empty v then ret None
    else
      i <- getI ;;
      let v := expand_hash i.(current_dir) v in
      ex <- ask_exists env v ;;
      if ex then ret (if is_empty v then None else Some v)
      else err (B "venv path does not exist").

  (** parse_bif_obj.rs 17-219 *)
  Definition bif_obj : M unit :=
    reject (fun b => b.(mod_filter) || b.(mod_negate)) ;;;
    b <- getB ;;
    let added := negb (contains BIF_CODE b.(src)) in
    (if added then modB (fun b => bset_src (b.(src) ++ BIF_CODE) b) else ret tt) ;;;
    extract_params_code false ;;;
    (if added then modB (fun b => bset_src (firstn (length b.(src) - 2) b.(src)) b) else ret tt) ;;;
    no_flags ;;;
    b <- getB ;;
    let cs := chars b.(params) in
    let colon_at n := match nth_error cs n with Some c => beq c (B ":") | None => false end in
    obj_raw <-
      (if starts_with (B "{") b.(params) && ends_with (B "}") b.(params)
          && negb (colon_at 1) && negb (colon_at (length b.(params) - 2))
       then ret b.(params)
       else
         (if contains BIF_OPEN b.(params) then
            p <- child b.(params) false ;; modB (bset_params p)
          else ret tt) ;;;
         modB (fun b => bset_file_path b.(params) b) ;;;
         b <- getB ;;
         (if contains BIF_OPEN b.(file_path) then
            ok <- lift_option PRemoveComments (contains_allow b.(file_path)) ;;
            if negb ok then err E_INSECURE_FILE
            else p <- child b.(params) false ;; modB (bset_file_path p)
          else ret tt) ;;;
         i <- getI ;;
         modB (fun b => bset_file_path (expand_hash i.(current_dir) b.(file_path)) b) ;;;
         b <- getB ;;
         ex <- ask_exists env b.(file_path) ;;
         if negb ex then err E_FILE_NOT_FOUND
         else
           s <- getS ;;
           let msg := env.(e_read_err) s.(strace) b.(file_path) in
           r <- ask_read env b.(file_path) ;;
           match r with
           | Some c => ret c
           | None => err (B "Failed to read file: " ++ msg)
           end) ;;
    match env.(e_from_str) (trim obj_raw) with
    | inr e => err (B "Failed to parse JSON: " ++ e)
    | inl o0 =>
        let engine := env.(e_lower) (str_or DEFAULT_OBJ_ENGINE (idx o0 (B "engine"))) in
        if negb (beq engine (B "python")) && negb (beq engine (B "php")) then err E_ENGINE
        else
          b <- getB ;;
          o <- (if negb (has_flag (B "|inline|") b) then parse_obj_values o0 false else ret o0) ;;
          i <- getI ;;
          let fpo := expand_hash i.(current_dir) (str_or [] (idx o (B "file"))) in
          ex <- ask_exists env fpo ;;
          if negb ex then err E_OBJ_FILE
          else
            cn <- ask_canon env fpo ;;
            canonical <- (match cn with
                          | Some c => ret c
                          | None => err (B "Failed to canonicalize obj script: ")
                          end) ;;
            s <- getS ;; i <- getI ;;
            let schema_data :=
              match vget (B "schema_data") o with
              | Some (JStr nm) =>
                  let r := match strip_prefix LOCAL nm with
                           | Some l => resolve_pointer (local_data_of s i) l
                           | None => resolve_pointer (data_of s) nm
                           end in
                  Some (match r with Some v => v | None => JNull end)
              | _ => None
              end in
            let schema_opt := match vget (B "schema") o with
                              | Some (JBool true) => Some s.(schema)
                              | _ => None
                              end in
            let conf := idx s.(schema) (B "config") in
            let callback := str_or DEFAULT_OBJ_CALLBACK (idx o (B "callback")) in
            result <-
              (if beq engine (B "python") then
                 venv <- check_venv (str_or (str_or [] (idx conf (B "obj_python_venv"))) (idx o (B "venv"))) ;;
                 ask_python env (mkExec canonical (idx o (B "params")) callback schema_opt schema_data venv None)
               else
                 venv <- check_venv (str_or (str_or [] (idx conf (B "obj_php_venv"))) (idx o (B "venv"))) ;;
                 let fpm := expand_hash i.(current_dir)
                              (str_or (str_or (B "unix:/run/php/php-fpm.sock") (idx conf (B "obj_php_fpm")))
                                      (idx o (B "fpm"))) in
                 ask_php env (mkExec canonical (idx o (B "params")) callback schema_opt schema_data venv (Some fpm))) ;;
            match result with
            | inr e => err e
            | inl res =>
                let c1 := if is_empty_key res (B "data") then []
                          else B "{:data;{:flg; inline :}>>" ++ env.(e_to_string) res ++ B ":}" in
                c2 <- (if is_empty_key o (B "template") then ret []
                       else match as_str (idx o (B "template")) with
                            | Some t => ret (B "{:include;" ++ t ++ B ":}")
                            | None => panicM PObjTemplate
                            end) ;;
                modB (fun b => bset_code (c1 ++ c2 ++ b.(code)) b) ;;;
                b <- getB ;;
                if contains BIF_OPEN b.(code) then
                  o <- child b.(code) b.(mod_scope) ;; set_out o
                else set_out b.(code)
            end
    end.

  (** The dispatch table (bif/mod.rs 160-201) *)
  Definition handlers : list (bytes * M unit) :=
    [ (B "", bif_var); (B "allow", bif_allow); (B "array", bif_array); (B "bool", bif_bool);
      (B "cache", bif_cache); (B "coalesce", bif_coalesce); (B "code", bif_code);
      (B "contains", bif_contains); (B "count", bif_count_); (B "data", bif_data);
      (B "date", bif_date); (B "declare", bif_declare); (B "defined", bif_defined);
      (B "each", bif_each); (B "else", bif_else); (B "eval", bif_eval); (B "exit", bif_exit);
      (B "fetch", bif_fetch); (B "filled", bif_filled); (B "flg", bif_flg); (B "for", bif_for);
      (B "hash", bif_hash); (B "include", bif_include); (B "join", bif_join);
      (B "lang", bif_lang); (B "locale", bif_locale); (B "moveto", bif_moveto);
      (B "neutral", bif_neutral); (B "param", bif_param); (B "rand", bif_rand);
      (B "redirect", bif_redirect); (B "replace", bif_replace); (B "same", bif_same);
      (B "snippet", bif_snippet); (B "snip", bif_snippet); (B "sum", bif_sum);
      (B "trans", bif_trans); (B "obj", bif_obj); (B "debug", bif_debug) ].

  Fixpoint lookup_handler (n : bytes) (l : list (bytes * M unit)) : M unit :=
    match l with
    | [] => bif_unknown
    | (k, h) :: r => if beq n k then h else lookup_handler n r
    end.
  Definition dispatch (n : bytes) : M unit := lookup_handler n handlers.

  (** Result of one bif: the text it contributes and the state of the enclosing block. *)
  (** the error line (bif/mod.rs 208-219) *)
  Definition error_line (t : bytes) (e : BifError) : bytes :=
    one_line (B "[" ++ t ++ B "] Error (" ++ e.(er_name) ++ B ") " ++ e.(er_msg)
              ++ B " file~: (" ++ e.(er_file) ++ B ") src: " ++ e.(er_src)).

  (** after the handler (bif/mod.rs 202-240) *)
  Definition bif_finish (st : St) : BRes :=
    let b := st.(bf) in
    let i := iset_last (negb (is_empty b.(out))) st.(inh) in
    BOk (trim (if b.(mod_upline) then BACKSPACE ++ b.(out) else b.(out))) st.(sh) i.

  Definition bif_result (r : Res unit) : BRes :=
    match r with
    | Done _ st => bif_finish st
    | Fail e st =>
        match show_error st.(sh) with
        | None => BPanic PShow
        | Some _ =>
            let t := env.(e_local_now) st.(sh).(strace) in
            let s := push_error (error_line t e) (add_event (EvLocalNow t) st.(sh)) in
            bif_finish (mkSt s st.(inh) st.(bf))
        end
    | Panic p => BPanic p
    | NoFuel => BNoFuel
    end.

  (** Bif::parse (bif/mod.rs 121-241) *)
  Definition bif_parse (s : Shared) (i : Inherit) (braw bonly : bytes) : BRes :=
    let body := strip_prefix_suffix braw BIF_OPEN BIF_CLOSE in
    match split_once (B ";") body with
    | None =>
        if negb (is_empty bonly) then BOk braw s i
        else match show_error s with
             | None => BPanic PShow
             | Some _ => BOk [] (push_error (one_line (B "The delimiter was not found: " ++ braw)) s) i
             end
    | Some (nm, rest) =>
        if negb (is_empty bonly) && negb (contains bonly nm) && negb i.(in_only) then BOk braw s i
        else match scan_modifiers nm false false false false with
             | None => BPanic PBifName
             | Some (nm', (f, g, u, p)) =>
                 let b := bset_mods f g u p
                            (bset_alias nm' (bset_name nm' (bset_src (trim rest) (bif_init braw bonly)))) in
                 bif_result (dispatch nm' (mkSt s (iset_in_only true i) b))
             end
    end.

  (** Bif::new (bif/mod.rs 81-96) followed by Bif::parse *)
  Definition bif_run (s : Shared) (i : Inherit) (braw bonly : bytes) : BRes :=
    let n := (s.(bisf_count) + 1)%N in
    if (s.(cfg).(bisf_max) <? n)%N then BPanic PBifLimit
    else bif_parse (set_bisf_count n s) (iset_bif_count n i) braw bonly.

  (** BlockParser::parse_with_blocks (block_parser.rs 153-191) *)
  Fixpoint blocks_loop (s : Shared) (i : Inherit) (source : bytes) (prev_end : nat) (acc : bytes)
           (bl : list (nat * nat)) (bonly : bytes) : BRes :=
    match bl with
    | [] => BOk (trim (acc ++ skipn prev_end source)) s i
    | (st, en) :: r =>
        let text := slice st en source in
        let is_comment := starts_with BIF_COMMENT_OPEN text in
        let short := i.(last_coalesce_out) && beq i.(ialias) (B "coalesce") in
        if s.(exit) then BOk acc s i
        else
          let acc := acc ++ slice prev_end st source in
          if negb is_comment && negb short then
            match bif_run s i text bonly with
            | BOk o s' i' => blocks_loop s' i' source en (acc ++ o) r bonly
            | e => e
            end
          else blocks_loop s i source en acc r bonly
    end.
End Engine.

(** The knot: nested blocks are parsed with one unit of fuel less. *)
Fixpoint run_blocks (env : Env) (fuel : nat) (s : Shared) (i : Inherit) (source : bytes)
         (bl : list (nat * nat)) (only : bytes) : BRes :=
  match fuel with
  | O => BNoFuel
  | S n => blocks_loop env (run_blocks env n) s i source 0 [] bl only
  end.

(** BlockParser::parse of a nested block, given the fuel *)
Definition parse_fuel (env : Env) (fuel : nat) := block_parse (run_blocks env fuel).

(** Fuel that always suffices: one level per bif that may still be created (theorem
    parse_terminates). *)
Definition enough_fuel (s : Shared) : nat := S (N.to_nat (s.(cfg).(bisf_max) - s.(bisf_count))).

(** BlockParser::parse (block_parser.rs 129-139) *)
Definition parse (env : Env) (s : Shared) (i : Inherit) (source only : bytes) : BRes :=
  parse_fuel env (enough_fuel s) s i source only.
