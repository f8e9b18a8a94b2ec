(** * Specification vocabulary for the evaluation of templates

    How a bif is written, what it means to evaluate one bif or one nested block, and what the
    state before and after looks like.  [parse] (BlockParser::parse) and [bif_run] (Bif::new and
    Bif::parse) are the engine's own entry points; everything else is vocabulary. *)

From Verif Require Import Bytes Json Utils ConstantsGen State Engine Template Spec.

(** ** How a bif is written *)

Definition modifier (a : ascii) : Prop := a = "&"%char \/ a = "!"%char \/ a = "^"%char \/ a = "+"%char.

(** {:<mods><name>;<body>:} *)
Definition bif_text (mods nm body : bytes) : bytes := B "{:" ++ mods ++ nm ++ B ";" ++ body ++ B ":}".

Definition plain_name (nm : bytes) : Prop :=
  ~ In ";"%char nm /\ match nm with c :: _ => ~ modifier c /\ (N_of_ascii c < 128)%N | [] => True end.

Definition has_mod (c : ascii) (mods : bytes) : bool := existsb (aeqb c) mods.

(** The parameters and the code of a body: what is before and after the separator (C19), trimmed. *)
Definition params_of (body : bytes) : bytes :=
  match get_code_position (trim body) with
  | Some p => trim (firstn p (trim body))
  | None => []
  end.
Definition code_of (body : bytes) : bytes :=
  match get_code_position (trim body) with
  | Some p => trim (skipn (p + 2) (trim body))
  | None => trim (trim body)
  end.
Definition separated (body : bytes) : bool :=
  match get_code_position (trim body) with Some _ => true | None => false end.

(** ** Evaluating one bif and one nested block *)

(** the engine's evaluation of the bif [text] met in the block [i] *)
Definition eval_bif (env : Env) (s : Shared) (i : Inherit) (text only : bytes) : BRes :=
  bif_run env (run_blocks env (enough_fuel s)) s i text only.

(** the block inside a bif called [al] of the block [i] *)
Definition inside (al : bytes) (i : Inherit) : Inherit :=
  iset_block_count (i.(block_count) + 1) (iset_alias al i).

(** evaluation of [src] inside a bif, without the modifier '+': the enclosing block is [i] again
    afterwards *)
Definition eval_nested (env : Env) (al : bytes) (s : Shared) (i : Inherit) (src only : bytes) : BRes :=
  match parse env s (inside al i) src only with
  | BOk o s2 i2 => BOk o (drop_block s2 i2) i
  | e => e
  end.

(** the same with '+': the enclosing block gets a schema of its own first, and the final local
    schema of the nested block afterwards *)
Definition eval_scoped (env : Env) (al : bytes) (s : Shared) (i : Inherit) (src only : bytes) : BRes :=
  let '(s1, i1) := create_block_schema s i in
  match parse env s1 (inside al i) src only with
  | BOk o s2 i2 => BOk o (drop_block (update_indir s2 i2.(indir) i1.(indir)) i2) i1
  | e => e
  end.

(** a text without bifs stands for itself *)
Definition eval_text (env : Env) (al : bytes) (s : Shared) (i : Inherit) (src only : bytes) : BRes :=
  if contains (B "{:") src then eval_nested env al s i src only else BOk src s i.

(** the code of a bif, with or without '+' *)
Definition eval_code (env : Env) (al : bytes) (plus : bool) (s : Shared) (i : Inherit) (src only : bytes) : BRes :=
  if contains (B "{:") src then
    if plus then eval_scoped env al s i src only else eval_nested env al s i src only
  else BOk src s i.

(** what follows an evaluation that has not been aborted *)
Definition and_then (r : BRes) (f : bytes -> Shared -> Inherit -> BRes) : BRes :=
  match r with BOk o s i => f o s i | e => e end.

(** ** The state a bif starts in and ends in *)

(** one more bif has been started *)
Definition started (s : Shared) : Shared := set_bisf_count (s.(bisf_count) + 1) s.
Definition started_in (s : Shared) (i : Inherit) : Inherit :=
  iset_in_only true (iset_bif_count (s.(bisf_count) + 1) i).
Definition may_start (s : Shared) : Prop := (s.(bisf_count) + 1 <= s.(cfg).(bisf_max))%N.

(** the bif is evaluated at all: in the normal pass [only] is empty; in the cache pass it is
    "!cache", and the bif must be !cache or stand inside one *)
Definition selected (only : bytes) (i : Inherit) (mods nm : bytes) : Prop :=
  only = [] \/ i.(in_only) = true \/ occurs only (mods ++ nm).

(** a bif that has written [o] in the state [s] *)
Definition finished (mods o : bytes) (s : Shared) (i : Inherit) : BRes :=
  BOk (trim ((if has_mod "^" mods then BACKSPACE else []) ++ o)) s (iset_last (negb (is_empty o)) i).

(** the state after recording an error of the bif [text] *)
Definition with_error (env : Env) (msg al text : bytes) (s : Shared) (i : Inherit) : Shared :=
  let t := env.(e_local_now) s.(strace) in
  push_error (error_line t (mkErr msg i.(current_file) al text)) (add_event (EvLocalNow t) s).

(** a bif that has failed with the message [msg] in the state [s], after writing [o] *)
Definition failed (env : Env) (msg al mods text o : bytes) (s : Shared) (i : Inherit) : BRes :=
  finished mods o (with_error env msg al text s i) i.
(** errors can be reported: config.error.show is true or false *)
Definition can_report (s : Shared) : Prop :=
  exists b, idx (idx (idx s.(schema) (B "config")) (B "error")) (B "show") = JBool b.

(** the parameters of a bif after their evaluation: text [p], flags [fl], state [s1] *)
Inductive prepared (env : Env) (nm : bytes) (s : Shared) (i : Inherit) (only body : bytes)
  : bytes -> bytes -> Shared -> Prop :=
| pr_plain : ~ occurs (B "{:") (params_of body) -> prepared env nm s i only body (params_of body) [] s
| pr_eval p s1 i1 : occurs (B "{:") (params_of body) ->
    eval_nested env nm (set_sflags [] s) i (params_of body) only = BOk p s1 i1 ->
    prepared env nm s i only body p s1.(sflags) s1.

(** The arguments of a list of parameters: the first character is the delimiter. *)
Definition arg_texts (params : bytes) : list bytes :=
  match chars params with
  | [] => [[]]
  | d :: _ => split d params
  end.
(** evaluated one after the other *)
Inductive arguments (env : Env) (al : bytes) (i : Inherit) (only : bytes)
  : list bytes -> Shared -> list bytes -> Shared -> Prop :=
| ar_nil s : arguments env al i only [] s [] s
| ar_cons p r s o s1 i1 l s2 : eval_text env al s i p only = BOk o s1 i1 ->
    arguments env al i only r s1 l s2 -> arguments env al i only (p :: r) s (o :: l) s2.

(** ** Blocks *)

(** The source as text and blocks. *)
Inductive segment := SText (t : bytes) | SBlock (t : bytes).
Fixpoint segments (source : bytes) (p : nat) (bl : list (nat * nat)) : list segment :=
  match bl with
  | [] => [SText (skipn p source)]
  | (a, b) :: r => SText (slice p a source) :: SBlock (slice a b source) :: segments source b r
  end.
Definition segment_text (g : segment) : bytes := match g with SText t => t | SBlock t => t end.

Definition is_comment (t : bytes) : Prop := exists r, t = B "{:*" ++ r.
(** an alternative of the enclosing coalesce has already produced output *)
Definition decided (i : Inherit) : Prop := i.(last_coalesce_out) = true /\ i.(ialias) = B "coalesce".

(** [evaluates run l s i o s' i' fin]: evaluating the segments [l] in turn gives the text [o];
    [fin] is false when evaluation stopped before the end because of exit. *)
Inductive evaluates (run : Shared -> Inherit -> bytes -> BRes)
  : list segment -> Shared -> Inherit -> bytes -> Shared -> Inherit -> bool -> Prop :=
| ev_text t s i : evaluates run [SText t] s i t s i true
| ev_stop t b l s i : s.(exit) = true -> evaluates run (SText t :: SBlock b :: l) s i [] s i false
| ev_comment t b l s i o s' i' fin : s.(exit) = false -> is_comment b ->
    evaluates run l s i o s' i' fin ->
    evaluates run (SText t :: SBlock b :: l) s i (t ++ o) s' i' fin
| ev_skip t b l s i o s' i' fin : s.(exit) = false -> ~ is_comment b -> decided i ->
    evaluates run l s i o s' i' fin ->
    evaluates run (SText t :: SBlock b :: l) s i (t ++ o) s' i' fin
| ev_bif t b l s i o1 s1 i1 o s' i' fin : s.(exit) = false -> ~ is_comment b -> ~ decided i ->
    run s i b = BOk o1 s1 i1 -> evaluates run l s1 i1 o s' i' fin ->
    evaluates run (SText t :: SBlock b :: l) s i (t ++ o1 ++ o) s' i' fin.

(** the texts [l] occur in [o] in this order, without overlap *)
Inductive in_order : list bytes -> bytes -> Prop :=
| io_nil o : in_order [] o
| io_cons t l u o : in_order l o -> in_order (t :: l) (u ++ t ++ o).

(** ** Histories *)

(** [exit_log l b]: in the log [l] (newest first) no bif is started while the exit flag is
    raised; [b] is the flag at the end. *)
Inductive exit_log : list step -> bool -> Prop :=
| el_start : exit_log [] false
| el_bif l : exit_log l false -> exit_log (SBif :: l) false
| el_set l b b' : exit_log l b -> exit_log (SExit b' :: l) b'.

Fixpoint bifs_started (l : list step) : N :=
  match l with
  | [] => 0
  | SBif :: r => 1 + bifs_started r
  | SExit _ :: r => bifs_started r
  end.

(** [s'] is reached from [s]: same configuration, no bif forgotten, the interactions with the
    outside world only grow *)
Definition later (s s' : Shared) : Prop :=
  s'.(cfg) = s.(cfg) /\ (s.(bisf_count) <= s'.(bisf_count))%N /\ exists l, s'.(strace) = l ++ s.(strace).

(** ** The schema and the errors *)

Definition template_keys : list bytes := [B "data"; B "__moveto"; B "__error"].
Definition one_line_text (x : bytes) : Prop := ~ In (ascii_of_N 10) x /\ ~ In (ascii_of_N 13) x.

(** [errors_are j l]: the schema [j] records exactly the error lines [l] *)
Definition errors_are (j : json) (l : list bytes) : Prop := vget (B "__error") j = Some (JArr (map JStr l)).

(** ** Local definitions *)

Definition snippet_sections : list bytes := [B "snippets"; B "snippets_set_dir"].
(** the same parameters, declarations, translations and local data (everything but snippets) *)
Definition same_local (a b : json) : Prop := forall sec, ~ In sec snippet_sections -> idx b sec = idx a sec.
(** what is locally defined for the bifs of the block [i] *)
Definition visible (s : Shared) (i : Inherit) : json := get_indir s i.(indir).

(** the bifs whose purpose is to define something in the local schema, and include *)
Definition definers : list bytes :=
  [B "declare"; B "data"; B "locale"; B "param"; B "snippet"; B "snip"; B "include"].

(** the local schema of a block is that of its own level or of an enclosing level, and exists *)
Definition at_level (s : Shared) (d : bytes) (c : N) : Prop :=
  (exists k, 1 <= k <= N.max 1 c /\ d = block_id k)%N /\ oget d s.(indir_store) <> None.
Definition level_ok (s : Shared) (i : Inherit) : Prop :=
  (1 <= i.(block_count))%N /\ at_level s i.(indir) i.(block_count).

(** ** Shapes *)

Definition null_or_obj (j : json) : Prop := j = JNull \/ is_obj j.
Definition def_sections : list bytes := [B "declare"; B "params"; B "snippets"; B "snippets_set_dir"].

(** what the engine expects of a schema: the shape of the default schema *)
Record default_shape (sc : json) : Prop := {
  ds_obj : is_obj sc;
  ds_max : exists n, idx (idx sc (B "config")) (B "infinite_loop_max_bifs") = JNum (NPos n);
  ds_debug : exists n, idx (idx sc (B "config")) (B "debug_expire") = JNum (NPos n);
  ds_show : exists b, idx (idx (idx sc (B "config")) (B "error")) (B "show") = JBool b;
  ds_data : null_or_obj (idx sc (B "data"));
  ds_inherit : is_obj (idx sc (B "inherit"));
  ds_sections : forall k, In k def_sections -> null_or_obj (idx (idx sc (B "inherit")) k) }.

(** the panics that remain possible for such a schema *)
Definition allowed_panic (env : Env) (p : panic) : Prop :=
  match p with
  | PBifLimit | PBifName | PRemoveComments | PCanonicalize | PObjTemplate | PCountOverflow
  | PExpireOverflow | PDate => True
  | PHashSlice => exists k, length (env.(e_sha256) k) < 3
  | PShow | PIndex | PConfig | PVersion | PMoveto => False
  end.

(** ** Where nested content is evaluated *)

(** Every nested evaluation made by the bif [text] of the block [i] starts in a state that
    satisfies [P]: replacing the evaluator of nested blocks by any other function that agrees
    with it on those states makes no difference. *)
Definition nested_start_in (P : Shared -> Inherit -> Prop) (env : Env) (s : Shared) (i : Inherit)
  (text only : bytes) : Prop :=
  forall other,
    (forall s' i' src bl o, P s' i' ->
       run_blocks env (enough_fuel s) s' i' src bl o = other s' i' src bl o) ->
    bif_run env other s i text only = eval_bif env s i text only.

(** ** Conditions on variables *)

(** the data in which a variable is looked up, and its name there: "local::x" is x in the local
    data of the block, everything else is in the global data *)
Definition scope_of (s : Shared) (i : Inherit) (nm : bytes) : json * bytes :=
  match strip_prefix (B "local::") nm with
  | Some l => (idx (visible s i) (B "data"), l)
  | None => (idx s.(schema) (B "data"), nm)
  end.
(** the variable [nm] has a value that satisfies [P] *)
Definition value_is (P : json -> Prop) (s : Shared) (i : Inherit) (nm : bytes) : Prop :=
  let '(d, n) := scope_of s i nm in exists l v, name_path n l /\ reaches l d v /\ P v.

Definition is_collection (v : json) : Prop := (exists l, v = JArr l) \/ is_obj v.
(** the condition each conditional bif stands for *)
Inductive condition_of : bytes -> (json -> Prop) -> Prop :=
| co_bool : condition_of (B "bool") truthy
| co_filled : condition_of (B "filled") (fun v => ~ empty_value v)
| co_defined : condition_of (B "defined") (fun v => v <> JNull)
| co_array : condition_of (B "array") is_collection.

(** ** Variables of the global data *)
(** [data.nm = v] *)
Definition with_data (nm : bytes) (v : json) (s : Shared) : Shared :=
  match upd (B "data") (put nm v) s.(schema) with
  | Some j => set_schema j s
  | None => s
  end.
Definition data_in (s : Shared) (nm : bytes) : json := idx (idx s.(schema) (B "data")) nm.
(** the schema and its data are objects *)
Definition has_data (s : Shared) : Prop := is_obj s.(schema) /\ is_obj (idx s.(schema) (B "data")).

(** the content of a block bif, evaluated even if it contains no bif *)
Definition eval_block (env : Env) (al : bytes) (plus : bool) (s : Shared) (i : Inherit) (src only : bytes) : BRes :=
  if plus then eval_scoped env al s i src only else eval_nested env al s i src only.

(** [body] for each element in turn; the outputs are concatenated *)
Fixpoint iterate {A} (body : A -> Shared -> Inherit -> BRes) (l : list A) (acc : bytes) (s : Shared) (i : Inherit) : BRes :=
  match l with
  | [] => BOk acc s i
  | x :: r => and_then (body x s i) (fun o s' i' => iterate body r (acc ++ o) s' i')
  end.

(** the result of a conditional bif whose condition is [holds] *)
Definition conditional (env : Env) (holds : bool) (mods nm code : bytes) (s : Shared) (i : Inherit) (only : bytes) : BRes :=
  if holds then and_then (eval_code env nm (has_mod "+" mods) s i code only) (finished mods)
  else finished mods [] s i.

(** the text of a variable (C20), "" if it is undefined *)
Definition var_text (s : Shared) (i : Inherit) (nm : bytes) : bytes :=
  let '(d, n) := scope_of s i nm in get_from_key d n.

(** ** coalesce *)

(** the text around the blocks *)
Definition literal (l : list segment) : bytes :=
  flat_map (fun g => match g with SText t => t | SBlock _ => [] end) l.
Definition has_block (l : list segment) : Prop := exists t, In (SBlock t) l.

(** Blocks are evaluated in turn until one has produced output; the later ones are not
    evaluated, only the text around them is output (not even that after an exit). *)
Inductive first_filled (run : Shared -> Inherit -> bytes -> BRes)
  : list segment -> Shared -> Inherit -> bytes -> Shared -> Inherit -> bool -> Prop :=
| ff_none t s i : first_filled run [SText t] s i t s i true
| ff_stop t b l s i : s.(exit) = true -> first_filled run (SText t :: SBlock b :: l) s i [] s i false
| ff_comment t b l s i o s' i' fin : s.(exit) = false -> is_comment b ->
    first_filled run l s i o s' i' fin ->
    first_filled run (SText t :: SBlock b :: l) s i (t ++ o) s' i' fin
| ff_empty t b l s i o1 s1 i1 o s' i' fin : s.(exit) = false -> ~ is_comment b ->
    run s i b = BOk o1 s1 i1 -> i1.(last_coalesce_out) = false ->
    first_filled run l s1 i1 o s' i' fin ->
    first_filled run (SText t :: SBlock b :: l) s i (t ++ o1 ++ o) s' i' fin
| ff_found t b l s i o1 s1 i1 : s.(exit) = false -> ~ is_comment b ->
    run s i b = BOk o1 s1 i1 -> i1.(last_coalesce_out) = true ->
    s1.(exit) = false \/ ~ has_block l ->
    first_filled run (SText t :: SBlock b :: l) s i (t ++ o1 ++ literal l) s1 i1 true
| ff_found_exit t b l s i o1 s1 i1 : s.(exit) = false -> ~ is_comment b ->
    run s i b = BOk o1 s1 i1 -> i1.(last_coalesce_out) = true ->
    s1.(exit) = true -> has_block l ->
    first_filled run (SText t :: SBlock b :: l) s i (t ++ o1) s1 i1 false.

(** where the content of a bif starts: with '+' the enclosing block has got a schema *)
Definition entered (plus : bool) (s : Shared) (i : Inherit) : Shared :=
  if plus then fst (create_block_schema s i) else s.

(** ** Loops *)

(** the keys and values of a collection in order *)
Definition elements (j : json) : list (bytes * json) :=
  match j with
  | JObj m => m
  | JArr l => combine (map dec_nat (seq 0 (length l))) l
  | _ => []
  end.
(** the value of a variable, null if there is none *)
Inductive value_of (s : Shared) (i : Inherit) (nm : bytes) : json -> Prop :=
| vo_some v : (let '(d, n) := scope_of s i nm in resolve_pointer d n = Some v) -> value_of s i nm v
| vo_none : (let '(d, n) := scope_of s i nm in resolve_pointer d n = None) -> value_of s i nm JNull.

(** the integers from [a] to [b], both included, upwards or downwards *)
Definition counted (a b : Z) (l : list Z) : Prop :=
  Z.of_nat (length l) = (Z.abs (b - a) + 1)%Z /\
  forall k, k < length l -> nth_error l k = Some (if (a <=? b)%Z then a + Z.of_nat k else a - Z.of_nat k)%Z.

(** ** Inert output, flags, file names *)

(** a text in which no bif begins or ends *)
Definition no_bif (o : bytes) : Prop := ~ occurs (B "{:") o /\ ~ occurs (B ":}") o.

(** the name of a variable: literal, or the result of evaluating a body that contains bifs *)
Inductive variable_name (env : Env) (s : Shared) (i : Inherit) (only body : bytes) : bytes -> Shared -> Prop :=
| vn_literal : ~ occurs (B "{:") (trim body) -> variable_name env s i only body (trim body) s
| vn_eval nm s1 i1 : occurs (B "{:") (trim body) ->
    eval_nested env (B "var") s i (trim body) only = BOk nm s1 i1 -> variable_name env s i only body nm s1.

(** every flag of "|f1|f2|" is one of [l] *)
Definition flags_in (l : list bytes) (fl : bytes) : Prop := forall f, In f (split (B "|") fl) -> f = [] \/ In f l.
Definition flagged (f fl : bytes) : bool := contains (B "|" ++ f ++ B "|") fl.

(** the text, with its comments ([l] is its structure, C55), is a variable bif, and "{:allow;" is
    nowhere in it *)
Definition bare_variable (t : bytes) : Prop :=
  exists l w, wf_top l /\ t = ctexts l /\ outside l = B "{:;" ++ w ++ B ":}" /\
    ~ occurs (B "{:allow;") t /\ ~ occurs (B "{:!allow;") t.

(** ** Files *)

(** the block inside a bif that has the file [file] of the directory [d] at hand *)
Definition inside_file (al file d : bytes) (i : Inherit) : Inherit :=
  let i := iset_alias al i in
  let i := if is_empty file then i else iset_current_file file i in
  let i := if is_empty d then i else iset_current_dir d i in
  iset_block_count (i.(block_count) + 1) i.

(** the content of a file, evaluated in a schema of its own level that is exported afterwards *)
Definition eval_file (env : Env) (al file d : bytes) (s : Shared) (i : Inherit) (src only : bytes) : BRes :=
  let '(s1, i1) := create_block_schema s i in
  match parse env s1 (inside_file al file d i) src only with
  | BOk o s2 i2 => BOk o (drop_block (update_indir s2 i2.(indir) i1.(indir)) i2) i1
  | e => e
  end.

(** The file name of include, data and locale: the code of the bif; with bifs in it, what they
    evaluate to, if the engine accepts the name; "#" is the directory of the current file. *)
Inductive file_named (env : Env) (al : bytes) (s : Shared) (i : Inherit) (only code : bytes) : bytes -> Shared -> Prop :=
| fn_literal : ~ occurs (B "{:") code -> file_named env al s i only code (expand_hash i.(current_dir) code) s
| fn_eval p s2 i2 : occurs (B "{:") code -> contains_allow code = Some true ->
    parse env s (inside_file al code [] i) code only = BOk p s2 i2 ->
    file_named env al s i only code (expand_hash i.(current_dir) p) (drop_block s2 i2).

(** the file exists and has the canonical path [c] *)
Inductive found (env : Env) (s : Shared) (path : bytes) : bytes -> Shared -> Prop :=
| found_ c : env.(e_exists) s.(strace) path = true ->
    env.(e_canon) (EvExists path true :: s.(strace)) path = Some c ->
    found env s path c (add_event (EvCanon path (Some c)) (add_event (EvExists path true) s)).
Definition not_found (env : Env) (s : Shared) (path : bytes) : Prop := env.(e_exists) s.(strace) path = false.

(** what reading it gives: "" if it cannot be read *)
Definition content_of (env : Env) (s : Shared) (path : bytes) : bytes :=
  match env.(e_read) s.(strace) path with Some c => c | None => [] end.
Definition after_read (env : Env) (s : Shared) (path : bytes) : Shared :=
  add_event (EvRead path (env.(e_read) s.(strace) path)) s.
(** without its comments, if the configuration says so *)
Inductive stripped (s : Shared) (c : bytes) : bytes -> Prop :=
| st_keep : ~ occurs (B "remove") s.(cfg).(comments) -> stripped s c c
| st_remove r : occurs (B "remove") s.(cfg).(comments) -> remove_comments c = Some r -> stripped s c r.
Definition dir_of (env : Env) (path : bytes) : bytes := match env.(e_parent) path with Some d => d | None => [] end.

(** ** The modifiers each bif refuses *)
Definition refused : list (bytes * bytes) :=
  [ (B "", B "+"); (B "debug", B "+");
    (B "array", B "&"); (B "bool", B "&"); (B "defined", B "&"); (B "filled", B "&"); (B "same", B "&");
    (B "contains", B "&"); (B "else", B "&"); (B "eval", B "&");
    (B "allow", B "&+"); (B "cache", B "&+"); (B "data", B "&+"); (B "exit", B "&+"); (B "include", B "&+");
    (B "locale", B "&+"); (B "trans", B "&+");
    (B "coalesce", B "&!"); (B "code", B "&!"); (B "each", B "&!"); (B "for", B "&!"); (B "obj", B "&!");
    (B "count", B "&!+"); (B "date", B "&!+"); (B "declare", B "&!+"); (B "fetch", B "&!+"); (B "hash", B "&!+");
    (B "join", B "&!+"); (B "lang", B "&!+"); (B "moveto", B "&!+"); (B "neutral", B "&!+"); (B "param", B "&!+");
    (B "rand", B "&!+"); (B "redirect", B "&!+"); (B "replace", B "&!+"); (B "snippet", B "&!+"); (B "snip", B "&!+");
    (B "sum", B "&!+"); (B "flg", B "&!^+") ].

(** ** allow *)

(** the declared word [w] matches the text [c] under the flags [fl]: the match is that of C01;
    with partial or replace the word may occur anywhere, with casein letter case is ignored *)
Definition allows (env : Env) (fl w c : bytes) : Prop :=
  let pattern := if flagged (B "partial") fl || flagged (B "replace") fl then B "*" ++ w ++ B "*" else w in
  if flagged (B "casein") fl then wildcard_match (env.(e_lower) c) (env.(e_lower) pattern) = true
  else wildcard_match c pattern = true.
(** the declaration [nm] visible in the block *)
Definition declared (s : Shared) (i : Inherit) (nm : bytes) : bytes := get_from_key (idx (visible s i) (B "declare")) nm.
(** a word without its wildcards *)
Definition without_wildcards (w : bytes) : bytes := filter (fun a => negb (existsb (aeqb a) (B "~*?."))) w.
(** the white-space separated words of a text *)
Definition word_of (w t : bytes) : Prop :=
  exists u v, t = u ++ w ++ v /\ w <> [] /\ (forall c, white c -> ~ occurs c w) /\
    (u = [] \/ exists u' c, u = u' ++ c /\ white c) /\ (v = [] \/ exists c v', v = c ++ v' /\ white c).

(** ** Definitions *)
(** [j'] is [j] with [sec.nm = v] and no other change *)
Definition defined_as (sec nm : bytes) (v j j' : json) : Prop :=
  idx (idx j' sec) nm = v /\ (forall k, k <> nm -> idx (idx j' sec) k = idx (idx j sec) k) /\
  (forall c, c <> sec -> idx j' c = idx j c).
(** a definition can be added to the section *)
Definition definable (sec : bytes) (s : Shared) (i : Inherit) : Prop :=
  is_obj (visible s i) /\ null_or_obj (idx (visible s i) sec).
(** only local schemas differ *)
Definition only_local (s s' : Shared) : Prop := exists x, s' = set_indir_store x s.

(** ** redirect *)
(** [redirects sep typ target code js]: {:redirect; typ >> target :} (or {:redirect; target :}
    when [sep] is false) is a redirection with the status [code] and the script [js] *)
Inductive redirects : bool -> bytes -> bytes -> bytes -> option bytes -> Prop :=
| rd_status p c : In p redirect_codes -> c <> [] -> redirects true p c p None
| rd_reload_top c : redirects true (B "js:reload:top") c (B "200") (Some REDIR_JS_RELOAD_TOP)
| rd_reload_self c : redirects true (B "js:reload:self") c (B "200") (Some REDIR_JS_RELOAD_SELF)
| rd_top c : c <> [] -> redirects true (B "js:redirect:top") c (B "200")
    (Some (B "<!DOCTYPE html><script>top.location.href='" ++ c ++ B "';</script>"))
| rd_self c : c <> [] -> redirects true (B "js:redirect:self") c (B "200")
    (Some (B "<!DOCTYPE html><script>self.location.href='" ++ c ++ B "';</script>"))
| rd_reload_top1 p : redirects false p (B "js:reload:top") (B "200") (Some REDIR_JS_RELOAD_TOP)
| rd_reload_self1 p : redirects false p (B "js:reload:self") (B "200") (Some REDIR_JS_RELOAD_SELF).
(** inside a cache the bif also writes itself, to be evaluated when the cache is read *)
Definition echo (i : Inherit) (text : bytes) : bytes :=
  if i.(in_cache) then B "{:!cache;" ++ text ++ B ":}" else [].

(** ** rand, trans, join *)
(** the random source answers within the bounds it is asked for *)
Definition random_in_bounds (env : Env) : Prop :=
  forall t lo hi, (lo <= hi)%Z -> (lo <= env.(e_rand) t lo hi <= hi)%Z.
(** the translation of [text] for the language of the request (C20), "" if there is none *)
Definition translation (s : Shared) (i : Inherit) (text : bytes) : bytes :=
  get_from_key (idx (idx (idx (visible s i) (B "locale")) (B "trans")) s.(cfg).(lang)) text.

(** [l] with [sep] between consecutive elements *)
Inductive joined (sep : bytes) : list bytes -> bytes -> Prop :=
| jn_none : joined sep [] []
| jn_one x : joined sep [x] x
| jn_more x y l o : joined sep (y :: l) o -> joined sep (x :: y :: l) (x ++ sep ++ o).
(** the texts that join lists: of an object's strings, numbers, true/false and null; of an array
    only the strings; everything else is "" *)
Definition member_text (v : json) : bytes :=
  match v with
  | JStr s => s | JNum n => num_to_string n | JBool true => B "true" | JBool false => B "false"
  | JNull => B "null" | JArr _ | JObj _ => []
  end.
Definition item_text (v : json) : bytes := match v with JStr s => s | _ => [] end.
Definition join_texts (keys : bool) (j : json) : list bytes :=
  match j with
  | JObj m => if keys then map fst m else map (fun kv => member_text (snd kv)) m
  | JArr l => if keys then map dec_nat (seq 0 (length l)) else map item_text l
  | _ => []
  end.
(** The name of a collection: components separated by "->", which contain neither "/" nor "~". *)
Definition plain_component (c : bytes) : Prop := ~ occurs (B "->") c /\ ~ In "/"%char c /\ ~ In "~"%char c.
Definition arrow_name (l : list bytes) (nm : bytes) : Prop :=
  l <> [] /\ Forall plain_component l /\ joined (B "->") l nm.
(** Following the components; an index has no sign and no leading zeros. *)
Inductive points : list bytes -> json -> json -> Prop :=
| pt_here j : points [] j j
| pt_key k r m j v : oget k m = Some j -> points r j v -> points (k :: r) (JObj m) v
| pt_index k i r l j v : nat64 k i -> ~ starts_byte "+" k -> k = B "0" \/ ~ starts_byte "0" k ->
    nth_error l (N.to_nat i) = Some j -> points r j v -> points (k :: r) (JArr l) v.

(** ** cache *)
(** the part [k] (POST, GET or COOKIES) of the request, and whether there is one *)
Definition request (s : Shared) (k : bytes) : json :=
  idx (idx (idx s.(schema) (B "data")) (B "CONTEXT")) k.
Definition has_request (s : Shared) (k : bytes) : Prop := ~ empty_value (request s k).
(** the configuration excludes the request from caching *)
Definition bypassed (s : Shared) : Prop :=
  s.(cfg).(cache_disable) = true \/
  (has_request s (B "POST") /\ s.(cfg).(cache_on_post) = false) \/
  (has_request s (B "GET") /\ s.(cfg).(cache_on_get) = false) \/
  (has_request s (B "COOKIES") /\ s.(cfg).(cache_on_cookies) = false).

(** a block whose content will be cached *)
Definition caching (i : Inherit) : Inherit := iset_in_cache true i.

(** What the entry depends on: identifier, language, expiry, the request (whose presence is tested
    in [s0], before the arguments are evaluated, and whose text is taken in [s], after), host,
    route and code. *)
Inductive request_text (env : Env) (s0 s : Shared) (k : bytes) : bytes -> Prop :=
| rq_none : ~ has_request s0 k -> request_text env s0 s k []
| rq_some : has_request s0 k -> request_text env s0 s k (env.(e_to_string) (request s k)).
Inductive cache_parts (env : Env) (s0 s : Shared) (i : Inherit) (id expires code : bytes) : list bytes -> Prop :=
| cp_parts post get cookies : request_text env s0 s (B "POST") post -> request_text env s0 s (B "GET") get ->
    request_text env s0 s (B "COOKIES") cookies ->
    cache_parts env s0 s i id expires code
      [id; s.(cfg).(lang); expires; post; get; cookies;
       var_text s i (B "CONTEXT->HOST"); var_text s i (B "CONTEXT->ROUTE"); code].

(** the directory and the file of the entry with the key [key] *)
Definition entry_dir (env : Env) (s : Shared) (key : bytes) : bytes :=
  s.(cfg).(cache_dir) ++ (match s.(cfg).(cache_prefix) with [] => [] | p => B "/" ++ p end)
  ++ B "/" ++ firstn 3 (env.(e_sha256) key).
Definition entry_file (env : Env) (s : Shared) (key expires : bytes) : bytes :=
  entry_dir env s key ++ B "/" ++ env.(e_sha256) key ++ B "-" ++ expires.

(** The key of the entry of {:cache; /expires/id/only id/ >> code :}, from the evaluated
    arguments [a]. *)
Definition only_id (a : list bytes) : Prop :=
  exists v, nth_error a 3 = Some v /\ v <> [] /\ v <> B "false" /\ v <> B "0".
Inductive cache_key_of (env : Env) (s0 s : Shared) (i : Inherit) (a : list bytes) (expires code : bytes) : bytes -> Prop :=
| ck_own : only_id a -> cache_key_of env s0 s i a expires code (nth 2 a [])
| ck_parts l : ~ only_id a -> cache_parts env s0 s i (nth 2 a []) expires code l ->
    cache_key_of env s0 s i a expires code (concat l).

(** The questions that decide whether the file [f] is used, and the state after them. *)
Definition seconds (expires : bytes) : N := match parse_u64 expires with Some n => n | None => 0%N end.
Definition dated (env : Env) (s : Shared) (f : bytes) : Shared :=
  let t1 := EvExists f true :: s.(strace) in
  let t2 := EvNow (env.(e_now) t1) :: t1 in
  add_event (EvMtime f (env.(e_mtime) t2 f)) (add_event (EvNow (env.(e_now) t1)) (add_event (EvExists f true) s)).
(** its time, and the present *)
Definition written_at (env : Env) (s : Shared) (f : bytes) : option N :=
  let t1 := EvExists f true :: s.(strace) in env.(e_mtime) (EvNow (env.(e_now) t1) :: t1) f.
Definition present (env : Env) (s : Shared) (f : bytes) : N := env.(e_now) (EvExists f true :: s.(strace)).
Inductive fresh (env : Env) (s : Shared) (f expires : bytes) : Shared -> Prop :=
| fr_fresh t : env.(e_exists) s.(strace) f = true -> written_at env s f = Some t ->
    (t + seconds expires <= u64_max)%N -> (present env s f <= t + seconds expires)%N ->
    fresh env s f expires (dated env s f).
Inductive stale (env : Env) (s : Shared) (f expires : bytes) : Shared -> Prop :=
| sl_missing : env.(e_exists) s.(strace) f = false -> stale env s f expires (add_event (EvExists f false) s)
| sl_unknown : env.(e_exists) s.(strace) f = true -> written_at env s f = None ->
    stale env s f expires (dated env s f)
| sl_old t : env.(e_exists) s.(strace) f = true -> written_at env s f = Some t ->
    (t + seconds expires <= u64_max)%N -> (t + seconds expires < present env s f)%N ->
    stale env s f expires (dated env s f).

(** Storing [o]: the directory is made, the file created and written; it stops at the first
    failure. *)
Inductive stores (env : Env) (d f o : bytes) (s : Shared) : option bytes -> Shared -> Prop :=
| so_mkdir e : env.(e_mkdir) s.(strace) d = Some e ->
    stores env d f o s (Some (B "Failed to create cache directory " ++ d ++ B ": " ++ e)) (add_event (EvMkdir d (Some e)) s)
| so_create e : env.(e_mkdir) s.(strace) d = None -> env.(e_create) (EvMkdir d None :: s.(strace)) f = Some e ->
    stores env d f o s (Some (B "Failed to create file " ++ f ++ B ": " ++ e))
      (add_event (EvCreate f (Some e)) (add_event (EvMkdir d None) s))
| so_write e : env.(e_mkdir) s.(strace) d = None -> env.(e_create) (EvMkdir d None :: s.(strace)) f = None ->
    env.(e_write) (EvCreate f None :: EvMkdir d None :: s.(strace)) f o = Some e ->
    stores env d f o s (Some (B "Failed to write to cache " ++ f ++ B ": " ++ e))
      (add_event (EvWrite f o (Some e)) (add_event (EvCreate f None) (add_event (EvMkdir d None) s)))
| so_done : env.(e_mkdir) s.(strace) d = None -> env.(e_create) (EvMkdir d None :: s.(strace)) f = None ->
    env.(e_write) (EvCreate f None :: EvMkdir d None :: s.(strace)) f o = None ->
    stores env d f o s None
      (add_event (EvWrite f o None) (add_event (EvCreate f None) (add_event (EvMkdir d None) s))).

(** two lists that differ in one element only *)
Definition one_differs (l l' : list bytes) : Prop :=
  exists a x y b, l = a ++ x :: b /\ l' = a ++ y :: b /\ x <> y.

(** {:cache;body:}, met in the block [i] of the state [s], is evaluated with a key made of the parts [l]: its arguments lead to
    the state [s1] and the whole bif to [s2]. *)
Inductive keyed_cache (env : Env) (s : Shared) (i : Inherit) (body only : bytes) (s1 : Shared) (l : list bytes) (s2 : Shared) : Prop :=
| kc_run a expires out i2 : may_start s -> selected only i [] (B "cache") -> ~ occurs (B "{:flg;") (params_of body) ->
    ~ bypassed s -> has_data s -> can_report s ->
    arguments env (B "cache") (caching (started_in s i)) only (arg_texts (params_of body)) (started s) a s1 ->
    nth_error a 1 = Some expires -> ~ only_id a ->
    cache_parts env s s1 (started_in s i) (nth 2 a []) expires (code_of body) l ->
    eval_bif env s i (bif_text [] (B "cache") body) only = BOk out s2 i2 -> keyed_cache env s i body only s1 l s2.

(** ** The passes of a render over what !cache has left *)
(** [passes env i s o s' o']: some number of passes over the content [o] lead to [o'] *)
Inductive passes (env : Env) (i : Inherit) : Shared -> bytes -> Shared -> bytes -> Prop :=
| ps_none s o : passes env i s o s o
| ps_more s o o1 s1 i1 s2 o2 : occurs (B "{:!cache;") o -> top_parse env s i o (B "!cache") = BOk o1 s1 i1 ->
    passes env i s1 o1 s2 o2 -> passes env i s o s2 o2.
(** "{:!cache;" is left although there is no complete bif *)
Definition unclosed_cache (o : bytes) : Prop :=
  occurs (B "{:!cache;") o /\ extract_blocks o = Blocks [] /\ trim o = o.

(** ** Interactions of a render with the outside world *)
(** the directories of the cache: below the configured one (and the prefix, if any), three
    characters of the digest *)
Definition cache_directory (c : Cfg) (d : bytes) : Prop :=
  exists h, length h = 3 /\
    d = c.(cache_dir) ++ (match c.(cache_prefix) with [] => [] | p => B "/" ++ p end) ++ B "/" ++ h.
(** [permitted c before e]: the interaction [e] is allowed after the interactions [before] *)
Definition permitted (c : Cfg) (before : trace) (e : event) : Prop :=
  match e with
  | EvCanon p _ | EvRead p _ => In (EvExists p true) before
  | EvMtime p _ => c.(cache_disable) = false /\ In (EvExists p true) before
  | EvIsFile p _ => p = c.(debug_file) /\ In (EvExists p true) before
  | EvAge p _ => p = c.(debug_file) /\ In (EvExists p true) before /\ In (EvIsFile p true) before
  | EvMkdir d _ => c.(cache_disable) = false /\ cache_directory c d
  | EvCreate p _ => exists d f, cache_directory c d /\ p = d ++ B "/" ++ f /\ In (EvMkdir d None) before
  | EvWrite p _ _ => In (EvCreate p None) before
  | EvPython a _ | EvPhp a _ =>
      (exists p, In (EvExists p true) before /\ In (EvCanon p (Some a.(x_file))) before) /\
      (forall v, a.(x_venv) = Some v -> In (EvExists v true) before)
  | EvExists _ _ | EvNow _ | EvLocalNow _ | EvRand _ _ _ | EvRandBytes _ => True
  end.
(** newest first *)
Definition disciplined (c : Cfg) (t : trace) : Prop :=
  forall later e before, t = later ++ e :: before -> permitted c before e.

(** ** data and locale *)
(** [j'] is [j] with [v] merged (C12) into its section [sec], and no other change *)
Definition merged_into (sec : bytes) (v j j' : json) : Prop :=
  idx j' sec = merge_schema (idx j sec) v /\ forall c, c <> sec -> idx j' c = idx j c.
(** [i'] is the block [i], possibly with a schema of its own *)
Definition same_block (i i' : Inherit) : Prop := exists d, i' = iset_indir d i.

(** ** The flags of code and include *)
(** every "{:", then every ":}" is replaced (C59) by a text that starts or ends no bif *)
Definition bifs_encoded (t r : bytes) : Prop :=
  exists u, replaced (B "{:") (B "&#123;:") t u /\ replaced (B ":}") (B ":&#125;") u r.
(** the characters that are active in HTML are escaped, after any earlier escaping is undone *)
Definition tags_encoded (t r : bytes) : Prop := r = refilter false t.
(** with the flag [f], [r] is the encoding of [t]; without it, it is [t] *)
Definition encoded_if (f fl : bytes) (enc : bytes -> bytes -> Prop) (t r : bytes) : Prop :=
  if flagged f fl then enc t r else r = t.
(** the text of a locale file: evaluated, unless noparse is given or there is nothing to evaluate *)
Inductive locale_text (env : Env) (fl path : bytes) (s : Shared) (i : Inherit) (only c : bytes) : bytes -> Shared -> Prop :=
| lt_raw : flagged (B "noparse") fl = true \/ ~ occurs (B "{:") c -> locale_text env fl path s i only c c s
| lt_eval o s2 i2 : flagged (B "noparse") fl = false -> occurs (B "{:") c ->
    parse env s (inside_file (B "locale") path [] i) c only = BOk o s2 i2 ->
    locale_text env fl path s i only c o (drop_block s2 i2).

(** ** param, snippet *)
(** the value of the parameter [nm] (C20), "" if there is none *)
Definition param_value (s : Shared) (i : Inherit) (nm : bytes) : bytes := get_from_key (idx (visible s i) (B "params")) nm.
(** the content of the snippet [nm] and the directory of the file that defines it *)
Definition snippet_content (s : Shared) (i : Inherit) (nm : bytes) : bytes := get_from_key (idx (visible s i) (B "snippets")) nm.
Definition snippet_dir (s : Shared) (i : Inherit) (nm : bytes) : bytes := get_from_key (idx (visible s i) (B "snippets_set_dir")) nm.
(** the block in which the content is evaluated *)
Definition in_dir (d : bytes) (i : Inherit) : Inherit := match d with [] => i | _ => iset_current_dir d i end.

(** ** exit, moveto *)
(** an empty status is "200" *)
Definition status_or_ok (c : bytes) : bytes := match c with [] => B "200" | _ => c end.
(** a text without its line feeds and spaces *)
Definition squeezed (t : bytes) : bytes := filter (fun a => negb (aeqb a " " || aeqb a (ascii_of_N 10))) t.
(** [j'] is [j] with [__moveto.k = {tag: c}] and no other change *)
Definition move_registered (k tag c : bytes) (j j' : json) : Prop := defined_as (B "__moveto") k (JObj [(tag, JStr c)]) j j'.
(** only the schema differs *)
Definition only_schema (s s' : Shared) : Prop := exists j, s' = set_schema j s.

(** ** fetch *)
Definition fetch_events : list (bytes * bytes) :=
  [ (B "form", DIV_FETCH_FORM); (B "none", DIV_FETCH_NONE); (B "visible", DIV_FETCH_VISIBLE); (B "click", DIV_FETCH_CLICK) ].
(** the frame of an event: that of "auto" unless it is in the table *)
Inductive fetch_frame (event : bytes) : bytes -> Prop :=
| ff_event f : In (event, f) fetch_events -> fetch_frame event f
| ff_auto : ~ In event (map fst fetch_events) -> fetch_frame event DIV_FETCH_AUTO.
(** the placeholders are filled in one after the other (C59) *)
Inductive filled_in : list (bytes * bytes) -> bytes -> bytes -> Prop :=
| fi_none t : filled_in [] t t
| fi_one k v l t u r : replaced k v t u -> filled_in l u r -> filled_in ((k, v) :: l) t r.

(** ** debug *)
(** whether the debug file opens the bif debug: it is configured, exists, is a file and was modified less than [debug_expire] seconds ago *)
Inductive debug_open (env : Env) (s : Shared) : bool -> Shared -> Prop :=
| do_unset : s.(cfg).(debug_file) = [] -> debug_open env s false s
| do_missing f : s.(cfg).(debug_file) = f -> f <> [] -> env.(e_exists) s.(strace) f = false ->
    debug_open env s false (add_event (EvExists f false) s)
| do_no_file f s1 : s.(cfg).(debug_file) = f -> f <> [] -> env.(e_exists) s.(strace) f = true -> s1 = add_event (EvExists f true) s ->
    env.(e_is_file) s1.(strace) f = false -> debug_open env s false (add_event (EvIsFile f false) s1)
| do_aged f s1 s2 a o : s.(cfg).(debug_file) = f -> f <> [] -> env.(e_exists) s.(strace) f = true -> s1 = add_event (EvExists f true) s ->
    env.(e_is_file) s1.(strace) f = true -> s2 = add_event (EvIsFile f true) s1 ->
    env.(e_age) s2.(strace) f = a -> (o = true <-> exists n, a = Some n /\ (n < s.(cfg).(debug_expire))%N) ->
    debug_open env s o (add_event (EvAge f a) s2).
(** what a name of debug refers to: "local::" the data of the block, otherwise the schema *)
Inductive debug_value (s : Shared) (i : Inherit) : bytes -> json -> Prop :=
| dv_full : debug_value s i (B "full-schema") s.(schema)
| dv_local_full : debug_value s i (B "local::full-schema") (visible s i)
| dv_schema l nm v : (forall r, nm <> B "local::" ++ r) -> nm <> [] -> nm <> B "full-schema" -> arrow_name l nm -> points l s.(schema) v -> debug_value s i nm v
| dv_local l nm v : nm <> B "full-schema" -> arrow_name l nm -> points l (visible s i) v -> debug_value s i (B "local::" ++ nm) v.

(** ** obj *)
(** a body without ">>" is all parameters *)
Definition obj_body (body : bytes) : bytes := if contains (B ">>") (trim body) then body else trim body ++ B ">>".
(** the description is given in place *)
Definition in_place (p : bytes) : Prop :=
  starts_with (B "{") p = true /\ ends_with (B "}") p = true /\
  nth_error (chars p) 1 <> Some (B ":") /\ nth_error (chars p) (length p - 2) <> Some (B ":").
(** a text evaluated by a bif that has opened the file [file] *)
Definition eval_in (env : Env) (al file : bytes) (plus : bool) (s : Shared) (i : Inherit) (src only : bytes) : BRes :=
  if contains (B "{:") src then
    if plus then eval_file env al file [] s i src only
    else match parse env s (inside_file al file [] i) src only with
         | BOk o s2 i2 => BOk o (drop_block s2 i2) i
         | e => e
         end
  else BOk src s i.
(** the text of the description, and the file it is from *)
Inductive description (env : Env) (s : Shared) (i : Inherit) (only p : bytes) : bytes -> bytes -> Shared -> Prop :=
| de_in_place : in_place p -> description env s i only p [] p s
| de_file q s1 i1 path s2 c : ~ in_place p -> eval_text env (B "obj") s i p only = BOk q s1 i1 -> ~ occurs (B "{:") q ->
    path = expand_hash i.(current_dir) q -> env.(e_exists) s1.(strace) path = true -> s2 = add_event (EvExists path true) s1 ->
    env.(e_read) s2.(strace) path = Some c -> description env s i only p path c (add_event (EvRead path (Some c)) s2).

(** The texts of a description are evaluated one after the other: those of file, template, venv, schema_data, fpm and, at any
    depth of objects, those of params. *)
Definition obj_texts : list bytes := [B "file"; B "template"; B "venv"; B "schema_data"; B "fpm"].
Inductive text_value (env : Env) (file : bytes) (i : Inherit) (only : bytes) : json -> Shared -> json -> Shared -> Prop :=
| tv_text t s o s1 i1 : eval_in env (B "obj") file false s i t only = BOk o s1 i1 -> text_value env file i only (JStr t) s (JStr o) s1
| tv_other v s : (forall t, v <> JStr t) -> text_value env file i only v s v s.
Inductive members (env : Env) (file : bytes) (i : Inherit) (only : bytes) : bool -> obj -> Shared -> obj -> Shared -> Prop :=
| me_nil r s : members env file i only r [] s [] s
| me_text r k v v' m m' s s1 s2 : In k obj_texts \/ ((k = B "params" \/ r = true) /\ forall x, v <> JObj x) ->
    text_value env file i only v s v' s1 -> members env file i only r m s1 m' s2 ->
    members env file i only r ((k, v) :: m) s ((k, v') :: m') s2
| me_object r k x x' m m' s s1 s2 : ~ In k obj_texts -> k = B "params" \/ r = true ->
    members env file i only true x s x' s1 -> members env file i only r m s1 m' s2 ->
    members env file i only r ((k, JObj x) :: m) s ((k, JObj x') :: m') s2
| me_keep k v m m' s s2 : ~ In k obj_texts -> k <> B "params" -> members env file i only false m s m' s2 ->
    members env file i only false ((k, v) :: m) s ((k, v) :: m') s2.
(** a member that is a text, or a default *)
Definition text_or (d : bytes) (v : json) : bytes := match v with JStr t => t | _ => d end.

Inductive engine := Python | Php.
Definition engine_name (e : engine) : bytes := match e with Python => B "python" | Php => B "php" end.
(** the engine a description asks for, in any case; python if it does not say *)
Definition asks_for (env : Env) (o : json) (e : engine) : Prop := env.(e_lower) (text_or (B "python") (idx o (B "engine"))) = engine_name e.

Definition config (s : Shared) : json := idx s.(schema) (B "config").
(** the virtual environment: that of the description, or that of the configuration; it must exist *)
Definition venv_name (s : Shared) (e : engine) (o : json) : bytes :=
  text_or (text_or [] (idx (config s) (match e with Python => B "obj_python_venv" | Php => B "obj_php_venv" end))) (idx o (B "venv")).
Inductive venv_found (env : Env) (s : Shared) (i : Inherit) : bytes -> option bytes -> Shared -> Prop :=
| vf_none : venv_found env s i [] None s
| vf_some v p : v <> [] -> p = expand_hash i.(current_dir) v -> p <> [] -> env.(e_exists) s.(strace) p = true ->
    venv_found env s i v (Some p) (add_event (EvExists p true) s).

(** what the script is given *)
Definition schema_asked (s : Shared) (o : json) : option json :=
  match idx o (B "schema") with JBool true => Some s.(schema) | _ => None end.
Inductive data_asked (s : Shared) (i : Inherit) (o : json) : option json -> Prop :=
| da_none : (forall t, idx o (B "schema_data") <> JStr t) -> data_asked s i o None
| da_value t m n l v : idx o (B "schema_data") = JStr t -> scope_of s i t = (JObj m, n) -> n <> [] -> name_path n l -> reaches l (JObj m) v -> data_asked s i o (Some v)
| da_null t m n l : idx o (B "schema_data") = JStr t -> scope_of s i t = (JObj m, n) -> n <> [] -> name_path n l -> (forall v, ~ reaches l (JObj m) v) ->
    data_asked s i o (Some JNull).
Definition endpoint_asked (s : Shared) (i : Inherit) (e : engine) (o : json) : option bytes :=
  match e with
  | Python => None
  | Php => Some (expand_hash i.(current_dir) (text_or (text_or (B "unix:/run/php/php-fpm.sock") (idx (config s) (B "obj_php_fpm"))) (idx o (B "fpm"))))
  end.
Definition answer (env : Env) (e : engine) (s : Shared) (x : exec_args) : json + bytes :=
  match e with Python => env.(e_python) s.(strace) x | Php => env.(e_php) s.(strace) x end.
Definition after_call (env : Env) (e : engine) (s : Shared) (x : exec_args) : Shared :=
  add_event (match e with Python => EvPython x (answer env e s x) | Php => EvPhp x (answer env e s x) end) s.
(** the call of the script at the canonical path of the description's file *)
Inductive calls (env : Env) (s : Shared) (i : Inherit) (e : engine) (o : json) : exec_args -> Shared -> Prop :=
| calls_ script s1 data venv s2 : found env s (expand_hash i.(current_dir) (text_or [] (idx o (B "file")))) script s1 ->
    data_asked s i o data -> venv_found env s1 i (venv_name s e o) venv s2 ->
    calls env s i e o (mkExec script (idx o (B "params")) (text_or (B "main") (idx o (B "callback"))) (schema_asked s o) data venv (endpoint_asked s i e o)) s2.
(** what is evaluated after the call: the answer as data, the template, the code *)
Inductive data_part (env : Env) (res : json) : bytes -> Prop :=
| dp_none : empty_value (idx res (B "data")) -> data_part env res []
| dp_some : ~ empty_value (idx res (B "data")) -> data_part env res (B "{:data;{:flg; inline :}>>" ++ env.(e_to_string) res ++ B ":}").
Inductive template_part (o : json) : bytes -> Prop :=
| tp_none : empty_value (idx o (B "template")) -> template_part o []
| tp_some t : idx o (B "template") = JStr t -> t <> [] -> template_part o (B "{:include;" ++ t ++ B ":}").
