(** * State of the engine: environment oracles, Shared, BlockInherit, Bif and the monad of the
      bif handlers *)

From Verif Require Import Bytes Json Utils ConstantsGen.

(** ** Interactions with the outside world

    Every call to the file system, clock, random generator or an external program is an event;
    [trace] lists the events so far, newest first. *)
(** PythonExecutor::exec_py / PhpExecutor::exec_php arguments (parse_bif_obj.rs 148-205). *)
Record exec_args := mkExec {
  x_file : bytes; x_params : json; x_callback : bytes;
  x_schema : option json; x_schema_data : option json;
  x_venv : option bytes; x_fpm : option bytes }.

Inductive event :=
| EvExists (p : bytes) (r : bool)                  (* Path::exists *)
| EvIsFile (p : bytes) (r : bool)                  (* Path::is_file *)
| EvCanon (p : bytes) (r : option bytes)           (* fs::canonicalize *)
| EvRead (p : bytes) (r : option bytes)            (* fs::read_to_string, fs::read *)
| EvMkdir (p : bytes) (r : option bytes)           (* fs::create_dir_all: None = ok *)
| EvCreate (p : bytes) (r : option bytes)          (* File::create: None = ok *)
| EvWrite (p c : bytes) (r : option bytes)         (* write_all: None = ok *)
| EvMtime (p : bytes) (r : option N)               (* modification time, seconds *)
| EvAge (p : bytes) (r : option N)                 (* now - modification time, seconds *)
| EvNow (n : N)                                    (* SystemTime::now, Utc::now, seconds *)
| EvLocalNow (t : bytes)                           (* Local::now, formatted *)
| EvRand (lo hi r : Z)                             (* random_range(lo..=hi) *)
| EvRandBytes (r : bytes)                          (* 16 random bytes *)
| EvPython (a : exec_args) (r : json + bytes)
| EvPhp (a : exec_args) (r : json + bytes).

Notation trace := (list event).

(** Ghost log of the evaluation: a bif has been started (bif/mod.rs 87), the exit flag has been
    assigned (parse_bif_exit.rs 54, parse_bif_redirect.rs 136).  It has no counterpart in the
    code and nothing reads it. *)
Inductive step := SBif | SExit (raised : bool).

(** The environment: the functions below are not specified; theorems quantify over all of them.
    Those taking a [trace] may answer differently at every call. *)
Record Env := mkEnv {
  e_md5 : bytes -> bytes;                 (* hex digest *)
  e_sha256 : bytes -> bytes;              (* hex digest *)
  e_lower : bytes -> bytes;               (* str::to_lowercase *)
  e_from_str : bytes -> json + bytes;     (* serde_json::from_str / error text *)
  e_to_string : json -> bytes;            (* serde_json::to_string *)
  e_to_pretty : json -> bytes;            (* serde_json::to_string_pretty *)
  e_fadd : bytes -> bytes -> bytes;       (* (a.parse::<f64>() + b.parse::<f64>()).to_string() *)
  e_parent : bytes -> option bytes;       (* Path::parent().display() *)
  e_date : N -> bytes -> option bytes;    (* chrono format; None: Display error, to_string panics *)
  e_cwd : bytes;                          (* env::current_dir *)
  e_tmp : bytes;                          (* env::temp_dir *)
  e_exists : trace -> bytes -> bool;
  e_is_file : trace -> bytes -> bool;
  e_canon : trace -> bytes -> option bytes;
  e_read : trace -> bytes -> option bytes;
  e_read_err : trace -> bytes -> bytes;   (* text of the io::Error when e_read is None *)
  e_mkdir : trace -> bytes -> option bytes;
  e_create : trace -> bytes -> option bytes;
  e_write : trace -> bytes -> bytes -> option bytes;
  e_mtime : trace -> bytes -> option N;
  e_age : trace -> bytes -> option N;
  e_now : trace -> N;
  e_local_now : trace -> bytes;
  e_rand : trace -> Z -> Z -> Z;
  e_rand_bytes : trace -> bytes;
  e_python : trace -> exec_args -> json + bytes;
  e_php : trace -> exec_args -> json + bytes }.

(** ** Shared (shared.rs 7-34)

    The fields that are only assigned in [Shared::new] are grouped in [Cfg]. *)
Record Cfg := mkCfg {
  lang : bytes; comments : bytes; bisf_max : N; filter_all : bool; filter_bifs : bool;
  cache_prefix : bytes; cache_dir : bytes; cache_on_post : bool; cache_on_get : bool;
  cache_on_cookies : bool; cache_disable : bool; disable_js : bool; debug_expire : N;
  debug_file : bytes; working_dir : bytes }.

Record Shared := mkShared {
  schema : json;
  indir_store : obj;          (* HashMap<String, Rc<Value>>, never iterated over *)
  bisf_count : N;
  sflags : bytes;
  exit : bool;
  has_error : bool;
  status_code : bytes;
  status_text : bytes;
  status_param : bytes;
  redirect_js : bytes;
  already_js : bool;
  strace : trace;             (* ghost: interactions so far *)
  slog : list step;           (* ghost: evaluation so far, newest first *)
  cfg : Cfg }.

(** Field updates (plain assignments in Rust); those of [bisf_count] and [exit] are logged. *)
Definition set_schema v (s : Shared) := mkShared v s.(indir_store) s.(bisf_count) s.(sflags) s.(exit) s.(has_error) s.(status_code) s.(status_text) s.(status_param) s.(redirect_js) s.(already_js) s.(strace) s.(slog) s.(cfg).
Definition set_indir_store v (s : Shared) := mkShared s.(schema) v s.(bisf_count) s.(sflags) s.(exit) s.(has_error) s.(status_code) s.(status_text) s.(status_param) s.(redirect_js) s.(already_js) s.(strace) s.(slog) s.(cfg).
Definition set_bisf_count v (s : Shared) := mkShared s.(schema) s.(indir_store) v s.(sflags) s.(exit) s.(has_error) s.(status_code) s.(status_text) s.(status_param) s.(redirect_js) s.(already_js) s.(strace) (SBif :: s.(slog)) s.(cfg).
Definition set_sflags v (s : Shared) := mkShared s.(schema) s.(indir_store) s.(bisf_count) v s.(exit) s.(has_error) s.(status_code) s.(status_text) s.(status_param) s.(redirect_js) s.(already_js) s.(strace) s.(slog) s.(cfg).
Definition set_exit v (s : Shared) := mkShared s.(schema) s.(indir_store) s.(bisf_count) s.(sflags) v s.(has_error) s.(status_code) s.(status_text) s.(status_param) s.(redirect_js) s.(already_js) s.(strace) (SExit v :: s.(slog)) s.(cfg).
Definition set_has_error v (s : Shared) := mkShared s.(schema) s.(indir_store) s.(bisf_count) s.(sflags) s.(exit) v s.(status_code) s.(status_text) s.(status_param) s.(redirect_js) s.(already_js) s.(strace) s.(slog) s.(cfg).
Definition set_status c t p (s : Shared) := mkShared s.(schema) s.(indir_store) s.(bisf_count) s.(sflags) s.(exit) s.(has_error) c t p s.(redirect_js) s.(already_js) s.(strace) s.(slog) s.(cfg).
Definition set_redirect_js v (s : Shared) := mkShared s.(schema) s.(indir_store) s.(bisf_count) s.(sflags) s.(exit) s.(has_error) s.(status_code) s.(status_text) s.(status_param) v s.(already_js) s.(strace) s.(slog) s.(cfg).
Definition set_already_js v (s : Shared) := mkShared s.(schema) s.(indir_store) s.(bisf_count) s.(sflags) s.(exit) s.(has_error) s.(status_code) s.(status_text) s.(status_param) s.(redirect_js) v s.(strace) s.(slog) s.(cfg).
Definition add_event e (s : Shared) := mkShared s.(schema) s.(indir_store) s.(bisf_count) s.(sflags) s.(exit) s.(has_error) s.(status_code) s.(status_text) s.(status_param) s.(redirect_js) s.(already_js) (e :: s.(strace)) s.(slog) s.(cfg).

(** Reasons for a panic. *)
Inductive panic :=
| PBifLimit          (* bif/mod.rs 91: more than infinite_loop_max_bifs bifs *)
| PBifName           (* bif/mod.rs 253: slicing inside a multi-byte char of the bif name *)
| PShow              (* bif/mod.rs 134, 206: config.error.show is not a bool *)
| PIndex             (* IndexMut on a value that is neither an object nor null *)
| PRemoveComments    (* utils.rs 523, 529, 535: index out of bounds *)
| PCanonicalize      (* parse_bif_include.rs 55, data 79, locale 79: unwrap of canonicalize *)
| PObjTemplate       (* parse_bif_obj.rs 208: template is not a string *)
| PCountOverflow     (* parse_bif_count.rs 50: i32 overflow (wraps without overflow checks) *)
| PExpireOverflow    (* parse_bif_cache.rs 183: u64 overflow (wraps without overflow checks) *)
| PDate              (* parse_bif_date.rs 33: chrono rejects the format, to_string panics *)
| PHashSlice         (* parse_bif_cache.rs 216: file[0..3] *)
| PConfig            (* shared.rs 38, 51: config value is not a u64 *)
| PVersion           (* utils.rs 114, 145: a["version"] on a non-object *)
| PMoveto.           (* template.rs 535: unwrap of as_str *)

(** ** BlockInherit (block_parser.rs 4-18) *)
Record Inherit := mkInherit {
  indir : bytes; last_bif_out : bool; last_coalesce_out : bool; block_count : N; bif_count : N;
  ialias : bytes; current_file : bytes; current_dir : bytes; include_files : list bytes;
  locale_files : list bytes; data_files : list bytes; in_cache : bool; in_only : bool }.

(** BlockInherit::new (block_parser.rs 41-57) *)
Definition inherit_new : Inherit :=
  mkInherit (B "block_0") false false 0 0 [] [] [] [] [] [] false false.

Definition iset_indir v i := mkInherit v i.(last_bif_out) i.(last_coalesce_out) i.(block_count) i.(bif_count) i.(ialias) i.(current_file) i.(current_dir) i.(include_files) i.(locale_files) i.(data_files) i.(in_cache) i.(in_only).
Definition iset_last v i := mkInherit i.(indir) v v i.(block_count) i.(bif_count) i.(ialias) i.(current_file) i.(current_dir) i.(include_files) i.(locale_files) i.(data_files) i.(in_cache) i.(in_only).
Definition iset_coalesce v i := mkInherit i.(indir) i.(last_bif_out) v i.(block_count) i.(bif_count) i.(ialias) i.(current_file) i.(current_dir) i.(include_files) i.(locale_files) i.(data_files) i.(in_cache) i.(in_only).
Definition iset_block_count v i := mkInherit i.(indir) i.(last_bif_out) i.(last_coalesce_out) v i.(bif_count) i.(ialias) i.(current_file) i.(current_dir) i.(include_files) i.(locale_files) i.(data_files) i.(in_cache) i.(in_only).
Definition iset_bif_count v i := mkInherit i.(indir) i.(last_bif_out) i.(last_coalesce_out) i.(block_count) v i.(ialias) i.(current_file) i.(current_dir) i.(include_files) i.(locale_files) i.(data_files) i.(in_cache) i.(in_only).
Definition iset_alias v i := mkInherit i.(indir) i.(last_bif_out) i.(last_coalesce_out) i.(block_count) i.(bif_count) v i.(current_file) i.(current_dir) i.(include_files) i.(locale_files) i.(data_files) i.(in_cache) i.(in_only).
Definition iset_current_file v i := mkInherit i.(indir) i.(last_bif_out) i.(last_coalesce_out) i.(block_count) i.(bif_count) i.(ialias) v i.(current_dir) i.(include_files) i.(locale_files) i.(data_files) i.(in_cache) i.(in_only).
Definition iset_current_dir v i := mkInherit i.(indir) i.(last_bif_out) i.(last_coalesce_out) i.(block_count) i.(bif_count) i.(ialias) i.(current_file) v i.(include_files) i.(locale_files) i.(data_files) i.(in_cache) i.(in_only).
Definition iset_include_files v i := mkInherit i.(indir) i.(last_bif_out) i.(last_coalesce_out) i.(block_count) i.(bif_count) i.(ialias) i.(current_file) i.(current_dir) v i.(locale_files) i.(data_files) i.(in_cache) i.(in_only).
Definition iset_locale_files v i := mkInherit i.(indir) i.(last_bif_out) i.(last_coalesce_out) i.(block_count) i.(bif_count) i.(ialias) i.(current_file) i.(current_dir) i.(include_files) v i.(data_files) i.(in_cache) i.(in_only).
Definition iset_data_files v i := mkInherit i.(indir) i.(last_bif_out) i.(last_coalesce_out) i.(block_count) i.(bif_count) i.(ialias) i.(current_file) i.(current_dir) i.(include_files) i.(locale_files) v i.(in_cache) i.(in_only).
Definition iset_in_cache v i := mkInherit i.(indir) i.(last_bif_out) i.(last_coalesce_out) i.(block_count) i.(bif_count) i.(ialias) i.(current_file) i.(current_dir) i.(include_files) i.(locale_files) i.(data_files) v i.(in_only).
Definition iset_in_only v i := mkInherit i.(indir) i.(last_bif_out) i.(last_coalesce_out) i.(block_count) i.(bif_count) i.(ialias) i.(current_file) i.(current_dir) i.(include_files) i.(locale_files) i.(data_files) i.(in_cache) v.

(** [format!("block_{}", n)] *)
Definition block_id (n : N) : bytes := B "block_" ++ dec_N n.

(** Shared::get_indir (shared.rs 93-99) *)
Definition get_indir (s : Shared) (k : bytes) : json :=
  match oget k s.(indir_store) with Some v => v | None => JNull end.

(** Shared::get_indir_mut (shared.rs 102-107) followed by an update of the place. *)
Definition upd_indir (k : bytes) (f : json -> option json) (s : Shared) : option Shared :=
  let v := match oget k s.(indir_store) with Some v => v | None => JObj [] end in
  match f v with
  | Some v' => Some (set_indir_store (oset k v' s.(indir_store)) s)
  | None => None
  end.

(** HashMap::remove *)
Definition oremove (k : bytes) (m : obj) : obj := filter (fun kv => negb (beq k (fst kv))) m.

(** BlockInherit::create_block_schema (block_parser.rs 64-88) *)
Definition create_block_schema (s : Shared) (i : Inherit) : Shared * Inherit :=
  let prev := i.(indir) in
  let id := if (i.(block_count) <? 1)%N then B "block_1" else block_id i.(block_count) in
  let s := if beq prev id then s
           else match oget prev s.(indir_store) with
                | Some v => set_indir_store (oset id v s.(indir_store)) s
                | None => s
                end in
  (s, iset_indir id i).

(** BlockParser::update_indir (block_parser.rs 122-127) *)
Definition update_indir (s : Shared) (child_indir target : bytes) : Shared :=
  match oget child_indir s.(indir_store) with
  | Some v => set_indir_store (oset target v s.(indir_store)) s
  | None => s
  end.

(** Drop for BlockParser (block_parser.rs 98-108) *)
Definition drop_block (s : Shared) (i : Inherit) : Shared :=
  let id := block_id i.(block_count) in
  if negb (beq id (B "block_1")) && beq id i.(indir)
  then set_indir_store (oremove id s.(indir_store)) s
  else s.

(** STATUS_CODES.get(code), or the empty string (block_parser.rs 146-150, parse_bif_exit.rs
    49-53, parse_bif_redirect.rs 130-134). *)
Fixpoint assoc (k : bytes) (l : list (bytes * bytes)) : option bytes :=
  match l with
  | [] => None
  | (k', v) :: r => if beq k k' then Some v else assoc k r
  end.
Definition status_text_of (code : bytes) : bytes :=
  match assoc code STATUS_CODES with Some t => t | None => [] end.

(** BlockParser::handle_unmatched_block (block_parser.rs 141-151); eprintln is not modelled. *)
Definition handle_unmatched (p : nat) (s : Shared) : Shared :=
  set_status (B "500") (status_text_of (B "500"))
             (B "Unmatched block at position " ++ dec_nat p) s.

(** ** Bif (bif/mod.rs 59-78) and BifError (bif/mod.rs 52-57) *)
Record Bif := mkBif {
  raw : bytes; src : bytes; name : bytes; alias : bytes; code : bytes; params : bytes;
  bflags : bytes; mod_filter : bool; mod_negate : bool; mod_upline : bool; mod_scope : bool;
  file_path : bytes; dir : bytes; out : bytes; only : bytes }.

Record BifError := mkErr { er_msg : bytes; er_file : bytes; er_name : bytes; er_src : bytes }.

(** Bif::new, the fields (bif/mod.rs 98-117) *)
Definition bif_init (raw only : bytes) : Bif :=
  mkBif raw [] [] [] [] [] [] false false false false [] [] [] only.

Definition bset_src v b := mkBif b.(raw) v b.(name) b.(alias) b.(code) b.(params) b.(bflags) b.(mod_filter) b.(mod_negate) b.(mod_upline) b.(mod_scope) b.(file_path) b.(dir) b.(out) b.(only).
Definition bset_name v b := mkBif b.(raw) b.(src) v b.(alias) b.(code) b.(params) b.(bflags) b.(mod_filter) b.(mod_negate) b.(mod_upline) b.(mod_scope) b.(file_path) b.(dir) b.(out) b.(only).
Definition bset_alias v b := mkBif b.(raw) b.(src) b.(name) v b.(code) b.(params) b.(bflags) b.(mod_filter) b.(mod_negate) b.(mod_upline) b.(mod_scope) b.(file_path) b.(dir) b.(out) b.(only).
Definition bset_code v b := mkBif b.(raw) b.(src) b.(name) b.(alias) v b.(params) b.(bflags) b.(mod_filter) b.(mod_negate) b.(mod_upline) b.(mod_scope) b.(file_path) b.(dir) b.(out) b.(only).
Definition bset_params v b := mkBif b.(raw) b.(src) b.(name) b.(alias) b.(code) v b.(bflags) b.(mod_filter) b.(mod_negate) b.(mod_upline) b.(mod_scope) b.(file_path) b.(dir) b.(out) b.(only).
Definition bset_flags v b := mkBif b.(raw) b.(src) b.(name) b.(alias) b.(code) b.(params) v b.(mod_filter) b.(mod_negate) b.(mod_upline) b.(mod_scope) b.(file_path) b.(dir) b.(out) b.(only).
Definition bset_mods f n u s b := mkBif b.(raw) b.(src) b.(name) b.(alias) b.(code) b.(params) b.(bflags) f n u s b.(file_path) b.(dir) b.(out) b.(only).
Definition bset_file_path v b := mkBif b.(raw) b.(src) b.(name) b.(alias) b.(code) b.(params) b.(bflags) b.(mod_filter) b.(mod_negate) b.(mod_upline) b.(mod_scope) v b.(dir) b.(out) b.(only).
Definition bset_dir v b := mkBif b.(raw) b.(src) b.(name) b.(alias) b.(code) b.(params) b.(bflags) b.(mod_filter) b.(mod_negate) b.(mod_upline) b.(mod_scope) b.(file_path) v b.(out) b.(only).
Definition bset_out v b := mkBif b.(raw) b.(src) b.(name) b.(alias) b.(code) b.(params) b.(bflags) b.(mod_filter) b.(mod_negate) b.(mod_upline) b.(mod_scope) b.(file_path) b.(dir) v b.(only).

(** ** The monad of the handlers: state, BifError, panic, and exhausted fuel *)
Record St := mkSt { sh : Shared; inh : Inherit; bf : Bif }.

Inductive Res (A : Type) :=
| Done (x : A) (s : St)
| Fail (e : BifError) (s : St)
| Panic (p : panic)
| NoFuel.
Arguments Done {A}. Arguments Fail {A}. Arguments Panic {A}. Arguments NoFuel {A}.

Definition M (A : Type) := St -> Res A.
Definition ret {A} (x : A) : M A := fun s => Done x s.
Definition bind {A C} (m : M A) (k : A -> M C) : M C :=
  fun s => match m s with
           | Done x s' => k x s'
           | Fail e s' => Fail e s'
           | Panic p => Panic p
           | NoFuel => NoFuel
           end.
Notation "x <- m ;; k" := (bind m (fun x => k)) (at level 61, m at next level, right associativity).
Notation "m ;;; k" := (bind m (fun _ => k)) (at level 61, right associativity).

Definition getB : M Bif := fun s => Done s.(bf) s.
Definition getI : M Inherit := fun s => Done s.(inh) s.
Definition getS : M Shared := fun s => Done s.(sh) s.
Definition modB (f : Bif -> Bif) : M unit := fun s => Done tt (mkSt s.(sh) s.(inh) (f s.(bf))).
Definition modI (f : Inherit -> Inherit) : M unit := fun s => Done tt (mkSt s.(sh) (f s.(inh)) s.(bf)).
Definition modS (f : Shared -> Shared) : M unit := fun s => Done tt (mkSt (f s.(sh)) s.(inh) s.(bf)).
Definition panicM {A} (p : panic) : M A := fun _ => Panic p.

(** Bif::bif_error (bif/mod.rs 422-429) and [return Err(self.bif_error(msg))] *)
Definition err {A} (msg : bytes) : M A := fun s =>
  Fail (mkErr msg s.(inh).(current_file) s.(bf).(alias) s.(bf).(raw)) s.

(** Result of parsing a block: output, shared state, and the block's own inherit. *)
Inductive BRes :=
| BOk (o : bytes) (s : Shared) (i : Inherit)
| BPanic (p : panic)
| BNoFuel.

(** ** Oracle calls: ask, log, return *)
Section Oracles.
  Variable env : Env.
  Definition ask {A} (q : trace -> A) (ev : A -> event) : M A := fun s =>
    let a := q s.(sh).(strace) in
    Done a (mkSt (add_event (ev a) s.(sh)) s.(inh) s.(bf)).
  Definition ask_exists p := ask (fun t => env.(e_exists) t p) (EvExists p).
  Definition ask_is_file p := ask (fun t => env.(e_is_file) t p) (EvIsFile p).
  Definition ask_canon p := ask (fun t => env.(e_canon) t p) (EvCanon p).
  Definition ask_read p := ask (fun t => env.(e_read) t p) (EvRead p).
  Definition ask_mkdir p := ask (fun t => env.(e_mkdir) t p) (EvMkdir p).
  Definition ask_create p := ask (fun t => env.(e_create) t p) (EvCreate p).
  Definition ask_write p c := ask (fun t => env.(e_write) t p c) (EvWrite p c).
  Definition ask_mtime p := ask (fun t => env.(e_mtime) t p) (EvMtime p).
  Definition ask_age p := ask (fun t => env.(e_age) t p) (EvAge p).
  Definition ask_now := ask (fun t => env.(e_now) t) EvNow.
  Definition ask_rand lo hi := ask (fun t => env.(e_rand) t lo hi) (EvRand lo hi).
  Definition ask_rand_bytes := ask (fun t => env.(e_rand_bytes) t) EvRandBytes.
  Definition ask_python a := ask (fun t => env.(e_python) t a) (EvPython a).
  Definition ask_php a := ask (fun t => env.(e_php) t a) (EvPhp a).
End Oracles.
