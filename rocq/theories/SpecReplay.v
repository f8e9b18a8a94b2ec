(** * Vocabulary: the same program in another world, or with a larger bif limit *)

From Verif Require Import Bytes Json Utils ConstantsGen State Engine Template.

(** The machine [env] (its hash functions, JSON reader and writer, ...) in the world [w] (its files, clock, random numbers
    and scripts). *)
Definition in_world (env w : Env) : Env :=
  mkEnv env.(e_md5) env.(e_sha256) env.(e_lower) env.(e_from_str) env.(e_to_string) env.(e_to_pretty) env.(e_fadd)
        env.(e_parent) env.(e_date) env.(e_cwd) env.(e_tmp)
        w.(e_exists) w.(e_is_file) w.(e_canon) w.(e_read) w.(e_read_err) w.(e_mkdir) w.(e_create) w.(e_write)
        w.(e_mtime) w.(e_age) w.(e_now) w.(e_local_now) w.(e_rand) w.(e_rand_bytes) w.(e_python) w.(e_php).

(** Asked after the history [t] what was asked in the interaction [e], the world [w] answers what [e] records.  The text of
    a read error is not recorded, it must be that of [env]. *)
Definition answers (env w : Env) (e : event) (t : trace) : Prop :=
  match e with
  | EvExists p r => w.(e_exists) t p = r
  | EvIsFile p r => w.(e_is_file) t p = r
  | EvCanon p r => w.(e_canon) t p = r
  | EvRead p r => w.(e_read) t p = r /\ (r = None -> w.(e_read_err) t p = env.(e_read_err) t p)
  | EvMkdir p r => w.(e_mkdir) t p = r
  | EvCreate p r => w.(e_create) t p = r
  | EvWrite p c r => w.(e_write) t p c = r
  | EvMtime p r => w.(e_mtime) t p = r
  | EvAge p r => w.(e_age) t p = r
  | EvNow n => w.(e_now) t = n
  | EvLocalNow x => w.(e_local_now) t = x
  | EvRand lo hi r => w.(e_rand) t lo hi = r
  | EvRandBytes r => w.(e_rand_bytes) t = r
  | EvPython a r => w.(e_python) t a = r
  | EvPhp a r => w.(e_php) t a = r
  end.

(** [w] answers as recorded all the interactions [new] (newest first) that follow the history [t]. *)
Definition replays (env w : Env) (new t : trace) : Prop :=
  forall later e before, new = later ++ e :: before -> answers env w e (before ++ t).

(** the state [s] with a limit of [k] more bifs *)
Definition raise_cfg (k : N) (c : Cfg) : Cfg :=
  mkCfg c.(lang) c.(comments) (c.(bisf_max) + k) c.(filter_all) c.(filter_bifs) c.(cache_prefix) c.(cache_dir) c.(cache_on_post)
        c.(cache_on_get) c.(cache_on_cookies) c.(cache_disable) c.(disable_js) c.(debug_expire) c.(debug_file) c.(working_dir).
Definition raised (k : N) (s : Shared) : Shared :=
  mkShared s.(schema) s.(indir_store) s.(bisf_count) s.(sflags) s.(exit) s.(has_error) s.(status_code) s.(status_text)
           s.(status_param) s.(redirect_js) s.(already_js) s.(strace) s.(slog) (raise_cfg k s.(cfg)).

(** the file or directory that an interaction is about *)
Definition path_of (e : event) : option bytes :=
  match e with
  | EvExists p _ | EvIsFile p _ | EvCanon p _ | EvRead p _ | EvMkdir p _ | EvCreate p _ | EvWrite p _ _ | EvMtime p _ | EvAge p _ => Some p
  | _ => None
  end.
(** The worlds [env] and [w] differ only in the files of the set [U]. *)
Record differ_at (U : bytes -> Prop) (env w : Env) : Prop := {
  da_exists : forall t p, ~ U p -> w.(e_exists) t p = env.(e_exists) t p;
  da_is_file : forall t p, ~ U p -> w.(e_is_file) t p = env.(e_is_file) t p;
  da_canon : forall t p, ~ U p -> w.(e_canon) t p = env.(e_canon) t p;
  da_read : forall t p, ~ U p -> w.(e_read) t p = env.(e_read) t p;
  da_read_err : forall t p, ~ U p -> w.(e_read_err) t p = env.(e_read_err) t p;
  da_mkdir : forall t p, ~ U p -> w.(e_mkdir) t p = env.(e_mkdir) t p;
  da_create : forall t p, ~ U p -> w.(e_create) t p = env.(e_create) t p;
  da_write : forall t p c, ~ U p -> w.(e_write) t p c = env.(e_write) t p c;
  da_mtime : forall t p, ~ U p -> w.(e_mtime) t p = env.(e_mtime) t p;
  da_age : forall t p, ~ U p -> w.(e_age) t p = env.(e_age) t p;
  da_now : forall t, w.(e_now) t = env.(e_now) t;
  da_local_now : forall t, w.(e_local_now) t = env.(e_local_now) t;
  da_rand : forall t a b, w.(e_rand) t a b = env.(e_rand) t a b;
  da_rand_bytes : forall t, w.(e_rand_bytes) t = env.(e_rand_bytes) t;
  da_python : forall t a, w.(e_python) t a = env.(e_python) t a;
  da_php : forall t a, w.(e_php) t a = env.(e_php) t a }.
