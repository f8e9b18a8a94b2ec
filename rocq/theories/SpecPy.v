(** * Specification vocabulary for the calls of Python scripts (C82 - C84) *)

From Verif Require Import Bytes Json State PyExec.

(** the actions of a call, newest first: [p'] is the process afterwards *)
Definition new_acts (p p' : Process) (l : list pyact) : Prop := p'.(r_acts) = l ++ p.(r_acts).

(** the body of a module is run *)
Definition is_load (e : pyact) : Prop := match e with PLoad _ _ => True | PCall _ _ _ _ _ => False end.

(** What becomes of the answer [res] of the callback [cb], which left the interpreter [it]: the value of the text that json.dumps gives for
    it.  An exception, an object that has no text, a text that is not JSON (NaN) and a missing module json are errors of the call. *)
Definition call_error (cb e : bytes) : bytes := B "Error executing callback function '" ++ cb ++ B "': " ++ e.
Inductive gives_back (y : Python) (cb : bytes) (it : Interp) : y.(y_obj) + bytes -> json + bytes -> Prop :=
| gb_value o t v : y.(y_dumps) o = inl t -> y.(y_from_str) t = inl v -> gives_back y cb it (inl o) (inl v)
| gb_raised e : gives_back y cb it (inr e) (inr (call_error cb e))
| gb_no_text o e : y.(y_dumps) o = inr e -> gives_back y cb it (inl o) (inr (call_error cb e))
| gb_not_json o t e : y.(y_dumps) o = inl t -> y.(y_from_str) t = inr e ->
    gives_back y cb it (inl o) (inr (call_error cb (B "ValueError: Error parsing JSON: " ++ e)))
| gb_no_module o e : (forall m, alookup (B "json") it.(i_mods) <> Some m) -> gives_back y cb it (inl o) (inr (call_error cb e)).

(** one call of a script in the life of a process: [a] is asked for *)
Definition called (y : Python) (a : exec_args) (p p' : Process) : Prop := fst (exec_py y a p) = p'.
(** the life of a process: any number of calls; [steps] are all of them, with the process before and after *)
Inductive life (y : Python) : Process -> list (Process * exec_args * Process) -> Process -> Prop :=
| li_none p : life y p [] p
| li_call p a p1 l p2 : called y a p p1 -> life y p1 l p2 -> life y p ((p, a, p1) :: l) p2.

(** the module [name] is loaded, from the file [f] *)
Definition loaded_from (it : Interp) (name f : bytes) : Prop := exists m, alookup name it.(i_mods) = Some m /\ m.(m_file) = f.
(** where the script [file] is *)
Definition script_dir (y : Python) (file : bytes) : bytes := match y.(y_parent) file with Some d => d | None => B "." end.
(** [f] is in the first of the directories that has a module [name] *)
Inductive first_found (y : Python) (t : list pyact) (name f : bytes) : list bytes -> Prop :=
| ff_here d l : y.(y_find) t d name = Some f -> first_found y t name f (d :: l)
| ff_later d l : y.(y_find) t d name = None -> first_found y t name f l -> first_found y t name f (d :: l).

(** Scripts that leave sys.path alone, and in sys.modules the entries of the names in [names] (they may import other modules). *)
Definition undisturbed (names : bytes -> Prop) (it it' : Interp) : Prop :=
  it'.(i_path) = it.(i_path) /\ forall n f, names n -> (loaded_from it' n f <-> loaded_from it n f).
Record tame (y : Python) (names : bytes -> Prop) : Prop := {
  ta_body : forall t it n f, undisturbed names it (fst (y.(y_body) t it n f));
  ta_call : forall t it m cb params, undisturbed names it (fst (y.(y_call) t it m cb params)) }.

(** The scripts called in a life, [calls], do not hide each other: the name of each is among [names], and
    no directory that sys.path may contain ([path], or that of another script) has another file for that name. *)
Record no_clash (y : Python) (names : bytes -> Prop) (path : bytes -> Prop) (calls : list exec_args) : Prop := {
  nc_name : forall a, In a calls -> exists n, y.(y_stem) a.(x_file) = Some n /\ names n;
  nc_own : forall a n d t g, In a calls -> y.(y_stem) a.(x_file) = Some n ->
    path d \/ (exists b, In b calls /\ d = script_dir y b.(x_file)) -> y.(y_find) t d n = Some g -> g = a.(x_file) }.
(** an interpreter in which none of them is loaded, with such a sys.path *)
Definition untouched (names : bytes -> Prop) (path : bytes -> Prop) (it : Interp) : Prop :=
  (forall d, In d it.(i_path) -> path d) /\ forall n f, names n -> ~ loaded_from it n f.

(** a virtual environment that can be used *)
Definition venv_ok (y : Python) (v : bytes) : Prop :=
  y.(y_exists) v = true /\ y.(y_exists) (v ++ B "/bin/python") = true /\ forall e, y.(y_info) (v ++ B "/bin/python") <> inr e.
Definition with_venv (v : option bytes) (a : exec_args) : exec_args :=
  mkExec a.(x_file) a.(x_params) a.(x_callback) a.(x_schema) a.(x_schema_data) v a.(x_fpm).
Definition variable (p : Process) (name : bytes) : option bytes := alookup name p.(r_vars).
