(** * Model of PythonExecutor::exec_py (/repo/src/bif/exec_python.rs): the embedded interpreter as state of the process *)

From Verif Require Import Bytes Json State.

(** A loaded Python module: the file it was loaded from and the attributes that hold JSON-like values.  Its functions are
    unspecified ([y_has], [y_call]). *)
Record pymod := mkMod { m_file : bytes; m_attrs : list (bytes * json) }.
(** sys.path and sys.modules *)
Record Interp := mkInterp { i_path : list bytes; i_mods : list (bytes * pymod) }.
(** what can be observed: the body of a module is run, a function of a module is called.  The last two arguments of a call are the
    attributes __NEUTRAL_SCHEMA__ and __NEUTRAL_SCHEMA_DATA__ of its module at that moment. *)
Inductive pyact :=
| PLoad (name file : bytes)
| PCall (file callback : bytes) (params : json) (schema data : option json).
(** the process: its environment variables, the interpreter ([None] before Python::initialize), what happened so far (newest first) *)
Record Process := mkProcess { r_vars : list (bytes * bytes); r_py : option Interp; r_acts : list pyact }.

(** What happens outside: each field is unspecified.  Module bodies and callbacks may change the interpreter as they like; the
    file system may change between two actions. *)
Record Python := mkPython {
  y_parent : bytes -> option bytes;                            (* Path::parent *)
  y_stem : bytes -> option bytes;                              (* Path::file_stem *)
  y_exists : bytes -> bool;                                    (* Path::exists *)
  y_info : bytes -> option bytes + bytes;                      (* sys.prefix and sys.path as the venv's python prints them; None: it failed; error text *)
  y_start : list (bytes * bytes) -> Interp;                    (* a new interpreter, given the environment variables *)
  y_find : list pyact -> bytes -> bytes -> option bytes;       (* the module of a name in a directory of sys.path *)
  y_body : list pyact -> Interp -> bytes -> bytes -> Interp * option bytes;  (* runs the body of a module: the text of the exception, if any *)
  y_has : pymod -> bytes -> bool;                              (* hasattr for functions *)
  y_obj : Type;                                                (* the objects of Python *)
  y_call : list pyact -> Interp -> pymod -> bytes -> json -> Interp * (y_obj + bytes);  (* calls it: what it returns, or the text of the exception *)
  y_dumps : y_obj -> bytes + bytes;                            (* json.dumps: the text of an object, or of the exception *)
  y_from_str : bytes -> json + bytes }.                        (* serde_json::from_str *)

Fixpoint alookup {A} (k : bytes) (l : list (bytes * A)) : option A :=
  match l with
  | [] => None
  | (k', v) :: l => if beq k k' then Some v else alookup k l
  end.
Fixpoint aremove {A} (k : bytes) (l : list (bytes * A)) : list (bytes * A) :=
  match l with
  | [] => []
  | (k', v) :: l => if beq k k' then aremove k l else (k', v) :: aremove k l
  end.
Definition aput {A} (k : bytes) (v : A) (l : list (bytes * A)) : list (bytes * A) := (k, v) :: aremove k l.

(** ** setup_venv (exec_python.rs 42-90), on Unix: the new environment variables and the message of the error, if any.  The output of the
    venv's python is taken as text. *)
Definition setup_venv (y : Python) (venv : bytes) (vars : list (bytes * bytes)) : list (bytes * bytes) * option bytes :=
  if negb (y.(y_exists) venv) then (vars, Some (B "Venv path '" ++ venv ++ B "' does not exist"))
  else
    let exe := venv ++ B "/bin/python" in
    if negb (y.(y_exists) exe) then (vars, Some (B "Python executable not found: " ++ exe))
    else
      let vars := aput (B "VIRTUAL_ENV") venv (aput (B "PYTHON_EXECUTABLE") exe vars) in
      match y.(y_info) exe with
      | inr e => (vars, Some (B "Failed to get Python path info: " ++ e))
      | inl None => (vars, None)
      | inl (Some out) =>
          match split (B (String "010"%char "")) (trim out) with
          | home :: path :: _ => (aput (B "PYTHONPATH") path (aput (B "PYTHONHOME") home vars), None)
          | _ => (vars, None)
          end
      end.

(** ** The interpreter: a state and error monad over sys.path, sys.modules and the actions *)
Definition Y (A : Type) : Type := Interp * list pyact -> (Interp * list pyact) * (A + bytes).
Definition yret {A} (a : A) : Y A := fun st => (st, inl a).
Definition yfail {A} (e : bytes) : Y A := fun st => (st, inr e).
Definition ybind {A C} (m : Y A) (f : A -> Y C) : Y C :=
  fun st => match m st with (st, inl a) => f a st | (st, inr e) => (st, inr e) end.

(** the first entry of sys.path that has the module *)
Fixpoint find_in (y : Python) (t : list pyact) (path : list bytes) (name : bytes) : option bytes :=
  match path with
  | [] => None
  | d :: path => match y.(y_find) t d name with Some f => Some f | None => find_in y t path name end
  end.

(** PyModule::import (Python's import statement): a module that was imported before is not loaded again; a new one is found
    along sys.path, is entered in sys.modules, then its body is run; if that fails, the entry is removed.  Names with a
    dot (packages) are left to [y_find]. *)
Definition import (y : Python) (name : bytes) : Y pymod :=
  fun '(it, t) =>
    match alookup name it.(i_mods) with
    | Some m => ((it, t), inl m)
    | None =>
        match find_in y t it.(i_path) name with
        | None => ((it, t), inr (B "ModuleNotFoundError: No module named '" ++ name ++ B "'"))
        | Some f =>
            let it1 := mkInterp it.(i_path) (aput name (mkMod f []) it.(i_mods)) in
            let t1 := PLoad name f :: t in
            match y.(y_body) t1 it1 name f with
            | (it2, Some e) => ((mkInterp it2.(i_path) (aremove name it2.(i_mods)), t1), inr e)
            | (it2, None) =>
                match alookup name it2.(i_mods) with
                | Some m => ((it2, t1), inl m)
                | None => ((it2, t1), inr (B "KeyError: '" ++ name ++ B "'"))
                end
            end
        end
    end.

(** prepare_python_params (exec_python.rs 92-101): json.loads of the printed value gives the value back (simplification); what can
    fail is the import of json *)
Definition prepare_python_params (y : Python) (v : json) : Y json :=
  ybind (import y (B "json")) (fun _ => yret v).

(** setup_python_path (exec_python.rs 103-116) *)
Definition setup_python_path (y : Python) (file : bytes) : Y unit :=
  fun '(it, t) =>
    let dir := match y.(y_parent) file with Some d => d | None => B "." end in
    ((mkInterp (it.(i_path) ++ [dir]) it.(i_mods), t), inl tt).

(** extract_module_name (exec_python.rs 162-172) *)
Definition extract_module_name (y : Python) (file : bytes) : Y bytes :=
  match y.(y_stem) file with
  | Some n => yret n
  | None => yfail (B "ValueError: Could not extract module name from file path")
  end.

(** setattr and delattr on a module object: [m] is the object, which is also the entry of sys.modules *)
Definition with_attrs (name : bytes) (m : pymod) (attrs : list (bytes * json)) : Y pymod :=
  fun '(it, t) => let m' := mkMod m.(m_file) attrs in ((mkInterp it.(i_path) (aput name m' it.(i_mods)), t), inl m').
(** one of the two blocks of execute_python_callback (exec_python.rs 130-147): the attribute of an earlier call is deleted, then
    the new one is set if there is one *)
Definition hand_over (y : Python) (name : bytes) (m : pymod) (attr : bytes) (v : option json) : Y pymod :=
  ybind (match alookup attr m.(m_attrs) with
         | Some _ => with_attrs name m (aremove attr m.(m_attrs))
         | None => yret m
         end) (fun m =>
  match v with
  | None => yret m
  | Some v => ybind (prepare_python_params y v) (fun v => with_attrs name m (aput attr v m.(m_attrs)))
  end).

(** convert_python_result_to_json (exec_python.rs 174-181) *)
Definition convert_result (y : Python) (o : y.(y_obj)) : Y json :=
  ybind (import y (B "json")) (fun _ =>
  match y.(y_dumps) o with
  | inr e => yfail e
  | inl t =>
      match y.(y_from_str) t with
      | inl v => yret v
      | inr e => yfail (B "ValueError: Error parsing JSON: " ++ e)
      end
  end).

(** the call itself (exec_python.rs 149-159) *)
Definition call_function (y : Python) (m : pymod) (callback : bytes) (params : json) : Y json :=
  fun '(it, t) =>
    if y.(y_has) m callback then
      let t1 := PCall m.(m_file) callback params (alookup (B "__NEUTRAL_SCHEMA__") m.(m_attrs))
                      (alookup (B "__NEUTRAL_SCHEMA_DATA__") m.(m_attrs)) :: t in
      match y.(y_call) t1 it m callback params with
      | (it2, inl o) => convert_result y o (it2, t1)
      | (it2, inr e) => ((it2, t1), inr e)
      end
    else ((it, t), inr (B "AttributeError: Module does not have function '" ++ callback ++ B "'")).

(** execute_python_callback (exec_python.rs 118-160) *)
Definition execute_python_callback (y : Python) (a : exec_args) (params : json) : Y json :=
  ybind (extract_module_name y a.(x_file)) (fun name =>
  ybind (import y name) (fun m =>
  ybind (hand_over y name m (B "__NEUTRAL_SCHEMA__") a.(x_schema)) (fun m =>
  ybind (hand_over y name m (B "__NEUTRAL_SCHEMA_DATA__") a.(x_schema_data)) (fun m =>
  call_function y m a.(x_callback) params)))).

(** the closure of Python::attach (exec_python.rs 28-32) *)
Definition attach (y : Python) (a : exec_args) : Y json :=
  ybind (prepare_python_params y a.(x_params)) (fun params =>
  ybind (setup_python_path y a.(x_file)) (fun _ => execute_python_callback y a params)).

(** exec_py (exec_python.rs 13-40): the process afterwards, and the answer or the message of the error *)
Definition exec_py (y : Python) (a : exec_args) (p : Process) : Process * (json + bytes) :=
  match (match a.(x_venv) with Some v => setup_venv y v p.(r_vars) | None => (p.(r_vars), None) end) with
  | (vars, Some e) => (mkProcess vars p.(r_py) p.(r_acts), inr e)
  | (vars, None) =>
      let it := match p.(r_py) with Some it => it | None => y.(y_start) vars end in
      match attach y a (it, p.(r_acts)) with
      | ((it, t), r) =>
          (mkProcess vars (Some it) t,
           match r with
           | inl v => inl v
           | inr e => inr (B "Error executing callback function '" ++ a.(x_callback) ++ B "': " ++ e)
           end)
      end
  end.
