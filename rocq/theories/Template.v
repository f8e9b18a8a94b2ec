(** * Model of /repo/src/template.rs and of Shared::new (/repo/src/shared.rs) *)

From Verif Require Import Bytes Json Utils ConstantsGen State Engine.

(** Shared::new (shared.rs 37-90).  [None]: one of the two [as_u64().unwrap()] panics.  The
    ghost trace of interactions [t] continues. *)
Definition shared_new (env : Env) (t : trace) (sc : json) : option Shared :=
  let conf := idx sc (B "config") in
  match as_u64 (idx conf (B "infinite_loop_max_bifs")), as_u64 (idx conf (B "debug_expire")) with
  | Some max, Some dexp =>
      let cdir := get_from_key conf (B "cache_dir") in
      let cdis := is_bool_key conf (B "cache_disable") in
      Some (mkShared sc [] 0 [] false false (B "200") (B "OK") [] [] false t []
              (mkCfg (get_from_key (idx (idx sc (B "inherit")) (B "locale")) (B "current"))
                     (get_from_key conf (B "comments")) max
                     (is_bool_key conf (B "filter_all")) (negb cdis)
                     (get_from_key conf (B "cache_prefix"))
                     (if is_empty cdir then env.(e_tmp) else cdir)
                     (is_bool_key conf (B "cache_on_post")) (is_bool_key conf (B "cache_on_get"))
                     (is_bool_key conf (B "cache_on_cookies")) cdis
                     (is_bool_key conf (B "disable_js")) dexp
                     (get_from_key conf (B "debug_file")) env.(e_cwd)))
  | _, _ => None
  end.

(** Template (template.rs 13-21); time_start and time_elapsed are not modelled. *)
Record Template := mkTemplate {
  t_raw : bytes; t_path : bytes; t_schema : json; t_shared : Shared; t_out : bytes }.

Definition tset_raw v t := mkTemplate v t.(t_path) t.(t_schema) t.(t_shared) t.(t_out).
Definition tset_path v t := mkTemplate t.(t_raw) v t.(t_schema) t.(t_shared) t.(t_out).
Definition tset_schema v t := mkTemplate t.(t_raw) t.(t_path) v t.(t_shared) t.(t_out).
Definition tset_shared v t := mkTemplate t.(t_raw) t.(t_path) t.(t_schema) v t.(t_out).
Definition tset_out v t := mkTemplate t.(t_raw) t.(t_path) t.(t_schema) t.(t_shared) v.

(** Result of an API call: a value and the new template, a panic, or (for render only) the cache
    loop has not ended within the given number of rounds. *)
Inductive TRes (A : Type) :=
| TOk (x : A) (t : Template)
| TPanic (p : panic)
| TLoop.
Arguments TOk {A}. Arguments TPanic {A}. Arguments TLoop {A}.

(** Template::new (template.rs 40-53) *)
Definition template_new (env : Env) : TRes unit :=
  match shared_new env [] DEFAULT_SCHEMA with
  | Some s => TOk tt (mkTemplate [] [] DEFAULT_SCHEMA s [])
  | None => TPanic PConfig
  end.

(** Reading a file through the environment; [inr] is the error text. *)
Definition read_file (env : Env) (p : bytes) (s : Shared) : (bytes + bytes) * Shared :=
  match env.(e_read) s.(strace) p with
  | Some c => (inl c, add_event (EvRead p (Some c)) s)
  | None => (inr (env.(e_read_err) s.(strace) p), add_event (EvRead p None) s)
  end.

(** Template::from_file_value (template.rs 66-90): the result is the template or an error text. *)
Definition from_file_value (env : Env) (p : bytes) (sc : json) : TRes (option bytes) :=
  match shared_new env [] DEFAULT_SCHEMA with
  | None => TPanic PConfig
  | Some s =>
      match read_file env p s with
      | (inr e, s) => TOk (Some e) (mkTemplate [] p DEFAULT_SCHEMA s [])
      | (inl c, s) =>
          match update_schema_owned DEFAULT_SCHEMA sc with
          | Some sc' => TOk None (mkTemplate c p sc' s [])
          | None => TPanic PVersion
          end
      end
  end.

(** Template::set_src_path (template.rs 101-112): file_path is assigned even when reading fails. *)
Definition set_src_path (env : Env) (p : bytes) (t : Template) : TRes (option bytes) :=
  let t := tset_path p t in
  match read_file env p t.(t_shared) with
  | (inl c, s) => TOk None (tset_raw c (tset_shared s t))
  | (inr e, s) => TOk (Some e) (tset_shared s t)
  end.

(** Template::set_src_str (template.rs 119-121) *)
Definition set_src_str (c : bytes) (t : Template) : Template := tset_raw c t.

(** Template::merge_schema_value (template.rs 180-182) *)
Definition merge_schema_value (sc : json) (t : Template) : TRes unit :=
  match update_schema_owned t.(t_schema) sc with
  | Some sc' => TOk tt (tset_schema sc' t)
  | None => TPanic PVersion
  end.

(** Template::merge_schema_str (template.rs 163-173) *)
Definition merge_schema_str (env : Env) (c : bytes) (t : Template) : TRes (option bytes) :=
  match env.(e_from_str) c with
  | inr _ => TOk (Some (B "Is not a valid JSON string")) t
  | inl sc => match merge_schema_value sc t with
              | TOk _ t => TOk None t
              | TPanic p => TPanic p
              | TLoop => TLoop
              end
  end.

(** Template::merge_schema_path (template.rs 134-151); serde_json::from_slice is the oracle
    e_from_str. *)
Definition merge_schema_path (env : Env) (p : bytes) (t : Template) : TRes (option bytes) :=
  match read_file env p t.(t_shared) with
  | (inr e, s) => TOk (Some e) (tset_shared s t)
  | (inl c, s) =>
      let t := tset_shared s t in
      match env.(e_from_str) c with
      | inr _ => TOk (Some (B "Is not a valid JSON file")) t
      | inl sc => match merge_schema_value sc t with
                  | TOk _ t => TOk None t
                  | TPanic p => TPanic p
                  | TLoop => TLoop
                  end
      end
  end.

(** Template::merge_schema_msgpack (template.rs 267-277); [dec] is rmp_serde::from_slice. *)
Definition merge_schema_msgpack (dec : bytes -> json + bytes) (c : bytes) (t : Template)
  : TRes (option bytes) :=
  match dec c with
  | inr e => TOk (Some (B "Is not a valid MessagePack data: " ++ e)) t
  | inl sc => match merge_schema_value sc t with
              | TOk _ t => TOk None t
              | TPanic p => TPanic p
              | TLoop => TLoop
              end
  end.

(** Template::merge_schema_msgpack_path (template.rs 236-246) *)
Definition merge_schema_msgpack_path (env : Env) (dec : bytes -> json + bytes) (p : bytes) (t : Template)
  : TRes (option bytes) :=
  match read_file env p t.(t_shared) with
  | (inr e, s) => TOk (Some e) (tset_shared s t)
  | (inl c, s) => merge_schema_msgpack dec c (tset_shared s t)
  end.

(** Template::from_file_msgpack (template.rs 204-215) *)
Definition from_file_msgpack (env : Env) (dec : bytes -> json + bytes) (p c : bytes)
  : TRes (option bytes) :=
  if is_empty c then from_file_value env p (JObj [])
  else match dec c with
       | inl sc => from_file_value env p sc
       | inr e =>
           match shared_new env [] DEFAULT_SCHEMA with
           | Some s => TOk (Some (B "Invalid MessagePack data: " ++ e)) (mkTemplate [] p DEFAULT_SCHEMA s [])
           | None => TPanic PConfig
           end
       end.

(** Result of the initialisation of a render: the new source, the initial shared state and the
    initial inherit. *)
Inductive InitRes :=
| IOk (raw : bytes) (s : Shared) (i : Inherit)
| IPanic (p : panic).

(** filter_value, then filter_value_keys, on the place schema["data"]["CONTEXT"]
    (template.rs 414-417, 457-460) *)
Definition filter_context (sc : json) : option json :=
  match upd (B "data") (upd (B "CONTEXT") (fun v => Some (filter_value v))) sc with
  | Some sc => upd (B "data") (upd (B "CONTEXT") (fun v => Some (filter_value_keys v))) sc
  | None => None
  end.

(** init_render (template.rs 395-433); the warning about debug_file is not modelled. *)
Definition init_render (env : Env) (t : Template) : InitRes :=
  match shared_new env t.(t_shared).(strace) t.(t_schema) with
  | None => IPanic PConfig
  | Some s =>
      match (if contains (B "remove") s.(cfg).(comments) then remove_comments t.(t_raw)
             else Some t.(t_raw)) with
      | None => IPanic PRemoveComments
      | Some raw =>
          let '(s, i) := create_block_schema s inherit_new in
          match put (B "__moveto") (JObj []) s.(schema) with
          | None => IPanic PIndex
          | Some sc =>
              match put (B "__error") (JArr []) sc with
              | None => IPanic PIndex
              | Some sc =>
                  let s := set_indir_store [(i.(indir), idx sc (B "inherit"))] s in
                  let i := iset_current_file t.(t_path) i in
                  match filter_context sc with
                  | None => IPanic PIndex
                  | Some sc =>
                      let s := set_schema sc s in
                      let i := if is_empty t.(t_path) then iset_current_dir s.(cfg).(working_dir) i
                               else match env.(e_parent) t.(t_path) with
                                    | Some d => iset_current_dir d i
                                    | None => i
                                    end in
                      IOk raw s i
                  end
              end
          end
      end
  end.

(** init_render_once (template.rs 436-476): the same text, except that the schema is taken out
    of the template ([mem::take] leaves null), see [render_once]. *)
Definition init_render_once (env : Env) (t : Template) : InitRes :=
  match shared_new env t.(t_shared).(strace) t.(t_schema) with
  | None => IPanic PConfig
  | Some s =>
      match (if contains (B "remove") s.(cfg).(comments) then remove_comments t.(t_raw)
             else Some t.(t_raw)) with
      | None => IPanic PRemoveComments
      | Some raw =>
          let '(s, i) := create_block_schema s inherit_new in
          match put (B "__moveto") (JObj []) s.(schema) with
          | None => IPanic PIndex
          | Some sc =>
              match put (B "__error") (JArr []) sc with
              | None => IPanic PIndex
              | Some sc =>
                  let s := set_indir_store [(i.(indir), idx sc (B "inherit"))] s in
                  let i := iset_current_file t.(t_path) i in
                  match filter_context sc with
                  | None => IPanic PIndex
                  | Some sc =>
                      let s := set_schema sc s in
                      let i := if is_empty t.(t_path) then iset_current_dir s.(cfg).(working_dir) i
                               else match env.(e_parent) t.(t_path) with
                                    | Some d => iset_current_dir d i
                                    | None => i
                                    end in
                      IOk raw s i
                  end
              end
          end
      end
  end.

(** BlockParser::new(&mut shared, inherit.clone()).parse(source, only), then the drop of the
    temporary (template.rs 298, 302) *)
Definition top_parse (env : Env) (s : Shared) (i : Inherit) (source only : bytes) : BRes :=
  let ci := iset_block_count (i.(block_count) + 1) i in
  match parse env s ci source only with
  | BOk o s' ci' => BOk o (drop_block s' ci') ci'
  | e => e
  end.

(** while self.out.contains("{:!cache;") (template.rs 300-304), at most [fuel] rounds *)
Definition CACHE_OPEN : bytes := B "{:!cache;".
Inductive Rounds :=
| ROk (o : bytes) (s : Shared)
| RPanic (p : panic)
| RLoop.
Fixpoint cache_rounds (env : Env) (fuel : nat) (s : Shared) (i : Inherit) (o : bytes) : Rounds :=
  if contains CACHE_OPEN o then
    match fuel with
    | O => RLoop
    | S n =>
        match top_parse env s i o (B "!cache") with
        | BOk o' s' _ => cache_rounds env n s' i o'
        | BPanic p => RPanic p
        | BNoFuel => RLoop
        end
    end
  else ROk o s.

(** The tag of a moveto (template.rs 523-530) *)
Definition moveto_tag (k : bytes) : bytes :=
  let tag := if starts_with (B "<") k then k else B "<" ++ k in
  if ends_with (B ">") tag then firstn (length tag - 1) tag else tag.

(** String::insert_str *)
Definition insert_str (o : bytes) (pos : nat) (t : bytes) : bytes := firstn pos o ++ t ++ skipn pos o.

(** one entry (template.rs 518-539); [None]: unwrap of as_str *)
Definition moveto_one (k : bytes) (v : json) (o : bytes) : option bytes :=
  match find_tag_position o (moveto_tag k) with
  | None => Some o
  | Some pos => match as_str v with
                | Some c => Some (insert_str o pos c)
                | None => None
                end
  end.
Fixpoint moveto_inner (m : obj) (o : bytes) : option bytes :=
  match m with
  | [] => Some o
  | (k, v) :: r => match moveto_one k v o with Some o => moveto_inner r o | None => None end
  end.
Fixpoint moveto_all (m : obj) (o : bytes) : option bytes :=
  match m with
  | [] => Some o
  | (_, v) :: r =>
      match (match v with JObj im => moveto_inner im o | _ => Some o end) with
      | Some o => moveto_all r o
      | None => None
      end
  end.

(** set_moveto (template.rs 514-543) *)
Definition set_moveto (s : Shared) (o : bytes) : option bytes :=
  match idx s.(schema) (B "__moveto") with
  | JObj m => moveto_all m o
  | _ => Some o
  end.

(** [Regex "\s*&#9224"].replace_all(out, "") (template.rs 545-553): white space is held back
    ([held], reversed) until it is known whether the marker follows; [k] skips the bytes of the
    current char or marker.  The regex \s is the Unicode White_Space class, as in [ws1..ws3]. *)
Fixpoint backspace_go (k : nat) (held : bytes) (s : bytes) : bytes :=
  match s with
  | [] => rev held
  | a :: r =>
      match k with
      | S k' => backspace_go k' (match held with [] => [] | _ => a :: held end) r
      | O =>
          if starts_with BACKSPACE s then backspace_go (length BACKSPACE - 1) [] r
          else if ws1 a then backspace_go 0 (a :: held) r
          else if match r with b :: _ => ws2 a b | _ => false end
               then backspace_go 1 (a :: held) r
          else if match r with b :: c :: _ => ws3 a b c | _ => false end
               then backspace_go 2 (a :: held) r
          else rev held ++ a :: backspace_go 0 [] r
      end
  end.

(** replacements (template.rs 545-559) *)
Definition replacements (o : bytes) : bytes :=
  let o := if contains BACKSPACE o then backspace_go 0 [] o else o in
  if contains UNPRINTABLE o then replace UNPRINTABLE [] o else o.

(** set_status_code (template.rs 486-512) *)
Definition set_status_code (s : Shared) (o : bytes) : bytes :=
  let c := s.(status_code) in
  if ble (B "400") c && ble c (B "599") then c ++ B " " ++ s.(status_text)
  else if beq c (B "301") || beq c (B "302") || beq c (B "303") || beq c (B "307") || beq c (B "308")
  then c ++ B " " ++ s.(status_text) ++ [ascii_of_N 10] ++ s.(status_param)
  else if negb (is_empty s.(redirect_js)) then s.(redirect_js)
  else o.

(** ends_render (template.rs 479-484) *)
Definition ends_render (s : Shared) (o : bytes) : option bytes :=
  match set_moveto s o with
  | Some o => Some (set_status_code s (replacements o))
  | None => None
  end.

(** render (template.rs 287-309), the cache loop limited to [fuel] rounds *)
Definition render (env : Env) (fuel : nat) (t : Template) : TRes bytes :=
  if negb (contains BIF_OPEN t.(t_raw)) then
    let o := trim t.(t_raw) in TOk o (tset_out o t)
  else
    match init_render env t with
    | IPanic p => TPanic p
    | IOk raw s i =>
        match top_parse env s i raw [] with
        | BPanic p => TPanic p
        | BNoFuel => TLoop
        | BOk o s _ =>
            match cache_rounds env fuel s i o with
            | RPanic p => TPanic p
            | RLoop => TLoop
            | ROk o s =>
                match ends_render s o with
                | None => TPanic PMoveto
                | Some o => TOk o (mkTemplate raw t.(t_path) t.(t_schema) s o)
                end
            end
        end
    end.

(** render_once (template.rs 371-392); the schema has been taken out of the template
    (template.rs 439) *)
Definition render_once (env : Env) (fuel : nat) (t : Template) : TRes bytes :=
  if negb (contains BIF_OPEN t.(t_raw)) then
    let o := trim t.(t_raw) in TOk o (tset_out o t)
  else
    match init_render_once env t with
    | IPanic p => TPanic p
    | IOk raw s i =>
        match top_parse env s i raw [] with
        | BPanic p => TPanic p
        | BNoFuel => TLoop
        | BOk o s _ =>
            match cache_rounds env fuel s i o with
            | RPanic p => TPanic p
            | RLoop => TLoop
            | ROk o s =>
                match ends_render s o with
                | None => TPanic PMoveto
                | Some o => TOk o (mkTemplate raw t.(t_path) JNull s o)
                end
            end
        end
    end.

(** get_status_code, get_status_text, get_status_param, has_error, get_error
    (template.rs 570-616) *)
Definition get_status_code t := t.(t_shared).(status_code).
Definition get_status_text t := t.(t_shared).(status_text).
Definition get_status_param t := t.(t_shared).(status_param).
Definition get_has_error t := t.(t_shared).(has_error).
Definition get_error t := idx t.(t_shared).(schema) (B "__error").
