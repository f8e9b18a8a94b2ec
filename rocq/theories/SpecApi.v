(** * What is expected of the settings (C101) and of histories of API calls (C102) *)

From Verif Require Import Bytes Json Utils ConstantsGen State Spec.

(** ** Settings *)

(** the value of the setting [name]: the member config.name of the schema *)
Definition setting (sc : json) (name : string) : option json := at_path [B "config"; B name] sc.

(** the text of a value: "" if there is none, or if it is null, an array or an object *)
Definition text_is (v : option json) (t : bytes) : Prop :=
  match v with
  | Some (JStr s) => t = s
  | Some (JNum n) => number_text n t
  | Some (JBool b) => t = if b then B "true" else B "false"
  | _ => t = []
  end.

(** a switch is on if its value is true in the sense of C21 *)
Definition switched_on (sc : json) (name : string) : Prop := exists v, setting sc name = Some v /\ truthy v.
Definition switch_is (sc : json) (name : string) (b : bool) : Prop := b = true <-> switched_on sc name.
Definition number_is (sc : json) (name : string) (n : N) : Prop := setting sc name = Some (JNum (NPos n)).

(** the two limits are natural numbers *)
Definition limits_set (sc : json) : Prop :=
  (exists n, number_is sc "infinite_loop_max_bifs" n) /\ (exists n, number_is sc "debug_expire" n).

(** what a render with the schema [sc] works with *)
Record configured (env : Env) (sc : json) (c : Cfg) : Prop := {
  cf_lang : text_is (at_path [B "inherit"; B "locale"; B "current"] sc) c.(lang);
  cf_comments : text_is (setting sc "comments") c.(comments);
  cf_limit : number_is sc "infinite_loop_max_bifs" c.(bisf_max);
  cf_filter_all : switch_is sc "filter_all" c.(filter_all);
  cf_prefix : text_is (setting sc "cache_prefix") c.(cache_prefix);
  cf_dir : exists d, text_is (setting sc "cache_dir") d /\
             (d <> [] -> c.(cache_dir) = d) /\ (d = [] -> c.(cache_dir) = env.(e_tmp));
  cf_on_post : switch_is sc "cache_on_post" c.(cache_on_post);
  cf_on_get : switch_is sc "cache_on_get" c.(cache_on_get);
  cf_on_cookies : switch_is sc "cache_on_cookies" c.(cache_on_cookies);
  cf_disable : switch_is sc "cache_disable" c.(cache_disable);
  cf_bifs : c.(filter_bifs) = true <-> ~ switched_on sc "cache_disable";
  cf_js : switch_is sc "disable_js" c.(disable_js);
  cf_expire : number_is sc "debug_expire" c.(debug_expire);
  cf_debug_file : text_is (setting sc "debug_file") c.(debug_file);
  cf_dir_now : c.(working_dir) = env.(e_cwd) }.

(** ** Histories of calls *)

(** the calls that change a template *)
Inductive call :=
| SetSource (text : bytes)          (* set_src_str *)
| SetPath (path : bytes)            (* set_src_path *)
| MergeValue (value : json)         (* merge_schema_value *)
| MergeText (text : bytes)          (* merge_schema_str *)
| MergeFile (path : bytes)          (* merge_schema_path *)
| MergePack (data : bytes)          (* merge_schema_msgpack *)
| MergePackFile (path : bytes)      (* merge_schema_msgpack_path *)
| Render (once : bool) (rounds : nat). (* render, render_once *)

(** what a call comes to: a new source, from a text or a file; a file that cannot be read, as the
    new path; a value to merge; nothing, with the error returned; a rendering *)
Inductive outcome :=
| NewSource (text : bytes)
| NewFile (path text : bytes)
| NoFile (path error : bytes)
| Merge (value : json)
| Nothing (error : bytes)
| Rendered (once : bool) (output : bytes).

(** the file system is asked in its state [w]; [dec] decodes MessagePack *)
Inductive comes_to (env : Env) (dec : bytes -> json + bytes) (w : trace) : call -> outcome -> Prop :=
| ct_source c : comes_to env dec w (SetSource c) (NewSource c)
| ct_path p c : env.(e_read) w p = Some c -> comes_to env dec w (SetPath p) (NewFile p c)
| ct_no_path p : env.(e_read) w p = None -> comes_to env dec w (SetPath p) (NoFile p (env.(e_read_err) w p))
| ct_value j : comes_to env dec w (MergeValue j) (Merge j)
| ct_text c j : env.(e_from_str) c = inl j -> comes_to env dec w (MergeText c) (Merge j)
| ct_no_text c e : env.(e_from_str) c = inr e -> comes_to env dec w (MergeText c) (Nothing (B "Is not a valid JSON string"))
| ct_file p c j : env.(e_read) w p = Some c -> env.(e_from_str) c = inl j -> comes_to env dec w (MergeFile p) (Merge j)
| ct_bad_file p c e : env.(e_read) w p = Some c -> env.(e_from_str) c = inr e ->
    comes_to env dec w (MergeFile p) (Nothing (B "Is not a valid JSON file"))
| ct_no_file p : env.(e_read) w p = None -> comes_to env dec w (MergeFile p) (Nothing (env.(e_read_err) w p))
| ct_pack c j : dec c = inl j -> comes_to env dec w (MergePack c) (Merge j)
| ct_no_pack c e : dec c = inr e -> comes_to env dec w (MergePack c) (Nothing (B "Is not a valid MessagePack data: " ++ e))
| ct_packs p c j : env.(e_read) w p = Some c -> dec c = inl j -> comes_to env dec w (MergePackFile p) (Merge j)
| ct_bad_packs p c e : env.(e_read) w p = Some c -> dec c = inr e ->
    comes_to env dec w (MergePackFile p) (Nothing (B "Is not a valid MessagePack data: " ++ e))
| ct_no_packs p : env.(e_read) w p = None -> comes_to env dec w (MergePackFile p) (Nothing (env.(e_read_err) w p))
| ct_render once n o : comes_to env dec w (Render once n) (Rendered once o).

(** the error a call returns *)
Definition error_of (o : outcome) : option bytes :=
  match o with NoFile _ e => Some e | Nothing e => Some e | _ => None end.

(** the source, the path and the schema after a list of outcomes, the last one first: a rendering
    may take the comments out of the source (config.comments), render_once gives the schema away
    unless there is nothing to evaluate *)
Inductive state_after : list outcome -> bytes -> bytes -> json -> Prop :=
| sa_new : state_after [] [] [] DEFAULT_SCHEMA
| sa_source l src p sc c : state_after l src p sc -> state_after (NewSource c :: l) c p sc
| sa_file l src p sc q c : state_after l src p sc -> state_after (NewFile q c :: l) c q sc
| sa_no_file l src p sc q e : state_after l src p sc -> state_after (NoFile q e :: l) src q sc
| sa_merge l src p sc j sc' : state_after l src p sc -> update_schema sc j = Some sc' ->
    state_after (Merge j :: l) src p sc'
| sa_nothing l src p sc e : state_after l src p sc -> state_after (Nothing e :: l) src p sc
| sa_plain l src p sc once o : state_after l src p sc -> ~ occurs (B "{:") src ->
    state_after (Rendered once o :: l) src p sc
| sa_rendered l src p sc src' once o : state_after l src p sc -> occurs (B "{:") src ->
    src' = src \/ remove_comments src = Some src' ->
    state_after (Rendered once o :: l) src' p (if once then JNull else sc).

(** ** Schemas that are safe to merge *)

(** nothing in it changes the type of a setting the renderer depends on *)
Record harmless (sc : json) : Prop := {
  hl_wf : wf_json sc;
  hl_obj : is_obj sc;
  hl_config : forall v, at_path [B "config"] sc = Some v -> is_obj v;
  hl_max : forall v, setting sc "infinite_loop_max_bifs" = Some v -> exists n, v = JNum (NPos n);
  hl_expire : forall v, setting sc "debug_expire" = Some v -> exists n, v = JNum (NPos n);
  hl_error : forall v, setting sc "error" = Some v -> is_obj v;
  hl_show : forall v, at_path [B "config"; B "error"; B "show"] sc = Some v -> exists b, v = JBool b;
  hl_data : forall v, at_path [B "data"] sc = Some v -> v = JNull \/ is_obj v;
  hl_inherit : forall v, at_path [B "inherit"] sc = Some v -> is_obj v;
  hl_sections : forall k v, In k [B "declare"; B "params"; B "snippets"; B "snippets_set_dir"] ->
    at_path [B "inherit"; k] sc = Some v -> v = JNull \/ is_obj v }.
