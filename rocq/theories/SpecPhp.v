(** * Specification vocabulary for the calls of PHP scripts (C68) *)

From Verif Require Import Bytes Json State FastCgi Spec PhpExec.

(** the path of the relative path [name] inside the directory [dir] (the empty path is the current directory) *)
Definition file_in (dir name p : bytes) : Prop :=
  match dir with
  | [] => p = name
  | _ => (exists d, dir = d ++ B "/") /\ p = dir ++ name \/ (~ exists d, dir = d ++ B "/") /\ p = dir ++ B "/" ++ name
  end.

(** where the bridge script is: beside the script, whose directory is relative to the current one unless it begins with a slash *)
Definition bridge_of (w : Php) (file bridge : bytes) : Prop :=
  exists dir, file_in dir (B ".neutralts_obj_bridge.php") bridge /\
    (w.(p_parent) file = Some dir /\ starts_with (B "/") dir = true \/
     exists cwd parent, w.(p_cwd) = inl cwd /\ file_in cwd parent dir /\ starts_with (B "/") parent = false /\
       (w.(p_parent) file = Some parent \/ w.(p_parent) file = None /\ parent = B ".")).

(** How an endpoint is written: unix:PATH, tcp://HOST:PORT or HOST:PORT, the latter resolved to its first address. *)
Inductive endpoint_of (w : Php) (text : bytes) : endpoint -> Prop :=
| ep_unix p : trim text = B "unix:" ++ p -> p <> [] -> endpoint_of w text (Unix p)
| ep_tcp h a l : trim text = B "tcp://" ++ h -> occurs (B ":") h -> w.(p_addrs) h = Some (a :: l) ->
    endpoint_of w text (Tcp a)
| ep_plain a l : starts_with (B "unix:") (trim text) = false -> starts_with (B "tcp://") (trim text) = false ->
    occurs (B ":") (trim text) -> w.(p_addrs) (trim text) = Some (a :: l) -> endpoint_of w text (Tcp a).

(** What the bridge receives: the script, the callback, its parameters; the schema and the schema data are null unless they
    were handed over. *)
Definition payload_for (a : exec_args) (p : json) : Prop :=
  vget (B "script_file") p = Some (JStr a.(x_file)) /\ vget (B "callback") p = Some (JStr a.(x_callback)) /\
  vget (B "params") p = Some a.(x_params) /\
  vget (B "schema") p = Some (match a.(x_schema) with Some v => v | None => JNull end) /\
  vget (B "schema_data") p = Some (match a.(x_schema_data) with Some v => v | None => JNull end) /\
  vget (B "venv") p = Some (JStr (match a.(x_venv) with Some v => v | None => [] end)).

(** [request] is a FastCGI request to the script [bridge] with the payload [a] *)
Definition php_request (w : Php) (a : exec_args) (bridge request : bytes) : Prop :=
  exists p params, payload_for a p /\ records request (request_records params (w.(p_to_vec) p)) /\
    exists l, decode_pairs (length params) params = Some l /\
      In (B "SCRIPT_FILENAME", bridge) l /\ In (B "REQUEST_METHOD", B "POST") l /\
      In (B "CONTENT_TYPE", B "application/json") l /\ In (B "CONTENT_LENGTH", dec_nat (length (w.(p_to_vec) p))) l.

(** the body of an HTTP message: after the first blank line (CR LF CR LF, or LF LF if there is none) *)
Inductive http_body (s : bytes) : bytes -> Prop :=
| hb_crlf h b : s = h ++ [CR; LF; CR; LF] ++ b -> ~ occurs [CR; LF; CR; LF] (h ++ [CR; LF; CR]) -> http_body s b
| hb_lf h b : ~ occurs [CR; LF; CR; LF] s -> s = h ++ [LF; LF] ++ b -> ~ occurs [LF; LF] (h ++ [LF]) -> http_body s b
| hb_none : ~ occurs [CR; LF; CR; LF] s -> ~ occurs [LF; LF] s -> http_body s s.

(** what the caller gets when the script wrote [out] and [diag] to its output and error streams *)
Inductive php_result (w : Php) (out diag : bytes) : json + bytes -> Prop :=
| pr_diag : trim diag <> [] -> php_result w out diag (inr (B "php-fpm stderr: " ++ trim diag))
| pr_garbage b e : trim diag = [] -> http_body out b -> w.(p_from_str) (trim b) = inr e ->
    php_result w out diag (inr (B "invalid php-fpm response: " ++ e))
| pr_refused b v msg : trim diag = [] -> http_body out b -> w.(p_from_str) (trim b) = inl v ->
    vget (B "__neutralts_obj_error") v = Some (JStr msg) -> php_result w out diag (inr msg)
| pr_value b v : trim diag = [] -> http_body out b -> w.(p_from_str) (trim b) = inl v ->
    (forall msg, vget (B "__neutralts_obj_error") v <> Some (JStr msg)) -> php_result w out diag (inl v).
