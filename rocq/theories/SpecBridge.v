(** * Specification vocabulary for what happens inside PHP (C93) *)

From Verif Require Import Bytes Json State FastCgi Spec PhpExec SpecPhp PhpBridge.

(** [php] is what PHP makes of the JSON values the engine sends: the six members of the payload of the call arrive.  (Of an
    empty object, for instance, PHP makes an empty array; texts and null stay what they are.) *)
Definition arrives (w : Php) (h : Hyp) (php : json -> json) (a : exec_args) : Prop :=
  php JNull = JNull /\ (forall s, php (JStr s) = JStr s) /\
  forall p, payload_for a p -> (exists m, h.(h_decode) (w.(p_to_vec) p) = JObj m) /\
    forall k v, In k [B "script_file"; B "callback"; B "params"; B "schema"; B "schema_data"; B "venv"] ->
      vget k p = Some v -> vget k (h.(h_decode) (w.(p_to_vec) p)) = Some (php v).

(** The peer is PHP-FPM: to a request for [bridge] it answers with a header and what the bridge script prints, cut into records
    in any way, with nothing on the error stream; what it prints is UTF-8. *)
Definition serves (w : Php) (h : Hyp) (bridge : bytes) (peer : bytes -> bytes) : Prop :=
  forall request params raw l, records request (request_records params raw) ->
    decode_pairs (length params) params = Some l -> In (B "SCRIPT_FILENAME", bridge) l ->
    exists ws e rest header, Forall wire_ok ws /\ (forall x, In x ws -> ~ is_end x) /\ wire_ok e /\ is_end e /\
      peer request = flat_map wire_bytes ws ++ wire_bytes e ++ rest /\
      ~ occurs [CR; LF; CR; LF] (header ++ [CR; LF; CR]) /\
      stream_of 6 ws = header ++ [CR; LF; CR; LF] ++ snd (run_bridge h raw) /\ stream_of 7 ws = [] /\
      w.(p_lossy) (stream_of 6 ws) = stream_of 6 ws /\ w.(p_lossy) [] = [].

(** the global variables the script finds: null unless the schema or its data were handed over *)
Definition php_globals (php : json -> json) (a : exec_args) : list (bytes * json) :=
  [ (B "__NEUTRAL_SCHEMA__", php (match a.(x_schema) with Some v => v | None => JNull end));
    (B "__NEUTRAL_SCHEMA_DATA__", php (match a.(x_schema_data) with Some v => v | None => JNull end));
    (B "__NEUTRAL_VENV__", JStr (match a.(x_venv) with Some v => v | None => [] end)) ].

(** the parameters the callback finds: no parameters are an empty array *)
Definition php_params (php : json -> json) (a : exec_args) : json :=
  match php a.(x_params) with JNull => JArr [] | v => v end.

(** The story of one call: what the script printed before the end, and how it ended. *)
Inductive ending := Failed (msg : bytes) | Stopped | Answered (json_text : bytes).
Inductive story (h : Hyp) (php : json -> json) (a : exec_args) : bytes -> ending -> Prop :=
| st_missing : a.(x_file) = [] \/ h.(h_is_file) a.(x_file) = false -> story h php a [] (Failed (B "obj script not found"))
| st_load_throws out : a.(x_file) <> [] -> h.(h_is_file) a.(x_file) = true ->
    h.(h_load) a.(x_file) (php_globals php a) = (out, Throws) -> story h php a out (Failed (B "php script load failed"))
| st_load_ends out : a.(x_file) <> [] -> h.(h_is_file) a.(x_file) = true ->
    h.(h_load) a.(x_file) (php_globals php a) = (out, Ends) -> story h php a out Stopped
| st_no_callback out : a.(x_file) <> [] -> h.(h_is_file) a.(x_file) = true ->
    h.(h_load) a.(x_file) (php_globals php a) = (out, Returns tt) -> h.(h_callable) a.(x_file) (JStr a.(x_callback)) = false ->
    story h php a out (Failed (B "callback not found"))
| st_called out out2 r : a.(x_file) <> [] -> h.(h_is_file) a.(x_file) = true ->
    h.(h_load) a.(x_file) (php_globals php a) = (out, Returns tt) -> h.(h_callable) a.(x_file) (JStr a.(x_callback)) = true ->
    h.(h_call) a.(x_file) (php_globals php a) (JStr a.(x_callback)) (php_params php a) = (out2, r) ->
    story h php a (out ++ out2)
      match r with
      | Throws => Failed (B "callback execution failed")
      | Ends => Stopped
      | Returns v => match h.(h_encode) v with Some j => Answered j | None => Failed (B "invalid callback response") end
      end.

(** what the caller makes of a text *)
Inductive heard (w : Php) (text : bytes) : json + bytes -> Prop :=
| he_garbage e : w.(p_from_str) (trim text) = inr e -> heard w text (inr (B "invalid php-fpm response: " ++ e))
| he_refused v msg : w.(p_from_str) (trim text) = inl v -> vget (B "__neutralts_obj_error") v = Some (JStr msg) ->
    heard w text (inr msg)
| he_value v : w.(p_from_str) (trim text) = inl v ->
    (forall msg, vget (B "__neutralts_obj_error") v <> Some (JStr msg)) -> heard w text (inl v).

(** the text the bridge prints last *)
Definition last_words (e : ending) : bytes :=
  match e with
  | Failed msg => B "{""__neutralts_obj_error"":""" ++ msg ++ B """}"
  | Stopped => []
  | Answered j => j
  end.

(** the caller reads JSON at least well enough for the bridge's own messages, which are words *)
Definition reads_failures (w : Php) : Prop := forall msg,
  Forall (fun c => c = " "%char \/ (97 <= N_of_ascii c <= 122)%N) msg ->
  w.(p_from_str) (B "{""__neutralts_obj_error"":""" ++ msg ++ B """}") = inl (JObj [(B "__neutralts_obj_error", JStr msg)]).

(** the result of a call whose script printed nothing by itself *)
Definition quiet_result (w : Php) (e : ending) (r : json + bytes) : Prop :=
  match e with
  | Failed msg => r = inr msg
  | Stopped => heard w [] r
  | Answered j => heard w j r
  end.
