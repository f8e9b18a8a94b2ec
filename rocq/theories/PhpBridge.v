(** * Model of the bridge script (the PHP program BRIDGE_SCRIPT, /repo/src/bif/exec_php.rs 21-68) *)

From Verif Require Import Bytes Json.

(** A PHP value: one that JSON can express, or another one (closure, resource, ...). *)
Inductive pval := PJson (v : json) | POther (n : nat).

(** How a piece of PHP ends: it returns, it throws, or it ends the request (exit, or a fatal error). *)
Inductive outcome (A : Type) := Returns (v : A) | Throws | Ends.
Arguments Returns {A} v.
Arguments Throws {A}.
Arguments Ends {A}.

(** The rest of PHP and the user's script, unspecified.  The texts are what the script itself prints. *)
Record Hyp := mkHyp {
  h_decode : bytes -> json;                     (* json_decode(_, true): null for a text that is not JSON *)
  h_encode : pval -> option bytes;              (* json_encode: None is false *)
  h_is_file : bytes -> bool;                    (* is_file *)
  h_load : bytes -> list (bytes * json) -> bytes * outcome unit;       (* require_once with these $GLOBALS *)
  h_callable : bytes -> json -> bool;           (* is_callable after this file was loaded *)
  h_call : bytes -> list (bytes * json) -> json -> json -> bytes * outcome pval }.  (* call_user_func *)

(** what the bridge does, oldest first *)
Inductive pact :=
| BSet (name : bytes) (v : json)
| BLoad (file : bytes)
| BCall (callback params : json).

(** [$payload["k"] ?? d] (exec_php.rs 31-36) *)
Definition coalesce (k : bytes) (p d : json) : json :=
  match vget k p with None | Some JNull => d | Some v => v end.

(** json_encode(["__neutralts_obj_error" => msg]) for the five messages, which need no escapes (exec_php.rs 27, 39, 46, 51, 58, 64) *)
Definition error_json (msg : bytes) : bytes := B "{""__neutralts_obj_error"":""" ++ msg ++ B """}".

(** the globals, in the order they are set (exec_php.rs 34-36) *)
Definition globals_of (p : json) : list (bytes * json) :=
  [ (B "__NEUTRAL_SCHEMA__", coalesce (B "schema") p JNull);
    (B "__NEUTRAL_SCHEMA_DATA__", coalesce (B "schema_data") p JNull);
    (B "__NEUTRAL_VENV__", coalesce (B "venv") p JNull) ].

(** from the call on (exec_php.rs 55-67) *)
Definition bridge_call (h : Hyp) (file : bytes) (g : list (bytes * json)) (cb params : json) : bytes :=
  match h.(h_call) file g cb params with
  | (out, Throws) => out ++ error_json (B "callback execution failed")
  | (out, Ends) => out
  | (out, Returns v) =>
      match h.(h_encode) v with
      | None => out ++ error_json (B "invalid callback response")
      | Some j => out ++ j
      end
  end.

(** the whole script (exec_php.rs 21-68) run on the body [raw] of a request: what it does and what it prints.  The header it
    sends is not part of the text. *)
Definition run_bridge (h : Hyp) (raw : bytes) : list pact * bytes :=
  let p := h.(h_decode) raw in
  match p with
  | JArr _ | JObj _ =>
      let file := coalesce (B "script_file") p (JStr []) in
      let cb := coalesce (B "callback") p (JStr (B "main")) in
      let params := coalesce (B "params") p (JArr []) in
      let g := globals_of p in
      let set := map (fun kv => BSet (fst kv) (snd kv)) g in
      match file with
      | JStr f =>
          if is_empty f || negb (h.(h_is_file) f) then (set, error_json (B "obj script not found"))
          else match h.(h_load) f g with
               | (out, Throws) => (set ++ [BLoad f], out ++ error_json (B "php script load failed"))
               | (out, Ends) => (set ++ [BLoad f], out)
               | (out, Returns _) =>
                   if h.(h_callable) f cb then (set ++ [BLoad f; BCall cb params], out ++ bridge_call h f g cb params)
                   else (set ++ [BLoad f], out ++ error_json (B "callback not found"))
               end
      | _ => (set, error_json (B "obj script not found"))
      end
  | _ => ([], error_json (B "invalid payload"))
  end.
