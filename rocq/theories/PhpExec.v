(** * Model of PhpExecutor::exec_php (/repo/src/bif/exec_php.rs 113-305): endpoint, bridge file, payload, answer *)

From Verif Require Import Bytes Json Utils ConstantsGen State FastCgi.

(** FpmEndpoint (exec_php.rs 70-74); a socket address is represented by its printed form *)
Inductive endpoint := Tcp (addr : bytes) | Unix (path : bytes).

(** What happens outside: each field is unspecified.  Sending never fails for another reason than the size of a record, and
    the peer's answer is what it sends before it closes the connection (time-outs: Socket.v). *)
Record Php := mkPhp {
  p_parent : bytes -> option bytes;             (* Path::parent *)
  p_cwd : bytes + bytes;                        (* env::current_dir / error text *)
  p_exists : bytes -> bool;                     (* Path::exists *)
  p_write : bytes -> bytes -> option bytes;     (* fs::write: None = ok, error text otherwise *)
  p_addrs : bytes -> option (list bytes);       (* to_socket_addrs *)
  p_connect : endpoint -> (bytes -> bytes) + bytes;  (* the peer: its answer to a request / error text *)
  p_to_vec : json -> bytes;                     (* serde_json::to_vec: never fails for a Value *)
  p_from_str : bytes -> json + bytes;           (* serde_json::from_str / error text *)
  p_lossy : bytes -> bytes;                     (* String::from_utf8_lossy *)
  p_eof : bytes }.                              (* text of the UnexpectedEof error *)

(** the observable actions, oldest first *)
Inductive act :=
| AWrite (path content : bytes)
| AConnect (e : endpoint)
| ASend (e : endpoint) (request : bytes).

(** exec_php.rs 19 *)
Definition BRIDGE_ERROR_KEY : bytes := B "__neutralts_obj_error".
(** exec_php.rs 21-68 *)
Definition BRIDGE_SCRIPT : bytes := B "<?php
header('Content-Type: application/json');
$raw = file_get_contents('php://input');
$payload = json_decode($raw, true);

if (!is_array($payload)) {
    echo json_encode([""__neutralts_obj_error"" => ""invalid payload""]);
    exit;
}

$script_file = $payload[""script_file""] ?? """";
$callback = $payload[""callback""] ?? ""main"";
$params = $payload[""params""] ?? [];
$GLOBALS[""__NEUTRAL_SCHEMA__""] = $payload[""schema""] ?? null;
$GLOBALS[""__NEUTRAL_SCHEMA_DATA__""] = $payload[""schema_data""] ?? null;
$GLOBALS[""__NEUTRAL_VENV__""] = $payload[""venv""] ?? null;

if (!is_string($script_file) || $script_file === """" || !is_file($script_file)) {
    echo json_encode([""__neutralts_obj_error"" => ""obj script not found""]);
    exit;
}

try {
    require_once $script_file;
} catch (Throwable $e) {
    echo json_encode([""__neutralts_obj_error"" => ""php script load failed""]);
    exit;
}

if (!is_callable($callback)) {
    echo json_encode([""__neutralts_obj_error"" => ""callback not found""]);
    exit;
}

try {
    $result = call_user_func($callback, $params);
} catch (Throwable $e) {
    echo json_encode([""__neutralts_obj_error"" => ""callback execution failed""]);
    exit;
}

$json = json_encode($result);
if ($json === false) {
    echo json_encode([""__neutralts_obj_error"" => ""invalid callback response""]);
    exit;
}

echo $json;
".

(** Path::is_absolute and PathBuf::join on Unix *)
Definition absolute (p : bytes) : bool := starts_with (B "/") p.
Definition path_join (a b : bytes) : bytes :=
  if absolute b then b else if is_empty a || ends_with (B "/") a then a ++ b else a ++ B "/" ++ b.

(** bridge_path_for (exec_php.rs 201-232); paths are UTF-8 (the check of lines 222-229 cannot fail) *)
Definition bridge_path_for (w : Php) (file : bytes) : bytes + bytes :=
  let parent := match w.(p_parent) file with Some p => p | None => B "." end in
  if absolute parent then inl (path_join parent (B ".neutralts_obj_bridge.php"))
  else match w.(p_cwd) with
       | inl d => inl (path_join (path_join d parent) (B ".neutralts_obj_bridge.php"))
       | inr e => inr (B "failed to get current_dir: " ++ e)
       end.

(** parse_endpoint (exec_php.rs 249-282), on Unix: [None] is "invalid php-fpm endpoint" *)
Definition parse_endpoint (w : Php) (text : bytes) : option endpoint :=
  let e := trim text in
  if is_empty e then None
  else match strip_prefix (B "unix:") e with
       | Some p => if is_empty p then None else Some (Unix p)
       | None =>
           let t := match strip_prefix (B "tcp://") e with Some r => r | None => e end in
           if contains (B ":") t then
             match w.(p_addrs) t with
             | Some (a :: _) => Some (Tcp a)
             | _ => None
             end
           else None
       end.

(** the payload (exec_php.rs 137-144) *)
Definition payload (a : exec_args) : json :=
  JObj [ (B "script_file", JStr a.(x_file)); (B "callback", JStr a.(x_callback)); (B "params", a.(x_params));
         (B "schema", match a.(x_schema) with Some v => v | None => JNull end);
         (B "schema_data", match a.(x_schema_data) with Some v => v | None => JNull end);
         (B "venv", JStr (match a.(x_venv) with Some v => v | None => [] end)) ].

(** the texts of the read errors (exec_php.rs 371, 378-389) *)
Definition read_error (w : Php) (r : ReadRes) : bytes :=
  match r with
  | ReadOk _ _ => []
  | ReadEof => w.(p_eof)
  | ReadHttp => B "invalid FastCGI response: endpoint looks like HTTP, not PHP-FPM"
  | ReadVersion v => B "invalid FastCGI response: unsupported version " ++ dec_N v
  end.

(** what is made of the answer of the peer (exec_php.rs 159-198) *)
Definition php_made (w : Php) (r : ReadRes) : json + bytes :=
  match r with
  | ReadOk so se =>
      let so := w.(p_lossy) so in
      let se := w.(p_lossy) se in
      if negb (is_empty (trim se)) then inr (B "php-fpm stderr: " ++ trim se)
      else match w.(p_from_str) (trim (extract_http_body so)) with
           | inr e => inr (B "invalid php-fpm response: " ++ e)
           | inl v => match vget BRIDGE_ERROR_KEY v with
                      | Some (JStr msg) => inr msg
                      | _ => inl v
                      end
           end
  | r => inr (B "php-fpm response failed: " ++ read_error w r)
  end.
Definition php_answer (w : Php) (stream : bytes) : json + bytes := php_made w (read_fastcgi_response stream).

(** PhpExecutor::exec_php (exec_php.rs 113-199), ensure_bridge_script (234-247): the actions and the result (a value or the
    message of the error).  A request that is too large is refused after its first records have been sent; only complete
    requests are listed. *)
Definition exec_php (w : Php) (a : exec_args) : list act * (json + bytes) :=
  match bridge_path_for w a.(x_file) with
  | inr e => ([], inr e)
  | inl bridge =>
      let made := if w.(p_exists) bridge then [] else [AWrite bridge BRIDGE_SCRIPT] in
      match (if w.(p_exists) bridge then None else w.(p_write) bridge BRIDGE_SCRIPT) with
      | Some e => (made, inr (B "failed to create php bridge: " ++ e))
      | None =>
          match parse_endpoint w (match a.(x_fpm) with Some e => e | None => [] end) with
          | None => (made, inr (B "invalid php-fpm endpoint"))
          | Some ep =>
              match w.(p_connect) ep with
              | inr e => (made ++ [AConnect ep], inr (B "php-fpm connection failed: " ++ e))
              | inl peer =>
                  match send_fastcgi_request (w.(p_to_vec) (payload a)) bridge with
                  | None =>
                      let why := match write_params (request_params (w.(p_to_vec) (payload a)) bridge) with
                                 | None => B "fastcgi name/value too large"
                                 | Some _ => B "fastcgi content too large"
                                 end in
                      (made ++ [AConnect ep], inr (B "php-fpm request failed: " ++ why))
                  | Some out => (made ++ [AConnect ep; ASend ep out], php_answer w (peer out))
                  end
              end
          end
      end
  end.
