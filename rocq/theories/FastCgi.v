(** * Model of the FastCGI codec of /repo/src/bif/exec_php.rs *)

From Verif Require Import Bytes.

(** A byte of value [n mod 256] ([as u8]). *)
Definition u8 (n : N) : ascii := ascii_of_N (n mod 256).
Definition blen (s : bytes) : N := N.of_nat (length s).

(** exec_php.rs 9-17 *)
Definition FCGI_VERSION_1 : N := 1.
Definition FCGI_BEGIN_REQUEST : N := 1.
Definition FCGI_END_REQUEST : N := 3.
Definition FCGI_PARAMS : N := 4.
Definition FCGI_STDIN : N := 5.
Definition FCGI_STDOUT : N := 6.
Definition FCGI_STDERR : N := 7.
Definition FCGI_RESPONDER : N := 1.
Definition FCGI_REQUEST_ID : N := 1.

(** PhpExecutor::write_record (exec_php.rs 453-484): the bytes written to the stream, or [None]
    for "fastcgi content too large".  Write errors are not modelled. *)
Definition write_record (rtype id : N) (content : bytes) : option bytes :=
  let n := blen content in
  if (65535 <? n)%N then None
  else
    let pad := ((8 - n mod 8) mod 8)%N in
    Some ([u8 FCGI_VERSION_1; u8 rtype; u8 (N.shiftr id 8); u8 (N.land id 255);
           u8 (N.land (N.shiftr n 8) 255); u8 (N.land n 255); u8 pad; u8 0]
          ++ content ++ repeat (u8 0) (N.to_nat pad)).

(** PhpExecutor::write_length (exec_php.rs 494-507) *)
Definition write_length (n : N) : option bytes :=
  if (n <? 128)%N then Some [u8 n]
  else if (2147483647 <? n)%N then None
  else Some [u8 (N.lor (N.shiftr n 24 mod 256) 128); u8 (N.shiftr n 16); u8 (N.shiftr n 8); u8 n].

(** PhpExecutor::write_name_value_pair (exec_php.rs 486-492) *)
Definition write_name_value_pair (name value : bytes) : option bytes :=
  match write_length (blen name), write_length (blen value) with
  | Some a, Some b => Some (a ++ b ++ name ++ value)
  | _, _ => None
  end.

(** the loop over the parameters (exec_php.rs 340-343) *)
Fixpoint write_params (l : list (bytes * bytes)) : option bytes :=
  match l with
  | [] => Some []
  | (k, v) :: r =>
      match write_name_value_pair k v, write_params r with
      | Some a, Some b => Some (a ++ b)
      | _, _ => None
      end
  end.

(** the parameter list of send_fastcgi_request (exec_php.rs 323-338) *)
Definition request_params (body bridge : bytes) : list (bytes * bytes) :=
  [ (B "SCRIPT_FILENAME", bridge); (B "SCRIPT_NAME", bridge); (B "REQUEST_METHOD", B "POST");
    (B "CONTENT_TYPE", B "application/json"); (B "CONTENT_LENGTH", dec_nat (length body));
    (B "SERVER_PROTOCOL", B "HTTP/1.1"); (B "GATEWAY_INTERFACE", B "CGI/1.1");
    (B "REQUEST_URI", B "/"); (B "DOCUMENT_ROOT", B "/"); (B "REMOTE_ADDR", B "127.0.0.1");
    (B "REMOTE_PORT", B "0"); (B "SERVER_ADDR", B "127.0.0.1"); (B "SERVER_PORT", B "80");
    (B "SERVER_NAME", B "neutralts") ].

Definition obind {A C} (o : option A) (f : A -> option C) : option C :=
  match o with Some x => f x | None => None end.

(** send_fastcgi_request (exec_php.rs 306-356): all bytes sent, or [None] if some part is too
    large *)
Definition send_fastcgi_request (body bridge : bytes) : option bytes :=
  obind (write_record FCGI_BEGIN_REQUEST FCGI_REQUEST_ID
           [u8 (N.shiftr FCGI_RESPONDER 8); u8 (N.land FCGI_RESPONDER 255);
            u8 0; u8 0; u8 0; u8 0; u8 0; u8 0]) (fun r1 =>
  obind (write_params (request_params body bridge)) (fun pb =>
  obind (if is_empty pb then Some [] else write_record FCGI_PARAMS FCGI_REQUEST_ID pb) (fun r2 =>
  obind (write_record FCGI_PARAMS FCGI_REQUEST_ID []) (fun r3 =>
  obind (if is_empty body then Some [] else write_record FCGI_STDIN FCGI_REQUEST_ID body) (fun r4 =>
  obind (write_record FCGI_STDIN FCGI_REQUEST_ID []) (fun r5 =>
  Some (r1 ++ r2 ++ r3 ++ r4 ++ r5))))))).

(** ** Reading the response (exec_php.rs 358-441)

    The stream is the list of the bytes the peer sends before closing the connection; other I/O
    errors (time-outs) are modelled in Socket.v. *)
Inductive ReadRes :=
| ReadOk (stdout stderr : bytes)        (* before String::from_utf8_lossy *)
| ReadEof                               (* UnexpectedEof with nothing received *)
| ReadHttp                              (* "endpoint looks like HTTP" *)
| ReadVersion (v : N).                  (* unsupported version *)

(** read_exact of [n] bytes: [None] is UnexpectedEof *)
Definition read_exact (n : nat) (s : bytes) : option (bytes * bytes) :=
  if length s <? n then None else Some (firstn n s, skipn n s).

Definition eof_result (so se : bytes) : ReadRes :=
  if negb (is_empty so) || negb (is_empty se) then ReadOk so se else ReadEof.

Definition byte_val (s : bytes) (i : nat) : N :=
  match nth_error s i with Some a => N_of_ascii a | None => 0 end.

Fixpoint read_loop (fuel : nat) (s so se : bytes) : ReadRes :=
  match fuel with
  | O => eof_result so se
  | S k =>
      match read_exact 8 s with
      | None => eof_result so se
      | Some (h, s1) =>
          if negb (byte_val h 0 =? FCGI_VERSION_1)%N then
            if starts_with (B "HTTP/") h then ReadHttp else ReadVersion (byte_val h 0)
          else
            let rtype := byte_val h 1 in
            let id := (byte_val h 2 * 256 + byte_val h 3)%N in
            let clen := N.to_nat (byte_val h 4 * 256 + byte_val h 5) in
            let plen := N.to_nat (byte_val h 6) in
            match read_exact clen s1 with
            | None => eof_result so se
            | Some (content, s2) =>
                match read_exact plen s2 with
                | None => eof_result so se
                | Some (_, s3) =>
                    if negb (id =? FCGI_REQUEST_ID)%N then read_loop k s3 so se
                    else if (rtype =? FCGI_STDOUT)%N then read_loop k s3 (so ++ content) se
                    else if (rtype =? FCGI_STDERR)%N then read_loop k s3 so (se ++ content)
                    else if (rtype =? FCGI_END_REQUEST)%N then ReadOk so se
                    else read_loop k s3 so se
                end
            end
      end
  end.

(** Every round consumes at least the eight bytes of a header, so the length of the stream is
    enough fuel: the [O] case is only reached with fewer than eight bytes left. *)
Definition read_fastcgi_response (s : bytes) : ReadRes := read_loop (S (length s)) s [] [].

(** extract_http_body (exec_php.rs 443-451) *)
Definition CR : ascii := ascii_of_N 13.
Definition LF : ascii := ascii_of_N 10.
Definition extract_http_body (s : bytes) : bytes :=
  match find [CR; LF; CR; LF] s with
  | Some p => skipn (p + 4) s
  | None => match find [LF; LF] s with
            | Some p => skipn (p + 2) s
            | None => s
            end
  end.
