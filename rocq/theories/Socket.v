(** * Model of the socket under PhpExecutor::exec_php (/repo/src/bif/exec_php.rs 76-110, 284-304, 306-484)

    One call of read(2) or write(2) moves some of the bytes, is interrupted by a signal, fails, or runs into the time-out.
    What each call does is a schedule that nothing restricts. *)

From Verif Require Import Bytes Json Utils State FastCgi PhpExec.

(** PHP_FPM_TIMEOUT_SECS (exec_php.rs 18) in milliseconds, set for reading and for writing (292-297, 299-304) *)
Definition TIMEOUT : N := 5000.

(** ** Reading *)

(** what the next call of read finds, after so many milliseconds: bytes (none: end of file), a signal, an error *)
Inductive arrival := Came (d : bytes) | Signal | Fails (e : bytes).
(** the list is exhausted when the peer has closed the connection *)
Definition incoming := list (N * arrival).

(** the three results of read_exact: filled, UnexpectedEof, another error *)
Inductive filled := Full (b : bytes) (rest : incoming) | Short | Broke (e : bytes).

(** Read::read_exact (default method of std, used by FpmStream, exec_php.rs 84-92): calls read for the bytes still missing,
    again after Interrupted; [late] is the error text of a time-out (WouldBlock).  With the time it took. *)
Fixpoint fill (late : bytes) (k : nat) (l : incoming) : N * filled :=
  match k with
  | O => (0%N, Full [] l)
  | S _ =>
      match l with
      | [] => (0%N, Short)
      | (t, a) :: r =>
          if (TIMEOUT <=? t)%N then (TIMEOUT, Broke late)
          else match a with
               | Came [] => (t, Short)
               | Came d =>
                   if k <=? length d then
                     (t, Full (firstn k d) (if k <? length d then (0%N, Came (skipn k d)) :: r else r))
                   else let (t2, x) := fill late (k - length d) r in
                        ((t + t2)%N, match x with Full b l' => Full (d ++ b) l' | _ => x end)
               | Signal => let (t2, x) := fill late k r in ((t + t2)%N, x)
               | Fails e => (t, Broke e)
               end
      end
  end.

(** the bytes a schedule can deliver at most *)
Fixpoint supply (l : incoming) : nat :=
  match l with
  | [] => 0
  | (_, Came d) :: r => length d + supply r
  | _ :: r => supply r
  end.

(** the result of reading the response, or an I/O error *)
Inductive reply := Reply (r : ReadRes) | Lost (e : bytes).

(** read_fastcgi_response (exec_php.rs 358-441) over the socket *)
Fixpoint receive (late : bytes) (fuel : nat) (l : incoming) (so se : bytes) : N * reply :=
  match fuel with
  | O => (0%N, Reply (eof_result so se))
  | S n =>
      let (t1, x1) := fill late 8 l in
      match x1 with
      | Short => (t1, Reply (eof_result so se))
      | Broke e => (t1, Lost e)
      | Full h l1 =>
          if negb (byte_val h 0 =? FCGI_VERSION_1)%N then
            (t1, Reply (if starts_with (B "HTTP/") h then ReadHttp else ReadVersion (byte_val h 0)))
          else
            let rtype := byte_val h 1 in
            let id := (byte_val h 2 * 256 + byte_val h 3)%N in
            let clen := N.to_nat (byte_val h 4 * 256 + byte_val h 5) in
            let plen := N.to_nat (byte_val h 6) in
            let (t2, x2) := fill late clen l1 in
            match x2 with
            | Short => ((t1 + t2)%N, Reply (eof_result so se))
            | Broke e => ((t1 + t2)%N, Lost e)
            | Full content l2 =>
                let (t3, x3) := fill late plen l2 in
                match x3 with
                | Short => ((t1 + t2 + t3)%N, Reply (eof_result so se))
                | Broke e => ((t1 + t2 + t3)%N, Lost e)
                | Full _ l3 =>
                    let go so se := let (t4, x4) := receive late n l3 so se in ((t1 + t2 + t3 + t4)%N, x4) in
                    if negb (id =? FCGI_REQUEST_ID)%N then go so se
                    else if (rtype =? FCGI_STDOUT)%N then go (so ++ content) se
                    else if (rtype =? FCGI_STDERR)%N then go so (se ++ content)
                    else if (rtype =? FCGI_END_REQUEST)%N then ((t1 + t2 + t3)%N, Reply (ReadOk so se))
                    else go so se
                end
            end
      end
  end.

(** every round takes eight bytes *)
Definition receive_response (late : bytes) (l : incoming) : N * reply := receive late (S (supply l)) l [] [].

(** ** Writing *)

(** what the next call of write does, after so many milliseconds: takes at most [n] bytes, is interrupted, fails *)
Inductive taking := Took (n : nat) | WSignal | WFails (e : bytes).
(** an exhausted list: the rest is taken at once *)
Definition outgoing := list (N * taking).

(** bytes that reached the socket, the rest of the schedule, the time, and the error if there was one *)
Record sending := mkSending { g_sent : bytes; g_rest : outgoing; g_time : N; g_error : option bytes }.

(** Write::write_all (default method of std): [late] is the error text of a time-out, [zero] the one of a write that takes
    nothing (WriteZero) *)
Fixpoint push (late zero : bytes) (buf : bytes) (l : outgoing) : sending :=
  match buf with
  | [] => mkSending [] l 0 None
  | _ =>
      match l with
      | [] => mkSending buf [] 0 None
      | (t, a) :: r =>
          if (TIMEOUT <=? t)%N then mkSending [] r TIMEOUT (Some late)
          else match a with
               | Took O => mkSending [] r t (Some zero)
               | Took n =>
                   if length buf <=? n then mkSending buf r t None
                   else let g := push late zero (skipn n buf) r in
                        mkSending (firstn n buf ++ g.(g_sent)) g.(g_rest) (t + g.(g_time))%N g.(g_error)
               | WSignal => let g := push late zero buf r in mkSending g.(g_sent) g.(g_rest) (t + g.(g_time))%N g.(g_error)
               | WFails e => mkSending [] r t (Some e)
               end
      end
  end.

(** the ? operator: what follows is done only if there was no error *)
Definition and_send (g : sending) (f : outgoing -> sending) : sending :=
  match g.(g_error) with
  | Some _ => g
  | None => let g2 := f g.(g_rest) in
            mkSending (g.(g_sent) ++ g2.(g_sent)) g2.(g_rest) (g.(g_time) + g2.(g_time))%N g2.(g_error)
  end.

(** write_record (exec_php.rs 453-484): header, content and padding are written one after the other *)
Definition put_record (late zero : bytes) (rtype id : N) (content : bytes) (l : outgoing) : sending :=
  let n := blen content in
  if (65535 <? n)%N then mkSending [] l 0 (Some (B "fastcgi content too large"))
  else
    let pad := ((8 - n mod 8) mod 8)%N in
    let header := [u8 FCGI_VERSION_1; u8 rtype; u8 (N.shiftr id 8); u8 (N.land id 255);
                   u8 (N.land (N.shiftr n 8) 255); u8 (N.land n 255); u8 pad; u8 0] in
    and_send (push late zero header l) (fun l =>
    and_send (push late zero content l) (fun l => push late zero (repeat (u8 0) (N.to_nat pad)) l)).

(** send_fastcgi_request (exec_php.rs 306-356); flush does nothing on a socket *)
Definition transmit (late zero : bytes) (body bridge : bytes) (l : outgoing) : sending :=
  and_send (put_record late zero FCGI_BEGIN_REQUEST FCGI_REQUEST_ID
              [u8 (N.shiftr FCGI_RESPONDER 8); u8 (N.land FCGI_RESPONDER 255); u8 0; u8 0; u8 0; u8 0; u8 0; u8 0] l) (fun l =>
  match write_params (request_params body bridge) with
  | None => mkSending [] l 0 (Some (B "fastcgi name/value too large"))
  | Some pb =>
      and_send (if is_empty pb then mkSending [] l 0 None else put_record late zero FCGI_PARAMS FCGI_REQUEST_ID pb l) (fun l =>
      and_send (put_record late zero FCGI_PARAMS FCGI_REQUEST_ID [] l) (fun l =>
      and_send (if is_empty body then mkSending [] l 0 None else put_record late zero FCGI_STDIN FCGI_REQUEST_ID body l) (fun l =>
      put_record late zero FCGI_STDIN FCGI_REQUEST_ID [] l)))
  end).

(** ** The whole call *)

(** a connection: how it takes what is written, and what it delivers when the peer has got so many bytes *)
Record connection := mkConnection { n_out : outgoing; n_in : bytes -> incoming; n_late : bytes; n_zero : bytes }.

(** exec_php (exec_php.rs 113-199) over a socket: as [exec_php] of PhpExec.v, with [conn] for the connection that is made if
    [p_connect] succeeds; the last component is the time spent in reading and writing. *)
Definition exec_php_over (w : Php) (conn : endpoint -> connection) (a : exec_args) : list act * (json + bytes) * N :=
  match bridge_path_for w a.(x_file) with
  | inr e => ([], inr e, 0%N)
  | inl bridge =>
      let made := if w.(p_exists) bridge then [] else [AWrite bridge BRIDGE_SCRIPT] in
      match (if w.(p_exists) bridge then None else w.(p_write) bridge BRIDGE_SCRIPT) with
      | Some e => (made, inr (B "failed to create php bridge: " ++ e), 0%N)
      | None =>
          match parse_endpoint w (match a.(x_fpm) with Some e => e | None => [] end) with
          | None => (made, inr (B "invalid php-fpm endpoint"), 0%N)
          | Some ep =>
              match w.(p_connect) ep with
              | inr e => (made ++ [AConnect ep], inr (B "php-fpm connection failed: " ++ e), 0%N)
              | inl _ =>
                  let c := conn ep in
                  let g := transmit c.(n_late) c.(n_zero) (w.(p_to_vec) (payload a)) bridge c.(n_out) in
                  let acts := made ++ [AConnect ep; ASend ep g.(g_sent)] in
                  match g.(g_error) with
                  | Some e => (acts, inr (B "php-fpm request failed: " ++ e), g.(g_time))
                  | None =>
                      let (t, r) := receive_response c.(n_late) (c.(n_in) g.(g_sent)) in
                      (acts, match r with
                             | Lost e => inr (B "php-fpm response failed: " ++ e)
                             | Reply x => php_made w x
                             end, (g.(g_time) + t)%N)
                  end
              end
          end
      end
  end.
