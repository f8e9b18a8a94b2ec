(** * Property theorems: the FastCGI client *)

From Verif Require Import Bytes FastCgi Spec BytesFacts FastCgiProofs.

(** ** C61 *)
Theorem C61_records_decode : forall rtype id content r rest,
  (rtype < 256)%N -> (id < 65536)%N -> write_record rtype id content = Some r ->
  exists padding, decode_record (r ++ rest) = Some (Rec 1 rtype id content padding, rest)
                  /\ Nat.modulo (length r) 8 = 0 /\ length r = 8 + length content + length padding
                  /\ length padding < 8.
Proof. exact record_decodes. Qed.
Print Assumptions C61_records_decode.
Theorem C61_oversized_refused : forall rtype id content,
  write_record rtype id content = None <-> (65535 < N.of_nat (length content))%N.
Proof. exact write_record_refuses. Qed.
Print Assumptions C61_oversized_refused.
Example C61_example : exists r, write_record 5 1 (B "hello") = Some r /\ length r = 16.
Proof. eexists. split; reflexivity. Qed.
(** A request of any accepted size decodes to BEGIN_REQUEST, the parameters, the body and the
    empty records that end both streams. *)
Theorem C61_whole_request_decodes : forall body bridge out,
  send_fastcgi_request body bridge = Some out ->
  exists params, decode_pairs (length params) params = Some (request_params body bridge) /\
                 records out (request_records params body).
Proof. exact request_decodes. Qed.
Print Assumptions C61_whole_request_decodes.
(** a request is refused exactly if the parameters or the body do not fit in one record *)
Theorem C61_request_refused : forall body bridge,
  send_fastcgi_request body bridge = None <->
  ~ exists params, write_params (request_params body bridge) = Some params /\ fits params /\ fits body.
Proof. exact request_refused. Qed.
Print Assumptions C61_request_refused.
Example C61_request_example : exists out, send_fastcgi_request (B "{}") (B "/x.php") = Some out.
Proof. eexists. vm_compute. reflexivity. Qed.

(** ** C62 *)
Theorem C62_pairs_decode : forall l b, write_params l = Some b -> decode_pairs (length b) b = Some l.
Proof. intros l b H. exact (write_params_decodes l b (length b) H (le_n _)). Qed.
Print Assumptions C62_pairs_decode.
Theorem C62_pairs_encodable : forall l,
  (exists b, write_params l = Some b) <->
  (forall k v, In (k, v) l ->
     (N.of_nat (length k) <= 2147483647)%N /\ (N.of_nat (length v) <= 2147483647)%N).
Proof. exact write_params_ok. Qed.
Print Assumptions C62_pairs_encodable.
Example C62_example : exists b, write_params [(B "A", repeat "x"%char 200); ([], B "y")] = Some b /\ length b = 209.
Proof. eexists. split; vm_compute; reflexivity. Qed.

(** ** C63 *)
Theorem C63_response_is_the_stdout_stream : forall l e rest,
  Forall wire_ok l -> (forall w, In w l -> ~ is_end w) -> wire_ok e -> is_end e ->
  read_fastcgi_response (flat_map wire_bytes l ++ wire_bytes e ++ rest) =
  ReadOk (stream_of 6 l) (stream_of 7 l).
Proof. exact read_response_end. Qed.
Print Assumptions C63_response_is_the_stdout_stream.
(** connection closed early: what was received, or an error if nothing was *)
Theorem C63_closed_connection : forall l s,
  Forall wire_ok l -> (forall w, In w l -> ~ is_end w) -> truncated s ->
  read_fastcgi_response (flat_map wire_bytes l ++ s) =
  if is_empty (stream_of 6 l) && is_empty (stream_of 7 l) then ReadEof
  else ReadOk (stream_of 6 l) (stream_of 7 l).
Proof. exact read_response_closed. Qed.
Print Assumptions C63_closed_connection.
Theorem C63_http_body : forall headers body,
  ~ occurs [CR; LF; CR; LF] (headers ++ [CR; LF; CR]) ->
  extract_http_body (headers ++ [CR; LF; CR; LF] ++ body) = body.
Proof. exact http_body_crlf. Qed.
Print Assumptions C63_http_body.
Definition ex_wires : list wire :=
  [Wire 6 1 (B "Status: 200") (B "pad") "0"; Wire 6 2 (B "other") [] "0"; Wire 7 1 (B "warn") [] "0"; Wire 6 1 (B " OK") [] "0"].
Example C63_example : Forall wire_ok ex_wires /\ (forall w, In w ex_wires -> ~ is_end w) /\
  wire_ok (Wire 3 1 [] [] "0") /\ is_end (Wire 3 1 [] [] "0") /\ stream_of 6 ex_wires = B "Status: 200 OK"
  /\ truncated (firstn 5 (wire_bytes (Wire 6 1 (B "x") [] "0"))).
Proof.
  split; [|split; [|split; [|split; [|split]]]].
  - repeat constructor; cbn; lia.
  - intros w H [E1 E2]. cbn in H. repeat (destruct H as [<-|H]; [discriminate|]). destruct H.
  - repeat constructor; cbn; lia.
  - split; reflexivity.
  - reflexivity.
  - exists (Wire 6 1 (B "x") [] "0"), (skipn 5 (wire_bytes (Wire 6 1 (B "x") [] "0"))). split; [|split].
    + repeat constructor; cbn; lia.
    + symmetry. apply firstn_skipn.
    + vm_compute. discriminate.
Qed.
