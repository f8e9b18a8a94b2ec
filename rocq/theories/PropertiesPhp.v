(** * Property theorems: calls of PHP scripts *)

From Verif Require Import Bytes Json State FastCgi Spec PhpExec SpecPhp BytesFacts FastCgiProofs WordProofs.

(** ** C68 *)
Lemma first_only p q c s i : p = q ++ [c] -> find p s = Some i ->
  exists h b, s = h ++ p ++ b /\ length h = i /\ ~ occurs p (h ++ q).
Proof.
  intros -> F. apply find_some in F as [(h & b & E & L) M]. exists h, b. split; [exact E|]. split; [exact L|].
  intros (u & v & EV). apply (M (length u)).
  - assert (length (h ++ q) = length (u ++ (q ++ [c]) ++ v)) as EL by (rewrite EV; reflexivity).
    rewrite !app_length in EL. cbn in EL. lia.
  - exists u, (v ++ [c] ++ b). split; [|reflexivity]. rewrite E, <- !app_assoc.
    rewrite !app_assoc. rewrite EV. rewrite <- !app_assoc. reflexivity.
Qed.
Lemma http_body_is s : http_body s (extract_http_body s).
Proof.
  unfold extract_http_body. destruct (find [CR; LF; CR; LF] s) as [p|] eqn:E.
  - apply (first_only _ [CR; LF; CR] LF) in E as (h & b & -> & <- & N); [|reflexivity].
    rewrite app_assoc, skipn_app_l by (rewrite app_length; reflexivity). eapply hb_crlf; [|exact N]. rewrite <- app_assoc. reflexivity.
  - apply find_none in E. destruct (find [LF; LF] s) as [p|] eqn:E2.
    + apply (first_only _ [LF] LF) in E2 as (h & b & -> & <- & N); [|reflexivity].
      rewrite app_assoc, skipn_app_l by (rewrite app_length; reflexivity). eapply hb_lf; [|rewrite <- app_assoc; reflexivity|exact N].
      rewrite <- app_assoc. exact E.
    + apply find_none in E2. apply hb_none; assumption.
Qed.
Lemma file_in_is a b p : starts_with (B "/") b = false -> (file_in a b p <-> p = path_join a b).
Proof.
  intros H. unfold path_join, absolute. rewrite H. unfold file_in. destruct a as [|x a]; [reflexivity|].
  cbn [is_empty orb]. destruct (ends_with (B "/") (x :: a)) eqn:E.
  - apply ends_with_iff in E. split.
    + intros [[_ K]|[K _]]; [exact K|]. destruct K. destruct E as [d E]. exists d. exact E.
    + intros ->. left. split; [|reflexivity]. destruct E as [d E]. exists d. exact E.
  - split.
    + intros [[[d K] _]|[_ K]]; [|exact K]. assert (ends_with (B "/") (x :: a) = true) as E2; [|congruence].
      apply ends_with_iff. exists d. exact K.
    + intros ->. right. split; [|reflexivity]. intros [d K]. assert (ends_with (B "/") (x :: a) = true) as E2; [|congruence].
      apply ends_with_iff. exists d. exact K.
Qed.
Lemma bridge_is w f b : bridge_path_for w f = inl b -> bridge_of w f b.
Proof.
  unfold bridge_path_for, absolute, bridge_of. intros H. destruct (p_parent w f) as [d|].
  - destruct (starts_with (B "/") d) eqn:E.
    + injection H as <-. exists d. split; [apply file_in_is; reflexivity|]. left. split; [reflexivity|exact E].
    + destruct (p_cwd w) as [c|]; [|discriminate]. injection H as <-. exists (path_join c d).
      split; [apply file_in_is; reflexivity|].
      right. exists c, d. split; [reflexivity|]. split; [apply file_in_is; [exact E|reflexivity]|]. split; [exact E|]. left. reflexivity.
  - destruct (starts_with (B "/") (B ".")) eqn:E; [discriminate|].
    destruct (p_cwd w) as [c|]; [|discriminate]. injection H as <-. exists (path_join c (B ".")).
    split; [apply file_in_is; reflexivity|]. right. exists c, (B "."). split; [reflexivity|].
    split; [apply file_in_is; [exact E|reflexivity]|]. split; [exact E|]. right. split; reflexivity.
Qed.
Lemma bridge_path w f b : bridge_of w f b -> bridge_path_for w f = inl b.
Proof.
  unfold bridge_path_for, absolute. intros (d & HB & HD). apply file_in_is in HB; [|reflexivity]. subst b.
  destruct HD as [[H1 H2]|(c & p & H1 & HD & H2 & HP)].
  - rewrite H1, H2. reflexivity.
  - apply file_in_is in HD; [|exact H2]. subst d. destruct HP as [H3|[H3 ->]]; rewrite H3; [rewrite H2|]; rewrite H1; reflexivity.
Qed.
Lemma endpoint_is w t e : parse_endpoint w t = Some e <-> endpoint_of w t e.
Proof.
  unfold parse_endpoint. split.
  - intros H. destruct (trim t) as [|x y] eqn:ET; [discriminate|]. cbn [is_empty] in H. rewrite <- ET in *. clear ET.
    destruct (strip_prefix (B "unix:") (trim t)) as [p|] eqn:EU.
    + apply strip_prefix_some in EU. destruct p; [discriminate|]. injection H as <-. apply ep_unix; [exact EU|discriminate].
    + apply strip_prefix_none in EU. destruct (strip_prefix (B "tcp://") (trim t)) as [p|] eqn:EP.
      * apply strip_prefix_some in EP. destruct (contains (B ":") p) eqn:EC; [|discriminate].
        destruct (p_addrs w p) as [[|a l]|] eqn:EA; try discriminate. injection H as <-.
        eapply ep_tcp; [exact EP|apply contains_iff; exact EC|exact EA].
      * apply strip_prefix_none in EP. destruct (contains (B ":") (trim t)) eqn:EC; [|discriminate].
        destruct (p_addrs w (trim t)) as [[|a l]|] eqn:EA; try discriminate. injection H as <-.
        eapply ep_plain; [exact EU|exact EP|apply contains_iff; exact EC|exact EA].
  - intros H. destruct H as [p E NE|h a l E C A|a l E1 E2 C A].
    + rewrite E. change (is_empty (B "unix:" ++ p)) with false. cbv iota.
      rewrite (proj2 (strip_prefix_some _ _ p) eq_refl). destruct p; [contradiction|reflexivity].
    + rewrite E. change (is_empty (B "tcp://" ++ h)) with false. cbv iota.
      change (strip_prefix (B "unix:") (B "tcp://" ++ h)) with (@None bytes). cbv iota.
      rewrite (proj2 (strip_prefix_some _ _ h) eq_refl). apply contains_iff in C. rewrite C, A. reflexivity.
    + assert (is_empty (trim t) = false) as ->.
      { destruct C as (u & v & ->). destruct u; reflexivity. }
      apply strip_prefix_none in E1, E2. rewrite E1, E2. apply contains_iff in C. rewrite C, A. reflexivity.
Qed.
Lemma payload_is a : payload_for a (payload a).
Proof. repeat split. Qed.
Lemma request_is w a bridge out : send_fastcgi_request (p_to_vec w (payload a)) bridge = Some out -> php_request w a bridge out.
Proof.
  intros H. apply request_decodes in H as (params & D & R). exists (payload a), params. split; [apply payload_is|].
  split; [exact R|]. eexists. split; [exact D|]. unfold request_params. cbn [In]. tauto.
Qed.
Lemma result_is w so se stream : read_fastcgi_response stream = ReadOk so se ->
  php_result w (p_lossy w so) (p_lossy w se) (php_answer w stream).
Proof.
  intros H. unfold php_answer, php_made. rewrite H. pose proof (http_body_is (p_lossy w so)) as HB.
  destruct (trim (p_lossy w se)) as [|x y] eqn:E; cbn [is_empty negb].
  - destruct (p_from_str w _) as [v|e] eqn:EF.
    + destruct (vget BRIDGE_ERROR_KEY v) as [[| | |msg| |]|] eqn:EV;
        lazymatch goal with
        | |- php_result _ _ _ (inr _) => eapply pr_refused; [exact E|exact HB|exact EF|exact EV]
        | |- _ => eapply pr_value; [exact E|exact HB|exact EF|intros m0 EM; change (vget BRIDGE_ERROR_KEY v = Some (JStr m0)) in EM; congruence]
        end.
    + eapply pr_garbage; eassumption.
  - rewrite <- E. apply pr_diag. rewrite E. discriminate.
Qed.

(** a call that sends a request *)
Lemma sent w a acts r ep req : exec_php w a = (acts, r) -> In (ASend ep req) acts ->
  exists b peer, bridge_path_for w a.(x_file) = inl b /\
    parse_endpoint w (match a.(x_fpm) with Some t => t | None => [] end) = Some ep /\ p_connect w ep = inl peer /\
    send_fastcgi_request (p_to_vec w (payload a)) b = Some req /\ r = php_answer w (peer req) /\
    (p_exists w b = true \/ In (AWrite b BRIDGE_SCRIPT) acts /\ p_write w b BRIDGE_SCRIPT = None).
Proof.
  intros H HS.
  unfold exec_php in H. destruct (bridge_path_for w (x_file a)) as [b|] eqn:EB; [|injection H as <- <-; destruct HS].
  assert (forall X, In (ASend ep req) ((if p_exists w b then [] else [AWrite b BRIDGE_SCRIPT]) ++ X) -> In (ASend ep req) X) as HM.
  { intros X I. apply in_app_or in I as [I|I]; [|exact I]. destruct (p_exists w b); cbn in I; intuition discriminate. }
  destruct (if p_exists w b then None else p_write w b BRIDGE_SCRIPT) eqn:EW.
  { injection H as <- <-. rewrite <- app_nil_r in HS. apply HM in HS. destruct HS. }
  destruct (parse_endpoint w _) as [ep'|] eqn:EP.
  2:{ injection H as <- <-. rewrite <- app_nil_r in HS. apply HM in HS. destruct HS. }
  destruct (p_connect w ep') as [peer'|] eqn:EC.
  2:{ injection H as <- <-. apply HM in HS. cbn in HS. intuition discriminate. }
  destruct (send_fastcgi_request _ _) as [out|] eqn:ES.
  2:{ injection H as <- <-. apply HM in HS. cbn in HS. intuition discriminate. }
  injection H as <- <-. apply HM in HS. cbn in HS. destruct HS as [HS|[HS|[]]]; [discriminate|]. injection HS as -> ->.
  exists b, peer'. repeat (split; [assumption || reflexivity|]).
  destruct (p_exists w b); [left; reflexivity|right]. split; [|exact EW]. left. reflexivity.
Qed.

(** The script's answer reaches the caller: however the peer cuts its answer into records, the value is the one written by
    the script to its output stream, and an error is reported for anything on its error stream, for an answer that is not
    JSON and for the errors of the bridge. *)
Theorem C68_answer : forall w a acts r ep request peer l e rest,
  exec_php w a = (acts, r) -> In (ASend ep request) acts -> w.(p_connect) ep = inl peer ->
  Forall wire_ok l -> (forall x, In x l -> ~ is_end x) -> wire_ok e -> is_end e ->
  peer request = flat_map wire_bytes l ++ wire_bytes e ++ rest ->
  php_result w (w.(p_lossy) (stream_of 6 l)) (w.(p_lossy) (stream_of 7 l)) r.
Proof.
  intros w a acts r ep req peer l e rest H HS HC HW HN HE HI HA.
  destruct (sent _ _ _ _ _ _ H HS) as (b & peer' & _ & _ & EC & _ & -> & _).
  rewrite HC in EC. injection EC as <-. apply result_is. rewrite HA. apply read_response_end; assumption.
Qed.
Print Assumptions C68_answer.

(** What is sent, where, and when. *)
Theorem C68_request : forall w a acts r ep request,
  exec_php w a = (acts, r) -> In (ASend ep request) acts ->
  endpoint_of w (match a.(x_fpm) with Some t => t | None => [] end) ep /\
  exists bridge, bridge_of w a.(x_file) bridge /\ php_request w a bridge request /\
    (w.(p_exists) bridge = true \/ In (AWrite bridge BRIDGE_SCRIPT) acts /\ w.(p_write) bridge BRIDGE_SCRIPT = None).
Proof.
  intros w a acts r ep req H HS.
  destruct (sent _ _ _ _ _ _ H HS) as (b & peer & EB & EP & _ & ES & _ & EX).
  split; [apply endpoint_is; exact EP|]. exists b. split; [apply bridge_is; exact EB|]. split; [apply request_is; exact ES|exact EX].
Qed.
Print Assumptions C68_request.

(** The only file written is the bridge beside the script, with a fixed content, and never over an existing file. *)
Theorem C68_bridge : forall w a acts r p c, exec_php w a = (acts, r) -> In (AWrite p c) acts ->
  bridge_of w a.(x_file) p /\ c = BRIDGE_SCRIPT /\ w.(p_exists) p = false.
Proof.
  intros w a acts r p c H HS.
  unfold exec_php in H. destruct (bridge_path_for w (x_file a)) as [b|] eqn:EB; [|injection H as <- <-; destruct HS].
  assert (forall X, (forall q d, ~ In (AWrite q d) X) -> In (AWrite p c) ((if p_exists w b then [] else [AWrite b BRIDGE_SCRIPT]) ++ X) ->
    bridge_of w a.(x_file) p /\ c = BRIDGE_SCRIPT /\ w.(p_exists) p = false) as HM.
  { intros X N I. apply in_app_or in I as [I|I]; [|apply N in I; destruct I]. destruct (p_exists w b) eqn:E; [destruct I|].
    destruct I as [I|[]]. injection I as <- <-. split; [apply bridge_is; exact EB|]. split; [reflexivity|exact E]. }
  destruct (if p_exists w b then None else p_write w b BRIDGE_SCRIPT).
  { injection H as <- <-. rewrite <- app_nil_r in HS. eapply HM; [|exact HS]. intros ? ? []. }
  destruct (parse_endpoint w _) as [ep'|].
  2:{ injection H as <- <-. rewrite <- app_nil_r in HS. eapply HM; [|exact HS]. intros ? ? []. }
  destruct (p_connect w ep').
  2:{ injection H as <- <-. eapply HM; [|exact HS]. cbn. intros. intuition discriminate. }
  destruct (send_fastcgi_request _ _).
  2:{ injection H as <- <-. eapply HM; [|exact HS]. cbn. intros. intuition discriminate. }
  injection H as <- <-. eapply HM; [|exact HS]. cbn. intros. intuition discriminate.
Qed.
Print Assumptions C68_bridge.

(** Nothing is sent, and an error is reported, if the endpoint is not well formed, if the connection fails, or if the payload
    is larger than a FastCGI record. *)
Theorem C68_refused : forall w a acts r, exec_php w a = (acts, r) ->
  (~ exists ep, endpoint_of w (match a.(x_fpm) with Some t => t | None => [] end) ep) \/
  (exists ep e, endpoint_of w (match a.(x_fpm) with Some t => t | None => [] end) ep /\ w.(p_connect) ep = inr e) \/
  (forall p, payload_for a p -> (65535 < N.of_nat (length (w.(p_to_vec) p)))%N) ->
  (exists msg, r = inr msg) /\ forall ep request, ~ In (ASend ep request) acts.
Proof.
  intros w a acts r H HB.
  unfold exec_php in H. destruct (bridge_path_for w (x_file a)) as [b|] eqn:EB.
  2:{ injection H as <- <-. split; [eexists; reflexivity|intros ? ? []]. }
  assert (forall ep req X, (forall q d, ~ In (ASend q d) X) -> ~ In (ASend ep req) ((if p_exists w b then [] else [AWrite b BRIDGE_SCRIPT]) ++ X)) as HM.
  { intros ep req X N I. apply in_app_or in I as [I|I]; [|apply N in I; exact I]. destruct (p_exists w b); cbn in I; intuition discriminate. }
  destruct (if p_exists w b then None else p_write w b BRIDGE_SCRIPT).
  { injection H as <- <-. split; [eexists; reflexivity|]. intros ep req I. revert I. rewrite <- (app_nil_r (if p_exists w b then [] else [AWrite b BRIDGE_SCRIPT])). apply HM. intros ? ? []. }
  destruct (parse_endpoint w _) as [ep'|] eqn:EP.
  2:{ injection H as <- <-. split; [eexists; reflexivity|]. intros ep req I. revert I. rewrite <- (app_nil_r (if p_exists w b then [] else [AWrite b BRIDGE_SCRIPT])). apply HM. intros ? ? []. }
  apply endpoint_is in EP.
  destruct (p_connect w ep') as [peer|] eqn:EC.
  2:{ injection H as <- <-. split; [eexists; reflexivity|]. intros ep req. apply HM. intros q d I. cbn in I. intuition discriminate. }
  destruct (send_fastcgi_request _ _) as [out|] eqn:ES.
  2:{ injection H as <- <-. split; [eexists; reflexivity|]. intros ep req. apply HM. intros q d I. cbn in I. intuition discriminate. }
  exfalso. destruct HB as [HB|[(ep & e & HE & HC)|HB]].
  - apply HB. exists ep'. exact EP.
  - apply endpoint_is in EP, HE. rewrite EP in HE. injection HE as ->. congruence.
  - specialize (HB _ (payload_is a)).
    assert (send_fastcgi_request (p_to_vec w (payload a)) b = None) as EN; [|congruence].
    apply request_refused. intros (ps & _ & _ & F). unfold fits, blen in F. lia.
Qed.
Print Assumptions C68_refused.

(** In all other cases the request is sent. *)
Theorem C68_sent : forall w a bridge ep peer, bridge_of w a.(x_file) bridge ->
  (w.(p_exists) bridge = true \/ w.(p_write) bridge BRIDGE_SCRIPT = None) ->
  endpoint_of w (match a.(x_fpm) with Some t => t | None => [] end) ep -> w.(p_connect) ep = inl peer ->
  (forall p, payload_for a p -> exists params, write_params (request_params (w.(p_to_vec) p) bridge) = Some params /\
                                 fits params /\ fits (w.(p_to_vec) p)) ->
  exists acts r request, exec_php w a = (acts, r) /\ In (ASend ep request) acts.
Proof.
  intros w a b ep peer HB HX HE HC HF. apply bridge_path in HB. apply endpoint_is in HE. unfold exec_php. rewrite HB.
  assert ((if p_exists w b then None else p_write w b BRIDGE_SCRIPT) = None) as ->.
  { destruct (p_exists w b); [reflexivity|]. destruct HX as [HX|HX]; [discriminate|exact HX]. }
  rewrite HE, HC. destruct (send_fastcgi_request (p_to_vec w (payload a)) b) as [out|] eqn:ES.
  - eexists. eexists. exists out. split; [reflexivity|]. apply in_or_app. right. right. left. reflexivity.
  - exfalso. apply request_refused in ES. apply ES. apply HF. apply payload_is.
Qed.
Print Assumptions C68_sent.

(** A connection that the peer closes early: an error if nothing came, otherwise what came is taken for the whole answer. *)
Theorem C68_closed : forall w a acts r ep request peer l s,
  exec_php w a = (acts, r) -> In (ASend ep request) acts -> w.(p_connect) ep = inl peer ->
  Forall wire_ok l -> (forall x, In x l -> ~ is_end x) -> truncated s -> peer request = flat_map wire_bytes l ++ s ->
  if is_empty (stream_of 6 l) && is_empty (stream_of 7 l) then r = inr (B "php-fpm response failed: " ++ w.(p_eof))
  else php_result w (w.(p_lossy) (stream_of 6 l)) (w.(p_lossy) (stream_of 7 l)) r.
Proof.
  intros w a acts r ep req peer l s H HS HC HW HN HT HA.
  destruct (sent _ _ _ _ _ _ H HS) as (b & peer' & _ & _ & EC & _ & -> & _). rewrite HC in EC. injection EC as <-.
  pose proof (read_response_closed l s HW HN HT) as HR. rewrite <- HA in HR.
  destruct (is_empty (stream_of 6 l) && is_empty (stream_of 7 l)).
  - unfold php_answer, php_made. rewrite HR. reflexivity.
  - apply result_is. exact HR.
Qed.
Print Assumptions C68_closed.

(** A peer that does not speak FastCGI 1: the message says so, and nothing of the answer is used. *)
Theorem C68_foreign : forall w a acts r ep request peer l c h rest,
  exec_php w a = (acts, r) -> In (ASend ep request) acts -> w.(p_connect) ep = inl peer ->
  Forall wire_ok l -> (forall x, In x l -> ~ is_end x) -> length h = 7 -> N_of_ascii c <> 1%N -> peer request = flat_map wire_bytes l ++ (c :: h) ++ rest ->
  ((exists v, c :: h = B "HTTP/" ++ v) /\ r = inr (B "php-fpm response failed: invalid FastCGI response: endpoint looks like HTTP, not PHP-FPM")) \/
  ((forall v, c :: h <> B "HTTP/" ++ v) /\
   exists n, plain_decimal n (N_of_ascii c) /\ r = inr (B "php-fpm response failed: invalid FastCGI response: unsupported version " ++ n)).
Proof.
  intros w a acts r ep req peer l c h rest H HS HC HW HN HL HV HA.
  destruct (sent _ _ _ _ _ _ H HS) as (b & peer' & _ & _ & EC & _ & -> & _). rewrite HC in EC. injection EC as <-.
  assert (length (c :: h) = 8) as L8 by (cbn [length]; rewrite HL; reflexivity).
  pose proof (read_response_foreign l (c :: h) rest HW HN L8 HV) as HR. rewrite <- HA in HR.
  unfold php_answer, php_made. rewrite HR. destruct (starts_with (B "HTTP/") (c :: h)) eqn:E.
  - left. split; [apply starts_with_iff; exact E|reflexivity].
  - right. split.
    + intros v EV. assert (starts_with (B "HTTP/") (c :: h) = true) as K; [|congruence]. apply starts_with_iff. exists v. exact EV.
    + exists (dec_N (N_of_ascii c)). split; [apply dec_N_plain|reflexivity].
Qed.
Print Assumptions C68_foreign.

(** a call that sends a request and gets the value back, in a world where the bridge has to be written first *)
Definition ex_body : bytes := B "Status: 200" ++ [CR; LF; CR; LF] ++ B " {} ".
Definition ex_world : Php :=
  mkPhp (fun _ => Some (B "/www")) (inr []) (fun _ => false) (fun _ _ => None) (fun _ => Some [B "127.0.0.1:9000"])
    (fun _ => inl (fun _ => flat_map wire_bytes [Wire 6 1 (firstn 5 ex_body) [] "0"; Wire 6 1 (skipn 5 ex_body) (B "pad") "0"]
                            ++ wire_bytes (Wire 3 1 [] [] "0") ++ B "more"))
    (fun _ => B "payload") (fun s => if beq s (B "{}") then inl (JObj []) else inr (B "bad")) (fun s => s) (B "eof").
Definition ex_args : exec_args := mkExec (B "/www/x.php") JNull (B "main") None None None (Some (B " tcp://localhost:9000 ")).
Example C68_example : exists request,
  exec_php ex_world ex_args =
  ([AWrite (B "/www/.neutralts_obj_bridge.php") BRIDGE_SCRIPT; AConnect (Tcp (B "127.0.0.1:9000")); ASend (Tcp (B "127.0.0.1:9000")) request],
   inl (JObj [])).
Proof. eexists. vm_compute. reflexivity. Qed.
Example C68_foreign_example :
  let w := mkPhp (fun _ => Some (B "/www")) (inr []) (fun _ => true) (fun _ _ => None) (fun _ => Some [B "127.0.0.1:9000"])
             (fun _ => inl (fun _ => u8 254 :: B "1234567 and more")) (fun _ => B "payload") (fun _ => inr (B "bad")) (fun s => s) (B "eof") in
  exists acts, exec_php w ex_args = (acts, inr (B "php-fpm response failed: invalid FastCGI response: unsupported version 254")).
Proof. eexists. vm_compute. reflexivity. Qed.
Example C68_refused_example : exists acts e, exec_php ex_world (mkExec (B "/www/x.php") JNull (B "main") None None None (Some (B "unix:"))) = (acts, inr e).
Proof. eexists. eexists. vm_compute. reflexivity. Qed.
