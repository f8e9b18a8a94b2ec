(** * Property theorems: what happens inside PHP when a template calls a PHP script *)

From Verif Require Import Bytes Json State FastCgi Spec PhpExec SpecPhp BytesFacts FastCgiProofs PropertiesPhp PhpBridge SpecBridge.

(** ** C93 *)
Lemma records_fun s l1 : records s l1 -> forall l2, records s l2 -> l1 = l2.
Proof.
  induction 1 as [|s rest r l D R IH]; intros l2 H2; inversion H2 as [|s' rest' r' l' D' R']; subst.
  - reflexivity.
  - discriminate.
  - discriminate.
  - rewrite D in D'. injection D' as <- <-. rewrite (IH _ R'). reflexivity.
Qed.

Lemma coalesce_some k p d v : vget k p = Some v -> v <> JNull -> coalesce k p d = v.
Proof. intros H N. unfold coalesce. rewrite H. destruct v; [contradiction|reflexivity..]. Qed.
Lemma coalesce_null k p v : vget k p = Some v -> coalesce k p JNull = v.
Proof. intros H. unfold coalesce. rewrite H. destruct v; reflexivity. Qed.

Section Run.
Variables (w : Php) (h : Hyp) (php : json -> json) (a : exec_args) (p : json).
Hypothesis HA : arrives w h php a.
Hypothesis HP : payload_for a p.

Lemma bridge_members : exists m, h.(h_decode) (w.(p_to_vec) p) = JObj m /\
  coalesce (B "script_file") (JObj m) (JStr []) = JStr a.(x_file) /\
  coalesce (B "callback") (JObj m) (JStr (B "main")) = JStr a.(x_callback) /\
  coalesce (B "params") (JObj m) (JArr []) = php_params php a /\ globals_of (JObj m) = php_globals php a.
Proof.
  destruct HA as (H0 & HS & HD). destruct (HD _ HP) as [[m EM] G]. exists m. split; [exact EM|]. rewrite EM in G.
  destruct HP as (P1 & P2 & P3 & P4 & P5 & P6). apply G in P1, P2, P3, P4, P5, P6; [|cbn [In]; tauto..]. rewrite HS in P1, P2, P6.
  repeat match goal with |- _ /\ _ => split end.
  - apply coalesce_some; [exact P1|discriminate].
  - apply coalesce_some; [exact P2|discriminate].
  - unfold coalesce, php_params. rewrite P3. destruct (php (x_params a)); reflexivity.
  - unfold globals_of, php_globals. rewrite (coalesce_null _ _ _ P4), (coalesce_null _ _ _ P5), (coalesce_null _ _ _ P6). reflexivity.
Qed.

Lemma bridge_story : exists printed e, story h php a printed e /\ snd (run_bridge h (w.(p_to_vec) p)) = printed ++ last_words e.
Proof.
  destruct bridge_members as (m & EM & E1 & E2 & E3 & E4). unfold run_bridge. rewrite EM, E1, E2, E3, E4.
  destruct (is_empty (x_file a) || negb (h_is_file h (x_file a))) eqn:EF.
  { eexists. eexists. split; [apply st_missing|reflexivity]. apply orb_true_iff in EF as [EF|EF].
    - left. destruct (x_file a); [reflexivity|discriminate].
    - right. destruct (h_is_file h (x_file a)); [discriminate|reflexivity]. }
  apply orb_false_iff in EF as [EF EI]. apply negb_false_iff in EI.
  assert (x_file a <> []) as NE by (intros E; rewrite E in EF; discriminate).
  destruct (h_load h (x_file a) (php_globals php a)) as [out [[]| |]] eqn:EL.
  - destruct (h_callable h (x_file a) (JStr (x_callback a))) eqn:EC.
    + destruct (h_call h (x_file a) (php_globals php a) (JStr (x_callback a)) (php_params php a)) as [out2 r] eqn:ER.
      exists (out ++ out2). eexists. split; [eapply st_called; eassumption|]. cbn [snd]. unfold bridge_call. rewrite ER, <- app_assoc. f_equal.
      destruct r as [v| |]; [destruct (h_encode h v)| |]; try reflexivity. cbn [last_words]. rewrite app_nil_r. reflexivity.
    + exists out. eexists. split; [eapply st_no_callback; eassumption|reflexivity].
  - exists out. eexists. split; [eapply st_load_throws; eassumption|reflexivity].
  - exists out. eexists. split; [eapply st_load_ends; eassumption|]. cbn [snd last_words]. rewrite app_nil_r. reflexivity.
Qed.
End Run.

(** The script is loaded at most once and the callback is called at most once, after the script was loaded and the three
    global variables were set, with the parameters of the call; nothing else is loaded or called. *)
Theorem C93_once : forall w h php a p did text, arrives w h php a -> payload_for a p ->
  run_bridge h (w.(p_to_vec) p) = (did, text) ->
  exists rest, did = map (fun kv => BSet (fst kv) (snd kv)) (php_globals php a) ++ rest /\
    (rest = [] /\ (a.(x_file) = [] \/ h.(h_is_file) a.(x_file) = false) \/
     a.(x_file) <> [] /\ h.(h_is_file) a.(x_file) = true /\
     (rest = [BLoad a.(x_file)] /\
        (~ (exists out, h.(h_load) a.(x_file) (php_globals php a) = (out, Returns tt)) \/
         h.(h_callable) a.(x_file) (JStr a.(x_callback)) = false) \/
      rest = [BLoad a.(x_file); BCall (JStr a.(x_callback)) (php_params php a)] /\
        (exists out, h.(h_load) a.(x_file) (php_globals php a) = (out, Returns tt)) /\
        h.(h_callable) a.(x_file) (JStr a.(x_callback)) = true)).
Proof.
  intros w h php a p did text HA HP HR. destruct (bridge_members w h php a p HA HP) as (m & EM & E1 & E2 & E3 & E4).
  unfold run_bridge in HR. rewrite EM, E1, E2, E3, E4 in HR.
  destruct (is_empty (x_file a) || negb (h_is_file h (x_file a))) eqn:EF.
  { injection HR as <- <-. exists []. rewrite app_nil_r. split; [reflexivity|]. left. split; [reflexivity|].
    apply orb_true_iff in EF as [EF|EF].
    - left. destruct (x_file a); [reflexivity|discriminate].
    - right. destruct (h_is_file h (x_file a)); [discriminate|reflexivity]. }
  apply orb_false_iff in EF as [EF EI]. apply negb_false_iff in EI.
  assert (x_file a <> []) as NE by (intros E; rewrite E in EF; discriminate).
  destruct (h_load h (x_file a) (php_globals php a)) as [out [[]| |]] eqn:EL.
  - destruct (h_callable h (x_file a) (JStr (x_callback a))) eqn:EC; injection HR as <- <-; eexists; (split; [reflexivity|]);
      right; split; [exact NE|split; [exact EI|]|exact NE|split; [exact EI|]].
    + right. split; [reflexivity|]. split; [exists out; reflexivity|reflexivity].
    + left. split; [reflexivity|]. right. reflexivity.
  - injection HR as <- <-. eexists. split; [reflexivity|]. right. split; [exact NE|]. split; [exact EI|]. left. split; [reflexivity|].
    left. intros [o E]. discriminate.
  - injection HR as <- <-. eexists. split; [reflexivity|]. right. split; [exact NE|]. split; [exact EI|]. left. split; [reflexivity|].
    left. intros [o E]. discriminate.
Qed.
Print Assumptions C93_once.

(** From the call in the template to the result: if the peer is PHP-FPM, the caller hears what the script printed followed by
    the JSON of the callback's result, or by the failure of the first step that failed. *)
Theorem C93_result : forall w h php a acts r ep request peer,
  arrives w h php a -> exec_php w a = (acts, r) -> In (ASend ep request) acts -> w.(p_connect) ep = inl peer ->
  (forall bridge, bridge_of w a.(x_file) bridge -> serves w h bridge peer) ->
  exists printed e, story h php a printed e /\ heard w (printed ++ last_words e) r.
Proof.
  intros w h php a acts r ep req peer HA HX HS HC HB.
  destruct (C68_request _ _ _ _ _ _ HX HS) as (_ & bridge & B1 & (p & params & HP & HR & l & HD & HI & _) & _).
  destruct (HB _ B1 _ _ _ _ HR HD HI) as (ws & e0 & rest & header & W1 & W2 & W3 & W4 & EA & NB & E6 & E7 & L6 & L0).
  pose proof (C68_answer _ _ _ _ _ _ _ _ _ _ HX HS HC W1 W2 W3 W4 EA) as PR. rewrite L6, E7, L0, E6 in PR.
  destruct (bridge_story w h php a p HA HP) as (printed & e & ST & ET). exists printed, e. split; [exact ST|]. rewrite <- ET.
  set (text := snd (run_bridge h (p_to_vec w p))) in *. clearbody text.
  assert (forall b, http_body (header ++ [CR; LF; CR; LF] ++ text) b -> b = text) as HU.
  { intros b Hb. pose proof (http_body_crlf header text NB) as E.
    destruct Hb as [h1 b1 E1 N1|h1 b1 N1 E1 N2|N1 N2].
    - pose proof (http_body_crlf h1 b1 N1) as E2. rewrite <- E1 in E2. congruence.
    - destruct N1. exists header, text. reflexivity.
    - destruct N1. exists header, text. reflexivity. }
  inversion PR as [D|b e1 D Hb F|b v msg D Hb F V|b v D Hb F V]; subst.
  - contradiction D. reflexivity.
  - apply HU in Hb as ->. apply he_garbage. exact F.
  - apply HU in Hb as ->. eapply he_refused; eassumption.
  - apply HU in Hb as ->. apply he_value; assumption.
Qed.
Print Assumptions C93_result.

Definition failures : list bytes :=
  [B "obj script not found"; B "php script load failed"; B "callback not found"; B "callback execution failed"; B "invalid callback response"].
Definition word_char (c : ascii) : bool := aeqb c " "%char || (97 <=? N_of_ascii c)%N && (N_of_ascii c <=? 122)%N.
Lemma failures_ok : forallb (fun m => forallb word_char m && beq (trim (error_json m)) (error_json m)) failures = true.
Proof. vm_compute. reflexivity. Qed.
Lemma failures_all h php a printed e msg : story h php a printed e -> e = Failed msg -> In msg failures.
Proof.
  intros ST. destruct ST as [| | | |? ? r]; intros E; unfold failures; cbn [In].
  - injection E as <-. tauto.
  - injection E as <-. tauto.
  - discriminate.
  - injection E as <-. tauto.
  - destruct r as [v| |]; [destruct (h_encode h v)| |]; try discriminate E; injection E as <-; tauto.
Qed.
Lemma failures_read h php a printed msg : story h php a printed (Failed msg) ->
  Forall (fun c => c = " "%char \/ (97 <= N_of_ascii c <= 122)%N) msg /\
  trim (B "{""__neutralts_obj_error"":""" ++ msg ++ B """}") = B "{""__neutralts_obj_error"":""" ++ msg ++ B """}".
Proof.
  intros ST. pose proof (failures_all _ _ _ _ _ _ ST eq_refl) as I. pose proof failures_ok as F. rewrite forallb_forall in F.
  apply F in I. apply andb_true_iff in I as [I1 I2]. split.
  - apply Forall_forall. intros c Hc. rewrite forallb_forall in I1. apply I1 in Hc. unfold word_char in Hc.
    apply orb_true_iff in Hc as [Hc|Hc]; [left; apply Ascii.eqb_eq in Hc; exact Hc|].
    right. apply andb_true_iff in Hc as [H1 H2]. apply N.leb_le in H1, H2. split; assumption.
  - destruct (beq_spec (trim (error_json msg)) (error_json msg)) as [E|]; [exact E|discriminate].
Qed.

(** A call whose script prints nothing by itself yields the callback's result as JSON, or the failure by its name. *)
Theorem C93_quiet : forall w h php a acts r ep request peer,
  arrives w h php a -> reads_failures w -> exec_php w a = (acts, r) -> In (ASend ep request) acts -> w.(p_connect) ep = inl peer ->
  (forall bridge, bridge_of w a.(x_file) bridge -> serves w h bridge peer) ->
  (forall g, fst (h.(h_load) a.(x_file) g) = []) -> (forall g c v, fst (h.(h_call) a.(x_file) g c v) = []) ->
  exists e, story h php a [] e /\ quiet_result w e r.
Proof.
  intros w h php a acts r ep req peer HA HF HX HS HC HB Q1 Q2.
  destruct (C93_result _ _ _ _ _ _ _ _ _ HA HX HS HC HB) as (printed & e & ST & HH).
  assert (printed = []) as ->.
  { destruct ST as [|out ? ? E|out ? ? E|out ? ? E|out out2 r0 ? ? E ? E2]; [reflexivity|..].
    1-3: pose proof (Q1 (php_globals php a)) as Q; rewrite E in Q; exact Q.
    pose proof (Q1 (php_globals php a)) as Q. rewrite E in Q. cbn in Q. subst out.
    pose proof (Q2 (php_globals php a) (JStr (x_callback a)) (php_params php a)) as Q. rewrite E2 in Q. exact Q. }
  exists e. split; [exact ST|]. cbn [app] in HH. destruct e as [msg| |j]; [|exact HH..].
  cbn [quiet_result last_words] in *.
  destruct (failures_read _ _ _ _ _ ST) as [FW ET]. pose proof (HF _ FW) as FE.
  inversion HH as [e1 E|v m E V|v E V]; subst; rewrite ET, FE in E.
  - discriminate.
  - injection E as <-. cbn in V. injection V as <-. reflexivity.
  - injection E as <-. destruct (V msg). reflexivity.
Qed.
Print Assumptions C93_quiet.

(** A world with PHP-FPM: the function main of /www/x.php returns its parameters; of another function is nothing known. *)
Definition hyp0 : Hyp :=
  mkHyp (fun _ => JObj [(B "script_file", JStr (B "/www/x.php")); (B "callback", JStr (B "main")); (B "params", JStr (B "hello"));
                        (B "schema", JNull); (B "schema_data", JNull); (B "venv", JStr [])])
    (fun v => match v with PJson (JStr s) => Some (B """" ++ s ++ B """") | _ => None end)
    (beq (B "/www/x.php")) (fun _ _ => ([], Returns tt)) (fun _ c => match c with JStr s => beq s (B "main") | _ => false end)
    (fun _ _ _ v => ([], Returns (PJson v))).
Definition fpm_answer : bytes := B "Content-Type: application/json" ++ [CR; LF; CR; LF] ++ snd (run_bridge hyp0 (B "payload")).
Definition php_world : Php :=
  mkPhp (fun _ => Some (B "/www")) (inr []) (fun _ => true) (fun _ _ => None) (fun _ => Some [B "127.0.0.1:9000"])
    (fun _ => inl (fun _ => flat_map wire_bytes [Wire 6 1 (firstn 5 fpm_answer) [] "0"; Wire 6 1 (skipn 5 fpm_answer) (B "pad") "0"]
                            ++ wire_bytes (Wire 3 1 [] [] "0")))
    (fun _ => B "payload")
    (fun s => if beq s (B """hello""") then inl (JStr (B "hello"))
              else inl (JObj [(B "__neutralts_obj_error", JStr (firstn (length s - 28) (skipn 26 s)))])) (fun s => s) (B "eof").
Definition php_args : exec_args := mkExec (B "/www/x.php") (JStr (B "hello")) (B "main") None None None (Some (B "localhost:9000")).

Lemma php_arrives : arrives php_world hyp0 (fun v => v) php_args.
Proof.
  split; [reflexivity|]. split; [reflexivity|]. intros p (P1 & P2 & P3 & P4 & P5 & P6). split; [eexists; reflexivity|].
  intros k v I E. cbn [In] in I.
  repeat match type of I with _ \/ _ => destruct I as [<-|I] end; try (destruct I); cbn [p_to_vec php_world h_decode hyp0];
  match goal with H1 : ?x = Some _, H2 : ?x = Some _ |- _ => rewrite H1 in H2; injection H2 as <-; reflexivity end.
Qed.
Lemma php_serves bridge : serves php_world hyp0 bridge (fun _ => flat_map wire_bytes [Wire 6 1 (firstn 5 fpm_answer) [] "0"; Wire 6 1 (skipn 5 fpm_answer) (B "pad") "0"]
                            ++ wire_bytes (Wire 3 1 [] [] "0")).
Proof.
  intros request params raw l _ _ _. exists [Wire 6 1 (firstn 5 fpm_answer) [] "0"; Wire 6 1 (skipn 5 fpm_answer) (B "pad") "0"],
    (Wire 3 1 [] [] "0"), [], (B "Content-Type: application/json").
  split; [repeat constructor; vm_compute; discriminate|]. split; [intros x [<-|[<-|[]]] [_ H]; discriminate|].
  split; [repeat constructor; vm_compute; discriminate|]. split; [split; reflexivity|]. split; [rewrite app_nil_r; reflexivity|].
  split; [intros H; apply contains_iff in H; vm_compute in H; discriminate|].
  split; [vm_compute; reflexivity|]. split; [reflexivity|]. split; reflexivity.
Qed.
Lemma php_reads : reads_failures php_world.
Proof.
  intros msg _. cbn [p_from_str php_world]. destruct (beq_spec (B "{""__neutralts_obj_error"":""" ++ msg ++ B """}") (B """hello""")) as [E|_];
  [discriminate|]. f_equal. f_equal. f_equal. f_equal. f_equal.
  rewrite skipn_app_l by reflexivity. rewrite !app_length. cbn [length B list_ascii_of_string].
  apply firstn_app_l. lia.
Qed.
(** the hypotheses of the theorems hold of this call, which yields the callback's result *)
Example C93_example : exists acts request,
  exec_php php_world php_args = (acts, inl (JStr (B "hello"))) /\ In (ASend (Tcp (B "127.0.0.1:9000")) request) acts /\
  story hyp0 (fun v => v) php_args [] (Answered (B """hello""")) /\
  fst (run_bridge hyp0 (B "payload")) =
    [BSet (B "__NEUTRAL_SCHEMA__") JNull; BSet (B "__NEUTRAL_SCHEMA_DATA__") JNull; BSet (B "__NEUTRAL_VENV__") (JStr []);
     BLoad (B "/www/x.php"); BCall (JStr (B "main")) (JStr (B "hello"))].
Proof.
  eexists. eexists. split; [vm_compute; reflexivity|]. split; [right; left; reflexivity|]. split; [|vm_compute; reflexivity].
  apply (st_called hyp0 (fun v => v) php_args [] [] (Returns (PJson (JStr (B "hello"))))); vm_compute; reflexivity || discriminate.
Qed.
