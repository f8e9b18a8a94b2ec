(** * Property theorems: script objects from the template to the callback and back (C106) *)

From Verif Require Import Bytes Json Utils State Engine Spec SpecEngine FastCgi FastCgiProofs HandlerProofs PropertiesObj PhpExec SpecPhp PropertiesPhp
  PhpBridge SpecBridge PropertiesBridge Socket SpecSocket PropertiesSocket BytesFacts Samples.

(** a PHP call of the engine is made over the socket [conn] in the world [w] *)
Definition php_over (env : Env) (w : PhpExec.Php) (conn : endpoint -> connection) (tr : trace) (x : exec_args) : Prop :=
  exists acts t, exec_php_over w conn x = (acts, env.(e_php) tr x, t).

(** the script defines the callback and the callback returns [v]; neither prints anything *)
Definition callback_returns (h : Hyp) (php : json -> json) (x : exec_args) (v : pval) : Prop :=
  x.(x_file) <> [] /\ h.(h_is_file) x.(x_file) = true /\ (forall g, h.(h_load) x.(x_file) g = ([], Returns tt)) /\
  h.(h_callable) x.(x_file) (JStr x.(x_callback)) = true /\
  h.(h_call) x.(x_file) (php_globals php x) (JStr x.(x_callback)) (php_params php x) = ([], Returns v) /\
  (forall g c p, fst (h.(h_call) x.(x_file) g c p) = []).

Lemma php_value env w h php conn tr x ep req v j res acts0 r0 peer :
  php_over env w conn tr x -> SpecBridge.arrives w h php x -> reads_failures w ->
  exec_php w x = (acts0, r0) -> In (ASend ep req) acts0 -> w.(p_connect) ep = inl peer ->
  (forall bridge, bridge_of w x.(x_file) bridge -> serves w h bridge peer) ->
  (forall ep peer, w.(p_connect) ep = inl peer ->
     takes_all (conn ep).(n_out) /\ forall req, delivers (conn ep).(n_late) ((conn ep).(n_in) req) (peer req) Closed) ->
  callback_returns h php x v -> h.(h_encode) v = Some j -> w.(p_from_str) (trim j) = inl res ->
  (forall msg, vget (B "__neutralts_obj_error") res <> Some (JStr msg)) ->
  env.(e_php) tr x = inl res.
Proof.
  intros (acts & t & EX) HA HF E0 HS HC HB HO (F1 & F2 & F3 & F4 & F5 & F6) HE HJ HN.
  destruct (C105_call _ _ _ _ _ _ HO EX) as (ER & _). rewrite E0 in ER. cbn [snd] in ER. rewrite ER.
  destruct (C93_quiet _ _ _ _ _ _ _ _ _ HA HF E0 HS HC HB) as (e & ST & Q).
  { intro g. rewrite F3. reflexivity. }
  { exact F6. }
  assert (e = Answered j) as ->.
  { remember (@nil ascii) as pr eqn:EP. destruct ST as [[Z|Z]|out A1 A2 A3|out A1 A2 A3|out A1 A2 A3 A4|out out2 r A1 A2 A3 A4 A5]; try congruence.
    rewrite F5 in A5. assert (r = Returns v) as -> by congruence. rewrite HE. reflexivity. }
  cbn [quiet_result] in Q. inversion Q; subst; congruence.
Qed.

(** What the callback returns is what the block of the object sees, however the data travelled. *)
Theorem C106_php : forall env w h php conn s i mods body only file raw s1 m m' s2 x s3 res d t ep req v j acts0 r0 peer, Forall modifier mods ->
  ~ In "&"%char mods -> ~ In "!"%char mods -> may_start s -> selected only i mods (B "obj") ->
  let i1 := started_in s i in
  (* the object *)
  description env (started s) i1 only (params_of (obj_body body)) file raw s1 ->
  env.(e_from_str) (trim raw) = inl (JObj m) -> asks_for env (JObj m) SpecEngine.Php ->
  members env file i1 only false m s1 m' s2 -> calls env s2 i1 SpecEngine.Php (JObj m') x s3 ->
  (* the call: PHP-FPM at the other end of a connection that does not fail *)
  php_over env w conn s3.(strace) x -> SpecBridge.arrives w h php x -> reads_failures w ->
  exec_php w x = (acts0, r0) -> In (ASend ep req) acts0 -> w.(p_connect) ep = inl peer ->
  (forall bridge, bridge_of w x.(x_file) bridge -> serves w h bridge peer) ->
  (forall ep peer, w.(p_connect) ep = inl peer ->
     takes_all (conn ep).(n_out) /\ forall req, delivers (conn ep).(n_late) ((conn ep).(n_in) req) (peer req) Closed) ->
  (* the callback and its answer *)
  callback_returns h php x v -> h.(h_encode) v = Some j -> w.(p_from_str) (trim j) = inl res ->
  (forall msg, vget (B "__neutralts_obj_error") res <> Some (JStr msg)) ->
  data_part env res d -> template_part (JObj m') t ->
  eval_bif env s i (bif_text mods (B "obj") body) only =
  and_then (eval_in env (B "obj") file (has_mod "+" mods) (add_event (EvPhp x (inl res)) s3) i1 (d ++ t ++ code_of (obj_body body)) only) (finished mods).
Proof.
  intros env w h php conn s i mods body only file raw s1 m m' s2 x s3 res d t ep req v j acts0 r0 peer HM HA HG HS HO i1 HDe HJ HEn HMe HCa
    HOv HAr HF E0 HSe HC HB HCo HCb HE HP HN HDa HT.
  assert (answer env SpecEngine.Php s3 x = inl res) as AN by (eapply php_value; eassumption).
  rewrite (C78_call env s i mods body only file raw s1 m SpecEngine.Php m' s2 x s3 res d t HM HA HG HS HO HDe HJ HEn HMe HCa AN HDa HT).
  fold i1. unfold after_call. rewrite AN. reflexivity.
Qed.
Print Assumptions C106_php.

(** A connection that breaks or stalls before the answer is whole is an error of the bif, with the reason; nothing of the answer is used. *)
Theorem C106_broken : forall env w conn s i mods body only file raw s1 m m' s2 x s3 ep sent u e acts t, Forall modifier mods ->
  ~ In "&"%char mods -> ~ In "!"%char mods -> may_start s -> selected only i mods (B "obj") -> has_data s -> can_report s ->
  let i1 := started_in s i in
  description env (started s) i1 only (params_of (obj_body body)) file raw s1 ->
  env.(e_from_str) (trim raw) = inl (JObj m) -> asks_for env (JObj m) SpecEngine.Php ->
  members env file i1 only false m s1 m' s2 -> calls env s2 i1 SpecEngine.Php (JObj m') x s3 ->
  exec_php_over w conn x = (acts, env.(e_php) s3.(strace) x, t) -> In (ASend ep sent) acts ->
  delivers (conn ep).(n_late) ((conn ep).(n_in) sent) u (Fault e) -> ~ answered u -> ~ foreign u ->
  exists msg, (msg = B "php-fpm response failed: " ++ e \/ exists e', msg = B "php-fpm request failed: " ++ e') /\
  eval_bif env s i (bif_text mods (B "obj") body) only =
  failed env msg (B "obj") mods (bif_text mods (B "obj") body) [] (add_event (EvPhp x (inr msg)) s3) i1.
Proof.
  intros env w conn s i mods body only file raw s1 m m' s2 x s3 ep sent u e acts t HM HA HG HS HO HHD HRep i1 HDe HJ HEn HMe HCa EX HSe HDv NA NF.
  assert (exists msg, (msg = B "php-fpm response failed: " ++ e \/ exists e', msg = B "php-fpm request failed: " ++ e') /\ answer env SpecEngine.Php s3 x = inr msg) as (msg & EM & AN).
  { cbn [answer]. unfold exec_php_over in EX.
    destruct (bridge_path_for w (x_file x)) as [b|e0] eqn:EB; [|assert (acts = []) as -> by congruence; destruct HSe].
    set (made := if p_exists w b then [] else [AWrite b BRIDGE_SCRIPT]) in *.
    assert (forall X, (forall q d, ~ In (ASend q d) X) -> ~ In (ASend ep sent) (made ++ X)) as NI.
    { intros X NX I. apply in_app_or in I as [I|I]; [|exact (NX _ _ I)]. unfold made in I. destruct (p_exists w b); cbn in I; intuition discriminate. }
    destruct (if p_exists w b then None else p_write w b BRIDGE_SCRIPT) as [e0|].
    { assert (acts = made ++ []) as -> by (rewrite app_nil_r; congruence). exfalso. exact (NI [] (fun _ _ F => F) HSe). }
    destruct (parse_endpoint w _) as [ep'|].
    2:{ assert (acts = made ++ []) as -> by (rewrite app_nil_r; congruence). exfalso. exact (NI [] (fun _ _ F => F) HSe). }
    destruct (p_connect w ep') as [peer|e0].
    2:{ assert (acts = made ++ [AConnect ep']) as -> by congruence. exfalso. refine (NI [AConnect ep'] _ HSe). cbn. intros. intuition discriminate. }
    set (g := transmit _ _ _ _ _) in *.
    assert (acts = made ++ [AConnect ep'; ASend ep' (g_sent g)]) as EA.
    { destruct (g_error g); [congruence|]. destruct (receive_response _ _). congruence. }
    rewrite EA in HSe. apply in_app_or in HSe as [I|I]; [unfold made in I; destruct (p_exists w b); cbn in I; intuition discriminate|].
    cbn [In] in I. destruct I as [I|[I|[]]]; [discriminate|]. injection I as -> <-.
    destruct (g_error g) as [e0|] eqn:EG.
    - exists (B "php-fpm request failed: " ++ e0). split; [right; exists e0; reflexivity|congruence].
    - exists (B "php-fpm response failed: " ++ e). split; [left; reflexivity|].
      destruct (C105_broken _ _ _ _ HDv) as (_ & _ & HL). specialize (HL NA NF). destruct (receive_response (n_late (conn ep)) (n_in (conn ep) (g_sent g))) as [t' r']. cbn [snd] in HL. subst r'. congruence. }
  exists msg. split; [exact EM|].
  rewrite (C78_script_error env s i mods body only file raw s1 m SpecEngine.Php m' s2 x s3 msg HM HA HG HS HO HHD HRep HDe HJ HEn HMe HCa AN).
  fold i1. unfold after_call. rewrite AN. reflexivity.
Qed.
Print Assumptions C106_broken.

(** A world with PHP-FPM behind a Unix socket; the function main of /x.php returns ["data" => ["x" => "new"]].  The answer comes in one byte a
    second. *)
Definition new_text : bytes := B "{""data"":{""x"":""new""}}".
Definition new_value : json := JObj [(B "data", JObj [(B "x", JStr (B "new"))])].
Definition hyp1 : Hyp :=
  mkHyp (fun _ => JObj [(B "script_file", JStr (B "/x.php")); (B "callback", JStr (B "main")); (B "params", JNull);
                        (B "schema", JNull); (B "schema_data", JNull); (B "venv", JStr [])])
    (fun _ => Some new_text) (beq (B "/x.php")) (fun _ _ => ([], Returns tt)) (fun _ c => match c with JStr s => beq s (B "main") | _ => false end)
    (fun _ _ _ _ => ([], Returns (PJson new_value))).
Definition fpm_text : bytes := B "Content-Type: application/json" ++ [CR; LF; CR; LF] ++ snd (run_bridge hyp1 (B "payload")).
Definition fpm_bytes : bytes := flat_map wire_bytes [Wire 6 1 (firstn 5 fpm_text) [] "0"; Wire 6 1 (skipn 5 fpm_text) (B "pad") "0"] ++ wire_bytes (Wire 3 1 [] [] "0").
Definition php_world1 : PhpExec.Php :=
  mkPhp (fun _ => Some (B "/")) (inr []) (fun _ => true) (fun _ _ => None) (fun _ => None) (fun _ => inl (fun _ => fpm_bytes)) (fun _ => B "payload")
    (fun s => if beq s new_text then inl new_value
              else inl (JObj [(B "__neutralts_obj_error", JStr (firstn (length s - 28) (skipn 26 s)))])) (fun s => s) (B "eof").
Definition pieces (s : bytes) : incoming := map (fun c => (1000%N, Came [c])) s.
Definition conn1 (l : incoming) : endpoint -> connection := fun _ => mkConnection [(1%N, Took 1); (0%N, WSignal)] (fun _ => l) (B "timed out") (B "zero").
Definition env_php (conn : endpoint -> connection) : Env :=
  mkEnv (fun s => s) (fun s => B "abc" ++ s) (fun s => s)
        (fun t => if beq t (B "{""engine"":""php"",""file"":""x.php""}") then inl (JObj [(B "engine", JStr (B "php")); (B "file", JStr (B "x.php"))])
                  else if beq t new_text then inl new_value else inr (B "not JSON"))
        (fun _ => new_text) (fun _ => B "{}") (fun a _ => a) (fun _ => None) (fun _ s => Some s) (B "/cwd") (B "/tmp")
        (fun _ p => beq p (B "x.php")) (fun _ _ => false) (fun _ p => Some (B "/" ++ p)) (fun _ _ => None) (fun _ _ => B "no file")
        (fun _ _ => None) (fun _ _ => None) (fun _ _ _ => None) (fun _ _ => None) (fun _ _ => None)
        (fun _ => 100%N) (fun _ => B "now") (fun _ lo _ => lo) (fun _ => B "0123456789abcdef")
        (fun _ _ => inr (B "no python")) (fun _ a => snd (fst (exec_php_over php_world1 conn a))).
Example C106_example :
  output_in (env_php (conn1 (pieces fpm_bytes))) "<{:obj; {""engine"":""php"",""file"":""x.php""} >> [{:;local::x:}] :}>" = B "<[new]>" /\
  output_in (env_php (conn1 (firstn 60 (pieces fpm_bytes) ++ [(6000%N, Signal)]))) "<{:obj; {""engine"":""php"",""file"":""x.php""} >> [{:;local::x:}] :}{:else;no answer:}>" = B "<no answer>".
Proof. split; vm_compute; reflexivity. Qed.

(** the hypotheses of C106_php about the call hold in it *)
Example C106_hypotheses :
  let x := mkExec (B "/x.php") JNull (B "main") None None None (Some (B "unix:/run/php/php-fpm.sock")) in
  SpecBridge.arrives php_world1 hyp1 (fun v => v) x /\ reads_failures php_world1 /\
  (forall bridge, serves php_world1 hyp1 bridge (fun _ => fpm_bytes)) /\
  (forall ep peer, php_world1.(p_connect) ep = inl peer ->
     takes_all (conn1 (pieces fpm_bytes) ep).(n_out) /\ forall req, delivers (conn1 (pieces fpm_bytes) ep).(n_late) ((conn1 (pieces fpm_bytes) ep).(n_in) req) (peer req) Closed) /\
  callback_returns hyp1 (fun v => v) x (PJson new_value) /\
  (exists acts0 r0 req, exec_php php_world1 x = (acts0, r0) /\ In (ASend (Unix (B "/run/php/php-fpm.sock")) req) acts0) /\
  (forall msg, vget (B "__neutralts_obj_error") new_value <> Some (JStr msg)).
Proof.
  intro x. split; [|split; [|split; [|split; [|split; [|split]]]]].
  - split; [reflexivity|]. split; [reflexivity|]. intros p (P1 & P2 & P3 & P4 & P5 & P6). split; [eexists; reflexivity|].
    intros k v I E. cbn [In] in I.
    repeat match type of I with _ \/ _ => destruct I as [<-|I] end; try (destruct I); cbn [p_to_vec php_world1 h_decode hyp1];
    match goal with H1 : ?x = Some _, H2 : ?x = Some _ |- _ => rewrite H1 in H2; injection H2 as <-; reflexivity end.
  - intros msg _. cbn [p_from_str php_world1]. destruct (beq_spec (B "{""__neutralts_obj_error"":""" ++ msg ++ B """}") new_text) as [E|_];
    [discriminate|]. f_equal. f_equal. f_equal. f_equal. f_equal.
    rewrite skipn_app_l by reflexivity. rewrite !app_length. cbn [length B list_ascii_of_string].
    apply firstn_app_l. lia.
  - intros bridge request params raw l _ _ _. exists [Wire 6 1 (firstn 5 fpm_text) [] "0"; Wire 6 1 (skipn 5 fpm_text) (B "pad") "0"],
      (Wire 3 1 [] [] "0"), [], (B "Content-Type: application/json").
    split; [repeat constructor; vm_compute; discriminate|]. split; [intros y [<-|[<-|[]]] [_ H]; discriminate|].
    split; [repeat constructor; vm_compute; discriminate|]. split; [split; reflexivity|]. split; [rewrite app_nil_r; reflexivity|].
    split; [intros H; apply contains_iff in H; vm_compute in H; discriminate|].
    split; [vm_compute; reflexivity|]. split; [reflexivity|]. split; reflexivity.
  - intros ep peer E. assert (peer = fun _ => fpm_bytes) as -> by (cbn [p_connect php_world1] in E; congruence). split.
    + constructor; [split; [reflexivity|discriminate]|]. constructor; [split; [reflexivity|exact I]|]. constructor.
    + intros req. cbv beta. cbn [conn1 n_in n_late]. generalize fpm_bytes. intro s. induction s as [|c s IH]; [constructor|].
      change (pieces (c :: s)) with ((1000%N, Came [c]) :: pieces s). change (c :: s) with ([c] ++ s). constructor; [reflexivity|discriminate|exact IH].
  - split; [discriminate|]. split; [reflexivity|]. split; [reflexivity|]. split; [reflexivity|]. split; reflexivity.
  - eexists. eexists. eexists. split; [vm_compute; reflexivity|]. right. left. reflexivity.
  - intros msg E. vm_compute in E. discriminate.
Qed.
