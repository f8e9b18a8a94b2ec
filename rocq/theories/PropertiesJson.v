(** * C98: JSON text, and what it means for C12, C49, C77 and C85 *)
From Verif Require Import PropertiesMisc TraceProofs Bytes Json Utils ConstantsGen State Engine Template Spec SpecEngine SpecParts BytesFacts NumberProofs WordProofs
  MergeProofs TemplateProofs EvalProofs HandlerProofs Samples PropertiesVars PropertiesCache PropertiesObj PropertiesParts
  JsonText SpecJson JsonProofs.

(** ** Texts and values *)
(** The reader accepts exactly the texts of the grammar, with the value the grammar gives them. *)
Theorem C98_reads : forall fl t v, read_json fl t = Some v <-> json_text fl t v.
Proof. exact read_json_iff. Qed.
Print Assumptions C98_reads.
Theorem C98_one_value : forall fl t v v', json_text fl t v -> json_text fl t v' -> v = v'.
Proof. intros fl t v v' H H'. apply read_json_iff in H. apply read_json_iff in H'. congruence. Qed.
Print Assumptions C98_one_value.
(** A value that is not too deep is read back from what either printer writes; a deeper one is the value of no text. *)
Theorem C98_round_trip : forall fl v, value_ok fl v ->
  (nested 127 v <-> json_text fl (print_json v) v) /\ (nested 127 v <-> json_text fl (print_pretty 0 v) v).
Proof.
  intros fl v HV. split; (split; [intro H; apply read_json_iff; (apply print_reads || apply pretty_reads); assumption|apply read_depth]).
Qed.
Print Assumptions C98_round_trip.
Theorem C98_too_deep : forall fl v, ~ nested 127 v -> forall t, ~ json_text fl t v.
Proof. intros fl v H t HT. apply H. eapply read_depth. exact HT. Qed.
Print Assumptions C98_too_deep.
(** What has been read has no key twice, is not too deep, and is read back when it is printed if its floats are (C109). *)
Theorem C98_stable : forall fl t v, json_text fl t v -> wf_json v /\ nested 127 v /\
  ((forall x g, number_in (NFloat x g) v -> number_ok fl (NFloat x g)) -> json_text fl (print_json v) v /\ json_text fl (print_pretty 0 v) v).
Proof.
  intros fl t v H. assert (nested 127 v) as HN by (eapply read_depth; exact H). pose proof (proj1 (proj2 (read_shaped fl)) _ _ _ H) as HS.
  split; [exact (proj1 HS)|]. split; [exact HN|]. intro HF. pose proof (shaped_ok fl v HS HF) as HV. split; apply C98_round_trip; assumption.
Qed.
Print Assumptions C98_stable.
(** Different values are printed differently, whatever their depth. *)
Theorem C98_injective : forall fl v v', value_ok fl v -> value_ok fl v' -> print_json v = print_json v' -> v = v'.
Proof. exact print_inj. Qed.
Print Assumptions C98_injective.
(** An object is printed as a text without "{:" and ":}" exactly if its keys and its string values have none. *)
Theorem C98_clean : forall fl m, value_ok fl (JObj m) ->
  (clean_json (print_json (JObj m)) <-> forall x, string_in x (JObj m) -> ~ occurs (B "{:") x /\ ~ occurs (B ":}") x).
Proof. exact print_clean. Qed.
Print Assumptions C98_clean.

(** ** In an environment with this JSON *)
Record speaks_json (env : Env) (fl : bytes -> option (bytes * bool)) : Prop := {
  sj_read : forall t v, env.(e_from_str) t = inl v <-> read_json fl t = Some v;
  sj_print : forall v, env.(e_to_string) v = print_json v;
  sj_pretty : forall v, env.(e_to_pretty) v = print_pretty 0 v }.
Lemma sj_text env fl t v : speaks_json env fl -> (env.(e_from_str) t = inl v <-> json_text fl t v).
Proof. intros [H _ _]. rewrite H. apply read_json_iff. Qed.

(** A schema given as text does what the value does; any text of the value will do.  A text without a value is refused. *)
Theorem C98_schema : forall env fl t tpl, speaks_json env fl ->
  (forall v, json_text fl t v -> merge_schema_str env t tpl =
     match merge_schema_value v tpl with TOk _ tpl' => TOk None tpl' | TPanic p => TPanic p | TLoop => TLoop end) /\
  ((forall v, ~ json_text fl t v) -> merge_schema_str env t tpl = TOk (Some (B "Is not a valid JSON string")) tpl).
Proof.
  intros env fl t tpl HE. unfold merge_schema_str. split.
  - intros v HT. apply (sj_text env fl _ _ HE) in HT. rewrite HT. destruct (merge_schema_value v tpl); reflexivity.
  - intro H. destruct (e_from_str env t) as [v|e] eqn:E; [|reflexivity]. apply (sj_text env fl _ _ HE) in E. exfalso. exact (H v E).
Qed.
Print Assumptions C98_schema.

(** C12 and C13 for texts: what is read needs no further hypothesis to be merged. *)
Theorem C98_merge : forall fl t b, json_text fl t b -> forall a,
  merge_schema (merge_schema a b) b = merge_schema a b /\
  forall p v, at_path p b = Some v -> ~ is_obj v -> at_path p (merge_schema a b) = Some v.
Proof.
  intros fl t b HT a. destruct (C98_stable _ _ _ HT) as (HW & _). split; [apply merge_idem; exact HW|]. intros p v. apply merge_second_wins. exact HW.
Qed.
Print Assumptions C98_merge.

(** C85 with this JSON: an answer whose keys and strings have neither "{:" nor ":}" is data for the template and nothing else. *)
Theorem C85_strings_partial : forall env fl s i mods body file raw s1 m e m' s2 x s3 res t bl, speaks_json env fl -> Forall modifier mods ->
  ~ In "&"%char mods -> ~ In "!"%char mods -> ~ In "+"%char mods -> may_start s ->
  let i1 := started_in s i in
  description env (started s) i1 [] (params_of (obj_body body)) file raw s1 ->
  json_text fl (trim raw) (JObj m) -> asks_for env (JObj m) e ->
  members env file i1 [] false m s1 m' s2 ->
  calls env s2 i1 e (JObj m') x s3 -> answer env e s3 x = inl res ->
  value_ok fl res -> nested 127 res -> (forall y, string_in y res -> ~ occurs (B "{:") y /\ ~ occurs (B ":}") y) ->
  ~ empty_value (idx res (B "data")) ->
  template_part (JObj m') t -> let rest := t ++ code_of (obj_body body) in extract_blocks rest = Blocks bl ->
  let sc := after_call env e s3 x in
  exit sc = false -> may_start (started sc) -> level_ok sc i1 -> is_obj (visible sc i1) ->
  exists s4 i4, merged_into (B "data") (idx res (B "data")) (visible sc i1) (visible s4 i4) /\ s4.(schema) = sc.(schema) /\ s4.(strace) = sc.(strace) /\
  forall o s5 i5 fin, evaluates (fun s i b => eval_bif env s i b []) (segments rest 0 bl) s4 i4 o s5 i5 fin ->
    eval_bif env s i (bif_text mods (B "obj") body) [] =
    finished mods (if fin then trim (B "&#0;" ++ o) else B "&#0;" ++ o) (drop_block s5 i5) i1.
Proof.
  intros env fl s i mods body file raw s1 m e m' s2 x s3 res t bl HJ HM HA HG HU HS i1 HDe HT HEn HMe HCa HAn HV HN HSt HNe HTp rest HB sc HE HMs HL HO.
  assert (exists r, res = JObj r) as [r ->].
  { destruct res; try (exfalso; apply HNe; left; reflexivity). eexists; reflexivity. }
  apply (C85_answer_is_data_partial env s i mods body file raw s1 m e m' s2 x s3 (JObj r) t bl); try assumption.
  - apply (sj_text env fl _ _ HJ). exact HT.
  - rewrite (sj_print _ _ HJ). apply (print_clean fl _ HV). exact HSt.
  - apply (sj_text env fl _ _ HJ). rewrite (sj_print _ _ HJ). apply C98_round_trip; assumption.
Qed.
Print Assumptions C85_strings_partial.

(** C49 with this JSON: two evaluations that differ in the value of one of GET, POST and COOKIES have different keys. *)
Theorem C49_requests : forall env fl fl' k s0 s i s0' s' i' id x code l l', speaks_json env fl -> In k [B "POST"; B "GET"; B "COOKIES"] ->
  has_request s0 k -> has_request s0' k -> value_ok fl' (request s k) -> value_ok fl' (request s' k) -> request s k <> request s' k ->
  (forall k', In k' [B "POST"; B "GET"; B "COOKIES"] -> k' <> k -> (has_request s0 k' <-> has_request s0' k') /\ request s k' = request s' k') ->
  s.(cfg).(lang) = s'.(cfg).(lang) -> var_text s i (B "CONTEXT->HOST") = var_text s' i' (B "CONTEXT->HOST") ->
  var_text s i (B "CONTEXT->ROUTE") = var_text s' i' (B "CONTEXT->ROUTE") ->
  cache_parts env s0 s i id x code l -> cache_parts env s0' s' i' id x code l' -> one_differs l l' /\ concat l <> concat l'.
Proof.
  intros env fl fl' k s0 s i s0' s' i' id x code l l' HJ HK H0 H0' HV HV' HD HR HL HH HRo HP HP'.
  assert (one_differs l l') as HO.
  { destruct HP as [p g c P1 P2 P3]. destruct HP' as [p' g' c' P1' P2' P3'].
    assert (forall k' t t', In k' [B "POST"; B "GET"; B "COOKIES"] -> k' <> k -> request_text env s0 s k' t -> request_text env s0' s' k' t' -> t = t') as SAME.
    { intros k' t t' HI HN R R'. destruct (HR k' HI HN) as [E1 E2]. inversion R; inversion R'; subst; try reflexivity; try tauto. rewrite E2. reflexivity. }
    assert (forall t t', request_text env s0 s k t -> request_text env s0' s' k t' -> t <> t') as DIFF.
    { intros t t' R R'. inversion R; [contradiction|]. inversion R'; [contradiction|]. subst. rewrite !(sj_print _ _ HJ). intro E.
      apply HD. eapply print_inj; eassumption. }
    rewrite HL, HH, HRo. destruct HK as [<- |[<- |[<- |[]]]].
    - rewrite (SAME (B "GET") g g'), (SAME (B "COOKIES") c c'); try assumption; try discriminate; try (right; left; reflexivity); try (right; right; left; reflexivity).
      eexists [_; _; _], p, p', _. split; [reflexivity|]. split; [reflexivity|]. apply DIFF; assumption.
    - rewrite (SAME (B "POST") p p'), (SAME (B "COOKIES") c c'); try assumption; try discriminate; try (left; reflexivity); try (right; right; left; reflexivity).
      eexists [_; _; _; _], g, g', _. split; [reflexivity|]. split; [reflexivity|]. apply DIFF; assumption.
    - rewrite (SAME (B "POST") p p'), (SAME (B "GET") g g'); try assumption; try discriminate; try (left; reflexivity); try (right; left; reflexivity).
      eexists [_; _; _; _; _], c, c', _. split; [reflexivity|]. split; [reflexivity|]. apply DIFF; assumption. }
  split; [exact HO|apply one_differs_concat; exact HO].
Qed.
Print Assumptions C49_requests.

(** C77 with this JSON: what debug shows of a value can be read, and is the value. *)
Theorem C77_reads_back : forall env fl s i mods body only s1 p fg s2 v, speaks_json env fl -> Forall modifier mods ->
  ~ In "!"%char mods -> ~ In "+"%char mods -> ~ In "&"%char mods ->
  may_start s -> selected only i mods (B "debug") -> debug_open env (started s) true s1 ->
  prepared env (B "debug") s1 (started_in s i) only body p fg s2 -> debug_value s2 (started_in s i) (code_of body) v ->
  value_ok fl v -> nested 127 v ->
  exists t, json_text fl t v /\ eval_bif env s i (bif_text mods (B "debug") body) only = finished mods t s2 (started_in s i).
Proof.
  intros env fl s i mods body only s1 p fg s2 v HJ HM HG HU HA HS HO HD HP HDv HV HN. exists (print_pretty 0 v). split; [apply C98_round_trip; assumption|].
  destruct (C77_shows env s i mods body only s1 p fg s2 HM HG HU HS HO HD HP) as (_ & H & _). rewrite (H v HDv), (has_mod_false _ _ HA), (sj_pretty _ _ HJ). reflexivity.
Qed.
Print Assumptions C77_reads_back.

(** ** Examples *)
(** one float, written in two ways *)
Definition fl0 (t : bytes) : option (bytes * bool) := if beq t (B "1.5") || beq t (B "15e-1") then Some (B "1.5", true) else None.
Lemma fl0_reader : forall t x g, number_token t -> (forall n, ~ integer_token t n) -> fl0 t = Some (x, g) -> number_ok fl0 (NFloat x g).
Proof.
  intros t x g HT HI H. assert (x = B "1.5" /\ g = true) as [-> ->] by (unfold fl0 in H; destruct (beq t _ || _); inversion H; split; reflexivity).
  cbn [number_ok]. split; [|split; [|reflexivity]].
  - exists [], (B "1"), 1%N, (B ".5"), []. split; [reflexivity|]. split; [left; reflexivity|]. split; [apply (dec_N_plain 1)|]. split; [|left; reflexivity].
    right. exists (B "5"). split; [reflexivity|]. split; [discriminate|]. exists 5%N. apply (dec_N_plain 5).
  - intros k HK. enough (jnumber fl0 (B "1.5") k) as HN.
    { assert (read_json fl0 (B "1.5") = Some (JNum k)) as HR by (apply read_json_iff; apply bare_element; apply jv_number; exact HN).
      vm_compute in HR. injection HR as <-. inversion HK. }
    apply jn_integer. exact HK.
Qed.
Definition read0 (t : string) : option json := read_json fl0 (B t).
Example C98_example :
  read0 " { ""a"" : [ 1, -2, 15e-1, true, null, {} ], ""b"":""x\n\u00e9\ud83d\ude00"", ""a"": ""again"" } " =
    Some (JObj [(B "a", JStr (B "again")); (B "b", JStr (B "x" ++ ["010"; "195"; "169"; "240"; "159"; "152"; "128"]%char))]) /\
  read0 "[1,-2,15e-1,18446744073709551615,-9223372036854775808]" =
    Some (JArr [JNum (NPos 1); JNum (NNeg 2); JNum (NFloat (B "1.5") true); JNum (NPos 18446744073709551615); JNum (NNeg 9223372036854775808)]) /\
  read0 "[1,]" = None /\ read0 "{a:1}" = None /\ read0 "01" = None /\ read0 "1." = None /\ read0 "'a'" = None /\ read0 """\ud83d""" = None /\
  read0 "[1] x" = None /\ read0 "" = None /\ read0 "nul" = None /\ read0 "[1 2]" = None /\
  print_json (JObj [(B "a", JArr [JNum (NNeg 2); JNull]); (B "b", JObj [(B "c""\", JStr ["001"; "010"; "/"]%char)])]) =
    B "{""a"":[-2,null],""b"":{""c\""\\"":""\u0001\n/""}}" /\
  print_pretty 0 (JObj [(B "a", JArr [JNum (NNeg 2); JNull]); (B "b", JObj [])]) =
    B "{" ++ pad 1 ++ B """a"": [" ++ pad 2 ++ B "-2," ++ pad 2 ++ B "null" ++ pad 1 ++ B "]," ++ pad 1 ++ B """b"": {}" ++ pad 0 ++ B "}".
Proof. repeat split; vm_compute; reflexivity. Qed.
Fixpoint deep (n : nat) : json := match n with 0 => JNull | S n => JArr [deep n] end.
Example C98_depth : read_json fl0 (print_json (deep 127)) = Some (deep 127) /\ read_json fl0 (print_json (deep 128)) = None.
Proof. split; vm_compute; reflexivity. Qed.
(** an environment with this JSON, in which every script answers [ans] *)
Definition env_json (ans : json + bytes) : Env :=
  mkEnv (fun s => s) (fun s => B "abc" ++ s) (fun s => s)
        (fun t => match read_json fl0 t with Some v => inl v | None => inr (B "not JSON") end)
        print_json (print_pretty 0) (fun a _ => a) (fun _ => None) (fun _ s => Some s) (B "/cwd") (B "/tmp")
        (fun _ p => beq p (B "s.py")) (fun _ _ => false) (fun _ p => Some (B "/" ++ p)) (fun _ _ => None) (fun _ _ => B "no file")
        (fun _ _ => None) (fun _ _ => None) (fun _ _ _ => None) (fun _ _ => None) (fun _ _ => None)
        (fun _ => 100%N) (fun _ => B "now") (fun _ lo _ => lo) (fun _ => B "0123456789abcdef")
        (fun _ _ => ans) (fun _ _ => inr (B "no php")).
Lemma env_json_speaks ans : speaks_json (env_json ans) fl0.
Proof.
  split; try reflexivity. intros t v. cbn [env_json e_from_str]. destruct (read_json fl0 t) as [w|]; split; intro H; congruence.
Qed.
(** a schema as text; inline data; the answer of a script; a value shown by debug *)
Example C98_schema_example : exists t v, json_text fl0 t v /\
  merge_schema_str (env_json (inl JNull)) t t0 = match merge_schema_value v t0 with TOk _ t' => TOk None t' | TPanic p => TPanic p | TLoop => TLoop end /\
  merge_schema_str (env_json (inl JNull)) (B "{data:1}") t0 = TOk (Some (B "Is not a valid JSON string")) t0.
Proof.
  exists (B "{""data"": {""x"": [1, 2]}}"), (JObj [(B "data", JObj [(B "x", JArr [JNum (NPos 1); JNum (NPos 2)])])]).
  assert (json_text fl0 (B "{""data"": {""x"": [1, 2]}}") (JObj [(B "data", JObj [(B "x", JArr [JNum (NPos 1); JNum (NPos 2)])])])) as H by (apply C98_reads; vm_compute; reflexivity).
  split; [exact H|]. split; [|reflexivity]. destruct (C98_schema (env_json (inl JNull)) fl0 (B "{""data"": {""x"": [1, 2]}}") t0 (env_json_speaks _)) as [C _]. apply C. exact H.
Qed.
Example C98_page :
  output_in (env_json (inl JNull)) "{:data; {:flg; inline :} >> {""data"": {""x"": ""1\u0032"", ""n"": 15e-1}} :}{:;local::x:}/{:;local::n:}" = B "12/1.5" /\
  output_in (env_json (inl (JObj [(B "data", JObj [(B "x", JStr (B "a""b"))])]))) "{:obj; {""file"":""s.py""} >> [{:;local::x:}] :}" = B "[a""b]" /\
  output_in (env_json (inl (JObj [(B "data", JObj [(B "x", JStr (B ":}{:;name:}{:;"))])]))) "<{:obj; {""file"":""s.py""} :}>" = B "<World>".
Proof. repeat split; vm_compute; reflexivity. Qed.
(** the hypotheses of C85_strings_partial about the answer *)
Example C85_strings_example : let res := JObj [(B "data", JObj [(B "x{", JStr (B "a"" : } b"))])] in
  value_ok fl0 res /\ nested 127 res /\ (forall y, string_in y res -> ~ occurs (B "{:") y /\ ~ occurs (B ":}") y) /\ ~ empty_value (idx res (B "data")).
Proof.
  intro res. split; [|split; [|split]].
  - repeat constructor; cbn; tauto.
  - apply (nested_le _ 2); [lia|]. repeat constructor.
  - assert (value_ok fl0 res) as HV by (repeat constructor; cbn; tauto). apply (print_clean fl0 _ HV).
    split; [eexists; reflexivity|]. split; apply find_none; reflexivity.
  - intro H. destruct H as [H|[H|[H|H]]]; discriminate H.
Qed.
(** two requests that differ in a value of GET *)
Definition asking (v : json) : Shared := set_schema (JObj [(B "data", JObj [(B "CONTEXT", JObj [(B "GET", v)])])]) t0.(t_shared).
Example C49_requests_example :
  let u := JObj [(B "user", JStr (B "1"))] in let v := JObj [(B "user", JNum (NPos 1))] in
  has_request (asking u) (B "GET") /\ has_request (asking v) (B "GET") /\ value_ok fl0 (request (asking u) (B "GET")) /\
  value_ok fl0 (request (asking v) (B "GET")) /\ request (asking u) (B "GET") <> request (asking v) (B "GET") /\
  (forall k, In k [B "POST"; B "GET"; B "COOKIES"] -> k <> B "GET" ->
     (has_request (asking u) k <-> has_request (asking v) k) /\ request (asking u) k = request (asking v) k).
Proof.
  intros u v. split; [|split; [|split; [|split; [|split]]]].
  - unfold has_request, empty_value. vm_compute. intuition discriminate.
  - unfold has_request, empty_value. vm_compute. intuition discriminate.
  - vm_compute. repeat constructor; cbn; tauto.
  - vm_compute. repeat constructor; cbn; try tauto.
  - vm_compute. discriminate.
  - intros k HK HN. assert (request (asking u) k = request (asking v) k) as E.
    { destruct HK as [<- |[<- |[<- |[]]]]; [reflexivity|contradiction|reflexivity]. }
    split; [|exact E]. unfold has_request. rewrite E. reflexivity.
Qed.

Example C58_local_example :
  output_in (env_json (inl JNull)) "{:data; {:flg; inline :} >> {""data"": {""l"": {""m"": [""a"", ""b""]}}} :}{:join; |local::l->m|-| :}[{:join; |l->m|-| :}]" = B "a-b[]" /\
  arrow_name [B "l"; B "m"] (B "l->m").
Proof.
  split; [vm_compute; reflexivity|]. split; [discriminate|]. split; [|exact (join_joined (B "->") [B "l"; B "m"])].
  repeat constructor; try (intro E; apply contains_iff in E; vm_compute in E; discriminate); cbn; intuition discriminate.
Qed.
