(** * Property theorems: param, snippet, exit, moveto, count, sum, lang, hash, date, flg, fetch, replace *)

From Verif Require Import Bytes Json Utils ConstantsGen State Engine Template Spec SpecEngine SpecStatus BytesFacts EscapeProofs WildcardProofs TextProofs
  BlockProofs TemplateProofs InertProofs FrameProofs FrameRun EngineFrames MoreFrames EvalProofs KeepProofs HandlerProofs Samples
  PropertiesVars PropertiesFiles PropertiesMore.

(** a body without a separator has no parameters to evaluate *)
Lemma unseparated env nm s i only body : separated body = false -> prepared env nm s i only body [] [] s.
Proof.
  intro H. unfold separated in H. assert (params_of body = []) as E by (unfold params_of; destruct (get_code_position (trim body)); [discriminate|reflexivity]).
  assert (prepared env nm s i only body (params_of body) [] s) as HP; [|rewrite E in HP; exact HP]. apply pr_plain. rewrite E. intros (u & v & HO). destruct u; discriminate.
Qed.
Lemma code_reports env al s i src only c s2 i2 : has_data s -> can_report s -> eval_code env al false s i src only = BOk c s2 i2 -> can_report s2.
Proof.
  intros HD HR HE. unfold eval_code in HE. destruct (contains (B "{:") src).
  - eapply keeps_reports; [eapply nested_keeps; [exact HD|exact HE]|exact HR].
  - assert (s2 = s) as -> by congruence. exact HR.
Qed.

Lemma with_data_keeps nm v s : has_data s -> keeps_rest s (with_data nm v s).
Proof.
  intro H. split; [apply with_data_later|]. destruct (with_data_some nm v s H) as (j & E & ->). cbn [set_schema schema].
  intros k HK. apply (upd_other _ _ _ _ _ E). intro Hk. apply HK. rewrite Hk. left. reflexivity.
Qed.

(** ** C71: param *)

Theorem C71_read : forall env s i mods body only c s2 i2, Forall modifier mods ->
  ~ In "&"%char mods -> ~ In "!"%char mods -> ~ In "+"%char mods ->
  may_start s -> selected only i mods (B "param") -> separated body = false ->
  eval_code env (B "param") false (started s) (started_in s i) (code_of body) only = BOk c s2 i2 ->
  eval_bif env s i (bif_text mods (B "param") body) only = finished mods (param_value s2 i2 c) s2 i2.
Proof.
  intros env s i mods body only c s2 i2 HM HA HG HU HS HO HSep HE.
  pose proof (unseparated env (B "param") (started s) (started_in s i) only body HSep) as HP.
  rewrite eval_bif_text by (assumption || plain).
  change (dispatch env ?r (B "param")) with (bif_param r). unfold bif_param, entry.
  rewrite bind_reject by (proj; allowed). pose proof (room_started s) as HR.
  erewrite bind_done by (eapply run_extract; [exact HR|reflexivity..|exact HP]).
  rewrite bind_no_flags by reflexivity. rewrite bind_getI, bind_getB, HSep. proj. rewrite (has_mod_false _ _ HU).
  erewrite bind_done by (rewrite run_code by (exact HR || reflexivity); proj; rewrite HE; reflexivity).
  rewrite bind_getB, bind_getS, bind_getI. proj. rewrite bind_modB. unfold set_out. apply result_done; reflexivity.
Qed.
Print Assumptions C71_read.

(** a name that is not a path *)
Definition simple_name (nm : bytes) : Prop := ~ occurs (B "->") nm /\ ~ occurs (B "/") nm.
Lemma key_text sec nm v : idx sec nm = JStr v -> simple_name nm -> get_from_key sec nm = v.
Proof.
  intros H [H1 H2]. unfold get_from_key, resolve_pointer. change BIF_ARRAY with (B "->"). change [c_slash] with (B "/").
  rewrite (contains_no _ _ H1), (contains_no _ _ H2). cbn [negb andb]. unfold idx in H. destruct (vget nm sec) as [[]|]; congruence.
Qed.

(** what has been set is what is read *)
Theorem C71_round_trip : forall s i nm v j, simple_name nm -> defined_as (B "params") nm (JStr v) j (visible s i) ->
  param_value s i nm = v.
Proof. intros s i nm v j HN (H & _). apply key_text; assumption. Qed.
Print Assumptions C71_round_trip.

Example C71_example :
  output_of "{:code; {:param; a >> 1{:;num:} :}[{:param; a :}][{:param; b :}]{:code; [{:param; a :}] :} :}[{:param; a :}]" = B "[17][][17][]".
Proof. vm_compute. reflexivity. Qed.

(** ** C72: calling a snippet *)

Theorem C72_call : forall env s i mods nm body only c s2 i2, In nm snippet_names -> Forall modifier mods ->
  ~ In "&"%char mods -> ~ In "!"%char mods -> ~ In "+"%char mods ->
  may_start s -> selected only i mods nm -> separated body = false ->
  eval_code env (B "snippet") false (started s) (started_in s i) (code_of body) only = BOk c s2 i2 ->
  let content := snippet_content s2 i2 c in
  eval_bif env s i (bif_text mods nm body) only =
  if contains (B "{:") content
  then and_then (eval_block env (B "snippet") (contains (B "{:snip") content) s2 (in_dir (snippet_dir s2 i2 c) i2) content only)
         (finished mods)
  else finished mods content s2 i2.
Proof.
  intros env s i mods nm body only c s2 i2 HNm HM HA HG HU HS HO HSep HE. cbv zeta.
  pose proof (unseparated env (B "snippet") (started s) (started_in s i) only body HSep) as HP.
  assert (flags_in [B "static"] []) as HF by (intros f [<-|[]]; left; reflexivity).
  pose proof (room_started s) as HR. snippet_start HNm HP HF HR. rewrite HSep. proj.
  erewrite bind_done by (rewrite run_code by (exact HR || reflexivity); proj; rewrite HE; reflexivity).
  rewrite bind_getB, bind_getS, bind_getI. proj. rewrite bind_modB.
  change (get_from_key (idx (get_indir s2 (indir i2)) (B "snippets")) c) with (snippet_content s2 i2 c).
  change (get_from_key (idx (get_indir s2 (indir i2)) (B "snippets_set_dir")) c) with (snippet_dir s2 i2 c).
  change BIF_OPEN with (B "{:"). set (content := snippet_content s2 i2 c). rewrite bind_if.
  destruct (contains (B "{:") content) eqn:EC.
  - rewrite bind_bind, bind_if.
    match goal with |- bif_result _ (if _ then ?X else ?Y) = _ =>
      assert ((if is_empty (snippet_dir s2 i2 c) then X else Y) = (c' <- child (run_blocks env (enough_fuel s)) content (contains (B "{:snip") content) ;;
        modB (bset_code c') ;;; b <- getB ;; set_out b.(code))
        (mkSt s2 (in_dir (snippet_dir s2 i2 c) i2) (bset_code content (bset_code c (bset_flags []
         (bset_params [] (bset_code (code_of body) (bset_alias (B "snippet") (bif_of mods nm body only)))))))) ) as E end.
    { destruct (snippet_dir s2 i2 c); cbn [is_empty in_dir]; [rewrite bind_ret|rewrite bind_modI]; rewrite bind_bind; reflexivity. }
    rewrite E. clear E. unfold bind at 1.
    assert (room (enough_fuel s) s2) as HR2 by (eapply room_later; [eapply code_facts; exact HE|exact HR]).
    rewrite child_block by (exact HR2 || reflexivity). proj.
    destruct (eval_block env (B "snippet") (contains (B "{:snip") content) s2 (in_dir (snippet_dir s2 i2 c) i2) content only) as [o s3 i3|q|];
      [|reflexivity|reflexivity].
    cbn [onto and_then]. rewrite bind_modB, bind_getB. unfold set_out. apply result_done; reflexivity.
  - rewrite bind_ret, bind_getB. unfold set_out. apply result_done; reflexivity.
Qed.
Print Assumptions C72_call.

Theorem C72_round_trip : forall s i nm c d j j1, simple_name nm -> defined_as (B "snippets") nm (JStr c) j j1 ->
  defined_as (B "snippets_set_dir") nm (JStr d) j1 (visible s i) -> snippet_content s i nm = c /\ snippet_dir s i nm = d.
Proof.
  intros s i nm c d j j1 HN (H1 & _ & _) (H2 & _ & H3). split; [|apply key_text; assumption].
  apply key_text; [|exact HN]. rewrite H3; [exact H1|]. intro H. apply (f_equal (@length ascii)) in H. discriminate.
Qed.
Print Assumptions C72_round_trip.

(** an environment with the given files *)
Fixpoint up_to_slash (t : bytes) : bytes :=
  match t with
  | [] => []
  | c :: r => if contains (B "/") r then c :: up_to_slash r else []
  end.
Definition env_files (fs : list (bytes * bytes)) : Env :=
  let has p := existsb (fun f => beq p (fst f)) fs in
  let text p := match List.find (fun f => beq p (fst f)) fs with Some f => Some (snd f) | None => None end in
  mkEnv (e_md5 env1) (e_sha256 env1) (e_lower env1) (e_from_str env1) (e_to_string env1) (e_to_pretty env1) (e_fadd env1)
    (fun p => Some (up_to_slash p)) (e_date env1) (e_cwd env1) (e_tmp env1) (fun _ p => has p) (fun _ p => has p) (fun _ p => Some p)
    (fun _ p => text p) (e_read_err env1) (e_mkdir env1) (e_create env1) (e_write env1) (e_mtime env1) (e_age env1) (e_now env1)
    (e_local_now env1) (e_rand env1) (e_rand_bytes env1) (e_python env1) (e_php env1).

Example C72_example :
  output_in (env_files [(B "/lib/snippets.ntpl", B "{:snippet; hi >> <{:;name:}{:include; #/x :}> :}{:snippet; txt >> plain :}"); (B "/lib/x", B "X")])
    "{:include; /lib/snippets.ntpl :}[{:snippet; hi :}][{:snip; txt :}][{:snippet; nosuch :}]" = B "[<WorldX>][plain][]".
Proof. vm_compute. reflexivity. Qed.

(** A name with a separator in it can be defined but not called. *)
Theorem C72_any_name_refuted : exists fs src, output_in (env_files fs) src = B "[plain][]" /\
  fs = [(B "/snippets.ntpl", B "{:snippet; ab >> plain :}{:snippet; a/b >> plain :}")] /\
  src = "{:include; /snippets.ntpl :}[{:snippet; ab :}][{:snippet; a/b :}]"%string.
Proof. do 2 eexists. split; [|split; reflexivity]. vm_compute. reflexivity. Qed.
Print Assumptions C72_any_name_refuted.

(** The directory of the snippet stays behind: after the call "#" of the rest of the block is that directory. *)
Theorem C72_directory_refuted : exists fs src1 src2, output_in (env_files fs) (src1 ++ src2) = B "outer<World>inner" /\
  fs = [(B "/lib/snippets.ntpl", B "{:snippet; hi >> <{:;name:}> :}"); (B "/cwd/x", B "outer"); (B "/lib/x", B "inner")] /\
  src1 = "{:include; /lib/snippets.ntpl :}{:include; #/x :}"%string /\ src2 = "{:snippet; hi :}{:include; #/x :}"%string.
Proof. do 3 eexists. split; [|repeat split; reflexivity]. vm_compute. reflexivity. Qed.
Print Assumptions C72_directory_refuted.

(** ** C73: exit and moveto *)

Theorem C73_exit : forall env s i mods body only p s1 c s2 i2, Forall modifier mods -> ~ In "&"%char mods -> ~ In "+"%char mods ->
  may_start s -> selected only i mods (B "exit") ->
  prepared env (B "exit") (started s) (started_in s i) only body p [] s1 ->
  eval_code env (B "exit") false s1 (started_in s i) (code_of body) only = BOk c s2 i2 ->
  let status := status_or_ok (if separated body then p else c) in
  exists s', eval_bif env s i (bif_text mods (B "exit") body) only = finished mods (echo i (bif_text mods (B "exit") body)) s' i2 /\
    s'.(status_code) = status /\ phrase status s'.(status_text) /\
    s'.(status_param) = (if separated body then c else []) /\ (s'.(exit) = true <-> ~ In "!"%char mods) /\
    s'.(redirect_js) = s2.(redirect_js) /\ s'.(schema) = s2.(schema) /\ s'.(indir_store) = s2.(indir_store) /\ s'.(strace) = s2.(strace).
Proof.
  intros env s i mods body only p s1 c s2 i2 HM HA HU HS HO HP HE. cbv zeta.
  rewrite eval_bif_text by (assumption || plain).
  change (dispatch env ?r (B "exit")) with (bif_exit r). unfold bif_exit, entry.
  rewrite bind_reject by (proj; allowed). rewrite bind_echo. pose proof (room_started s) as HR.
  erewrite bind_done by (eapply run_extract; [exact HR|reflexivity..|exact HP]).
  rewrite bind_no_flags by reflexivity.
  assert (room (enough_fuel s) s1) as HR1 by (eapply room_later; [eapply prepared_later; exact HP|exact HR]).
  erewrite bind_done by (rewrite run_code by (exact HR1 || reflexivity); proj; rewrite HE; reflexivity).
  rewrite bind_getB. proj. rewrite ?raw_text.
  assert (forall x : bytes, (if is_empty x then B "200" else x) = status_or_ok x) as EX by (intros []; reflexivity).
  rewrite !EX.
  assert (negb (has_mod "!" mods) = true <-> ~ In "!"%char mods) as HX.
  { split; [intros H1 H2; rewrite (has_mod_true _ _ H2) in H1; discriminate|intro H; rewrite (has_mod_false _ _ H); reflexivity]. }
  destruct (separated body); rewrite bind_modS; (eexists; split; [unfold modS; apply result_done; reflexivity|]); repeat split; first [apply HX|proj; cbn [status_text set_exit set_status]; apply phrase_text].
Qed.
Print Assumptions C73_exit.

Lemma squeeze t : replace (B " ") [] (replace [ascii_of_N 10] [] t) = squeezed t.
Proof.
  change (B " ") with [" "%char]. rewrite !replace_byte_filter. unfold squeezed. induction t as [|x t IH]; [reflexivity|].
  cbn [filter]. destruct (aeqb x (ascii_of_N 10)); cbn [negb orb].
  - rewrite orb_true_r. exact IH.
  - cbn [filter]. rewrite orb_false_r. destruct (aeqb x " "); cbn [negb]; [exact IH|f_equal; exact IH].
Qed.

(** The content is registered under the digest of its text (white space apart): registering the same content again replaces
    the entry. *)
Theorem C73_moveto : forall env s i mods body only p s1 c s2 i2, Forall modifier mods ->
  ~ In "&"%char mods -> ~ In "!"%char mods -> ~ In "+"%char mods ->
  may_start s -> selected only i mods (B "moveto") ->
  prepared env (B "moveto") (started s) (started_in s i) only body p [] s1 ->
  eval_code env (B "moveto") false s1 (started_in s i) (code_of body) only = BOk c s2 i2 ->
  is_obj s2.(schema) -> null_or_obj (idx s2.(schema) (B "__moveto")) ->
  exists s', eval_bif env s i (bif_text mods (B "moveto") body) only = finished mods (echo i (bif_text mods (B "moveto") body)) s' i2 /\
    only_schema s2 s' /\ move_registered (env.(e_md5) (squeezed c)) p c s2.(schema) s'.(schema).
Proof.
  intros env s i mods body only p s1 c s2 i2 HM HA HG HU HS HO HP HE [m H] HN.
  rewrite eval_bif_text by (assumption || plain).
  change (dispatch env ?r (B "moveto")) with (bif_moveto env r). unfold bif_moveto, entry.
  rewrite bind_reject by (proj; allowed). rewrite bind_echo. pose proof (room_started s) as HR.
  erewrite bind_done by (eapply run_extract; [exact HR|reflexivity..|exact HP]).
  rewrite bind_no_flags by reflexivity. rewrite bind_getB. proj. rewrite (has_mod_false _ _ HU).
  assert (room (enough_fuel s) s1) as HR1 by (eapply room_later; [eapply prepared_later; exact HP|exact HR]).
  erewrite bind_done by (rewrite run_code by (exact HR1 || reflexivity); proj; rewrite HE; reflexivity).
  rewrite bind_getB. proj. rewrite ?raw_text. unfold moveto. cbn [sh inh bf]. rewrite squeeze, H.
  set (k := e_md5 env (squeezed c)). set (v := JObj [(p, JStr c)]). set (sec := B "__moveto") in *. rewrite H in HN.
  assert (exists w, put k v (idx (JObj m) sec) = Some w /\ idx w k = v /\ forall x, x <> k -> idx w x = idx (idx (JObj m) sec) x) as (w & EP & W1 & W2).
  { unfold put. destruct HN as [->|[m2 ->]].
    - unfold upd. eexists. split; [reflexivity|]. split.
      + unfold idx, vget. cbn [oget]. rewrite ?beq_refl. reflexivity.
      + intros x Hk. unfold idx, vget. cbn. destruct (beq x k) eqn:E; [apply beq_eq in E; contradiction|reflexivity].
    - rewrite (upd_obj _ _ _ v) by reflexivity. eexists. split; [reflexivity|]. split.
      + rewrite idx_oset, beq_refl. reflexivity.
      + intros x Hk. rewrite idx_oset. destruct (beq x k) eqn:E; [apply beq_eq in E; contradiction|reflexivity]. }
  rewrite (upd_obj _ _ _ _ EP). eexists. split; [apply result_done; reflexivity|]. split; [eexists; reflexivity|].
  cbn [schema set_schema]. unfold move_registered, defined_as. split; [|split].
  - rewrite idx_oset, beq_refl. exact W1.
  - intros x Hk. rewrite idx_oset, beq_refl. apply W2. exact Hk.
  - intros x Hc. rewrite idx_oset. destruct (beq x sec) eqn:E; [apply beq_eq in E; contradiction|reflexivity].
Qed.
Print Assumptions C73_moveto.

Example C73_example :
  output_of "<body>x</body>{:moveto; </body >> <b>{:;name:}</b> :}{:moveto; </body >> <b> {:;name:} </b> :}" = B "<body>x<b> World </b></body>" /\
  output_of "a{:!exit; 404 :}b{:exit; 503 >> off :}c" = B "503 Service Unavailable" /\
  null_or_obj (idx (schema (fst (start_of ""))) (B "__moveto")) /\ is_obj (schema (fst (start_of ""))).
Proof.
  split; [vm_compute; reflexivity|]. split; [vm_compute; reflexivity|].
  split; [right; eexists; vm_compute; reflexivity|eexists; vm_compute; reflexivity].
Qed.

(** ** C74: count *)

(** Setting a counter stores the number, reading one outputs it and stores the next; both report that count is deprecated. *)
Theorem C74_set : forall env s i mods body only p fl s1 c s2 i2 n, Forall modifier mods ->
  ~ In "&"%char mods -> ~ In "!"%char mods -> ~ In "+"%char mods ->
  may_start s -> selected only i mods (B "count") -> has_data s -> can_report s -> separated body = true ->
  prepared env (B "count") (started s) (started_in s i) only body p fl s1 ->
  eval_code env (B "count") false s1 (started_in s i) (code_of body) only = BOk c s2 i2 -> int32 c n ->
  eval_bif env s i (bif_text mods (B "count") body) only =
  failed env (B "Bif 'count' is deprecated") (B "count") mods (bif_text mods (B "count") body) [] (with_data p (JStr (dec_Z n)) s2) i2.
Proof.
  intros env s i mods body only p fl s1 c s2 i2 n HM HA HG HU HS HO HH HC HSep HP HE HN. apply i32_iff in HN.
  assert (has_data s1) as HD1 by (eapply prepared_has_data; [exact HP|exact HH]).
  assert (can_report s2) as HC2 by (eapply (code_reports _ _ s1); [exact HD1|eapply prepared_reports; [| |exact HP]; [exact HH|exact HC]|exact HE]).
  assert (has_data s2) as HD2 by (eapply code_facts; [exact HE|exact HD1]).
  rewrite eval_bif_text by (assumption || plain).
  change (dispatch env ?r (B "count")) with (bif_count_ r). unfold bif_count_, entry.
  rewrite bind_reject by (proj; allowed). pose proof (room_started s) as HR.
  erewrite bind_done by (eapply run_extract; [exact HR|reflexivity..|exact HP]).
  rewrite bind_getB, HSep. proj. rewrite (has_mod_false _ _ HU).
  assert (room (enough_fuel s) s1) as HR1 by (eapply room_later; [eapply prepared_later; exact HP|exact HR]).
  erewrite bind_done by (rewrite run_code by (exact HR1 || reflexivity); proj; rewrite HE; reflexivity).
  rewrite bind_getB. proj. rewrite HN. unfold set_data. rewrite bind_bind.
  erewrite bind_done by (apply run_put_data; exact HD2). unfold set_out. rewrite bind_modB.
  apply result_fail; [|reflexivity|reflexivity].
  eapply keeps_reports; [|exact HC2]. apply with_data_keeps; exact HD2.
Qed.
Print Assumptions C74_set.
Theorem C74_read : forall env s i mods body only c s2 i2 n, Forall modifier mods ->
  ~ In "&"%char mods -> ~ In "!"%char mods -> ~ In "+"%char mods ->
  may_start s -> selected only i mods (B "count") -> has_data s -> can_report s -> separated body = false ->
  eval_code env (B "count") false (started s) (started_in s i) (code_of body) only = BOk c s2 i2 ->
  int32 (var_text s2 i2 c) n ->
  eval_bif env s i (bif_text mods (B "count") body) only =
  if (n =? 2147483647)%Z then BPanic PCountOverflow
  else failed env (B "Bif 'count' is deprecated") (B "count") mods (bif_text mods (B "count") body) (dec_Z n) (with_data c (JStr (dec_Z (n + 1))) s2) i2.
Proof.
  intros env s i mods body only c s2 i2 n HM HA HG HU HS HO HH HC HSep HE HN. apply i32_iff in HN.
  pose proof (unseparated env (B "count") (started s) (started_in s i) only body HSep) as HP.
  assert (can_report s2) as HC2 by (eapply (code_reports _ _ (started s)); [exact HH|exact HC|exact HE]).
  assert (has_data s2) as HD2 by (eapply code_facts; [exact HE|exact HH]).
  rewrite eval_bif_text by (assumption || plain).
  change (dispatch env ?r (B "count")) with (bif_count_ r). unfold bif_count_, entry.
  rewrite bind_reject by (proj; allowed). pose proof (room_started s) as HR.
  erewrite bind_done by (eapply run_extract; [exact HR|reflexivity..|exact HP]).
  rewrite bind_getB, HSep. proj. rewrite (has_mod_false _ _ HU).
  erewrite bind_done by (rewrite run_code by (exact HR || reflexivity); proj; rewrite HE; reflexivity).
  rewrite bind_getB. proj. unfold get_data. rewrite !bind_bind, bind_getS, bind_bind, bind_getI, bind_ret, get_data_text, HN.
  change i32_max with 2147483647%Z. destruct (n =? 2147483647)%Z; [reflexivity|].
  unfold set_data. rewrite bind_bind.
  erewrite bind_done by (apply run_put_data; exact HD2). unfold set_out. rewrite bind_modB.
  apply result_fail; [|reflexivity|reflexivity].
  eapply keeps_reports; [|exact HC2]. apply with_data_keeps; exact HD2.
Qed.
Print Assumptions C74_read.

(** A text that is not a number of 32 bits is an error; the counter stays. *)
Theorem C74_not_a_number : forall env s i mods body only p fl s1 c s2 i2, Forall modifier mods ->
  ~ In "&"%char mods -> ~ In "!"%char mods -> ~ In "+"%char mods ->
  may_start s -> selected only i mods (B "count") -> has_data s -> can_report s ->
  prepared env (B "count") (started s) (started_in s i) only body p fl s1 ->
  eval_code env (B "count") false s1 (started_in s i) (code_of body) only = BOk c s2 i2 ->
  (forall n, ~ int32 (if separated body then c else var_text s2 i2 c) n) ->
  eval_bif env s i (bif_text mods (B "count") body) only =
  failed env (B "argument is not a number") (B "count") mods (bif_text mods (B "count") body) [] s2 i2.
Proof.
  intros env s i mods body only p fl s1 c s2 i2 HM HA HG HU HS HO HH HC HP HE HN. apply i32_none in HN.
  assert (has_data s1) as HD1 by (eapply prepared_has_data; [exact HP|exact HH]).
  assert (can_report s2) as HC2 by (eapply (code_reports _ _ s1); [exact HD1|eapply prepared_reports; [| |exact HP]; [exact HH|exact HC]|exact HE]).
  rewrite eval_bif_text by (assumption || plain).
  change (dispatch env ?r (B "count")) with (bif_count_ r). unfold bif_count_, entry.
  rewrite bind_reject by (proj; allowed). pose proof (room_started s) as HR.
  erewrite bind_done by (eapply run_extract; [exact HR|reflexivity..|exact HP]).
  rewrite bind_getB. proj. rewrite (has_mod_false _ _ HU).
  assert (room (enough_fuel s) s1) as HR1 by (eapply room_later; [eapply prepared_later; exact HP|exact HR]).
  erewrite bind_done by (rewrite run_code by (exact HR1 || reflexivity); proj; rewrite HE; reflexivity).
  rewrite bind_getB. proj. rewrite bind_if. destruct (separated body).
  - rewrite HN. rewrite bind_err. apply result_fail; [exact HC2|reflexivity|reflexivity].
  - unfold get_data. rewrite !bind_bind, bind_getS, bind_bind, bind_getI, bind_ret, get_data_text, HN, bind_err.
    apply result_fail; [exact HC2|reflexivity|reflexivity].
Qed.
Print Assumptions C74_not_a_number.

Example C74_example :
  output_of "{:count; n >> 3 :}{:count; n :},{:count; n :},{:;n:}" = B "3,4,5" /\
  output_of "{:count; n >> 2147483647 :}{:count; n :}" = B "panic" /\ output_of "{:count; n >> many :}[{:count; n :}]" = B "[]".
Proof. split; [|split]; vm_compute; reflexivity. Qed.

(** ** C75: sum, lang, hash, date, flg *)

Theorem C75_sum : forall env s i mods body only a s1 x y, Forall modifier mods ->
  ~ In "&"%char mods -> ~ In "!"%char mods -> ~ In "+"%char mods ->
  may_start s -> selected only i mods (B "sum") -> has_data s -> can_report s -> ~ occurs (B "{:flg;") (trim body) ->
  arguments env (B "sum") (started_in s i) only (arg_texts (trim body)) (started s) a s1 ->
  nth_error a 1 = Some x -> nth_error a 2 = Some y ->
  ((exists p, float_text x p) -> (exists q, float_text y q) ->
     eval_bif env s i (bif_text mods (B "sum") body) only = finished mods (env.(e_fadd) x y) s1 (started_in s i)) /\
  ((forall p, ~ float_text x p) -> eval_bif env s i (bif_text mods (B "sum") body) only =
     failed env (B "invalid argument 1") (B "sum") mods (bif_text mods (B "sum") body) [] s1 (started_in s i)) /\
  ((exists p, float_text x p) -> (forall q, ~ float_text y q) -> eval_bif env s i (bif_text mods (B "sum") body) only =
     failed env (B "invalid argument 2") (B "sum") mods (bif_text mods (B "sum") body) [] s1 (started_in s i)).
Proof.
  intros env s i mods body only a s1 x y HM HA HG HU HS HO HH HC HFl HAr HX HY.
  assert (can_report s1) as HC1 by (eapply keeps_reports; [eapply (arguments_keeps _ _ _ _ _ (started s)); [exact HH|exact HAr]|exact HC]).
  assert (eval_bif env s i (bif_text mods (B "sum") body) only =
  match f64_gt0 x, f64_gt0 y with
  | Some _, Some _ => finished mods (env.(e_fadd) x y) s1 (started_in s i)
  | None, _ => failed env (B "invalid argument 1") (B "sum") mods (bif_text mods (B "sum") body) [] s1 (started_in s i)
  | Some _, None => failed env (B "invalid argument 2") (B "sum") mods (bif_text mods (B "sum") body) [] s1 (started_in s i)
  end) as ->.
  2: { split; [|split].
    - intros [p HP] [q HQ]. rewrite (proj2 (float_iff _ _) HP), (proj2 (float_iff _ _) HQ). reflexivity.
    - intros HP. rewrite (float_none _ HP). reflexivity.
    - intros [p HP] HQ. rewrite (proj2 (float_iff _ _) HP), (float_none _ HQ). reflexivity. }
  rewrite eval_bif_text by (assumption || plain).
  change (dispatch env ?r (B "sum")) with (bif_sum env r). unfold bif_sum, entry.
  rewrite bind_reject by (proj; allowed). rewrite bind_modB, bind_getB. proj. rewrite (contains_no _ _ HFl).
  erewrite bind_done by (eapply run_args; [apply room_started|reflexivity..|exact HAr]).
  unfold need_arg, arg. rewrite HX, bind_ret, HY, bind_ret.
  destruct (f64_gt0 x); [destruct (f64_gt0 y)|].
  - unfold set_out. apply result_done; reflexivity.
  - apply result_fail; [exact HC1|reflexivity|reflexivity].
  - apply result_fail; [exact HC1|reflexivity|reflexivity].
Qed.
Print Assumptions C75_sum.

Theorem C75_lang : forall env s i mods body only, Forall modifier mods ->
  ~ In "&"%char mods -> ~ In "!"%char mods -> ~ In "+"%char mods -> may_start s -> selected only i mods (B "lang") ->
  eval_bif env s i (bif_text mods (B "lang") body) only = finished mods s.(cfg).(lang) (started s) (started_in s i).
Proof.
  intros env s i mods body only HM HA HG HU HS HO. rewrite eval_bif_text by (assumption || plain).
  change (dispatch env ?r (B "lang")) with bif_lang. unfold bif_lang, entry.
  rewrite bind_reject by (proj; allowed). rewrite bind_getS. unfold set_out. apply result_done; reflexivity.
Qed.
Print Assumptions C75_lang.

Theorem C75_flags : forall env s i mods body only c s2 i2, Forall modifier mods ->
  ~ In "&"%char mods -> ~ In "!"%char mods -> ~ In "^"%char mods -> ~ In "+"%char mods ->
  may_start s -> selected only i mods (B "flg") -> separated body = false ->
  eval_code env (B "flg") false (started s) (started_in s i) (code_of body) only = BOk c s2 i2 ->
  exists fl, eval_bif env s i (bif_text mods (B "flg") body) only = finished mods [] (set_sflags fl s2) i2 /\
    replaced (B " ") (B "|") (B " " ++ c ++ B " ") fl.
Proof.
  intros env s i mods body only c s2 i2 HM HA HG HL HU HS HO HSep HE.
  pose proof (unseparated env (B "flg") (started s) (started_in s i) only body HSep) as HP.
  rewrite eval_bif_text by (assumption || plain).
  change (dispatch env ?r (B "flg")) with (bif_flg r). unfold bif_flg, entry.
  rewrite bind_reject by (proj; allowed). pose proof (room_started s) as HR.
  erewrite bind_done by (eapply run_extract; [exact HR|reflexivity..|exact HP]).
  rewrite bind_no_flags by reflexivity.
  erewrite bind_done by (rewrite run_code by (exact HR || reflexivity); proj; rewrite HE; reflexivity).
  rewrite bind_getB, bind_modS. proj. eexists. split; [unfold set_out; apply result_done; reflexivity|].
  apply replace_replaced. discriminate.
Qed.
Print Assumptions C75_flags.

(** the digest of the text, or of random bytes if there is none *)
Theorem C75_hash : forall env s i mods body only c s1 i1, Forall modifier mods ->
  ~ In "&"%char mods -> ~ In "!"%char mods -> ~ In "+"%char mods ->
  may_start s -> selected only i mods (B "hash") ->
  eval_text env (B "hash") (started s) (started_in s i) (trim body) only = BOk c s1 i1 ->
  eval_bif env s i (bif_text mods (B "hash") body) only =
  match c with
  | [] => let r := env.(e_rand_bytes) s1.(strace) in finished mods (env.(e_md5) r) (add_event (EvRandBytes r) s1) i1
  | _ => finished mods (env.(e_md5) c) s1 i1
  end.
Proof.
  intros env s i mods body only c s1 i1 HM HA HG HU HS HO HE.
  assert (i1 = started_in s i) as -> by (eapply text_later; exact HE).
  rewrite eval_bif_text by (assumption || plain).
  change (dispatch env ?r (B "hash")) with (bif_hash env r). unfold bif_hash, entry.
  rewrite bind_reject by (proj; allowed). rewrite bind_modB, bind_getB. proj. rewrite bind_if, trim_idem, (has_mod_false _ _ HU).
  change BIF_OPEN with (B "{:"). unfold eval_text in HE.
  match goal with |- bif_result _ (if _ then ?X else ?Y) = _ =>
    assert ((if contains (B "{:") (trim body) then X else Y) =
      (b <- getB ;; if is_empty b.(code) then r <- ask_rand_bytes env ;; set_out (env.(e_md5) r) else set_out (env.(e_md5) b.(code)))
      (mkSt s1 (started_in s i) (bset_code c (bset_code (trim body) (bif_of mods (B "hash") body only))))) as E end.
  { destruct (contains (B "{:") (trim body)).
    - rewrite bind_bind. erewrite bind_done by (rewrite child_nested by (apply room_started || reflexivity); proj; rewrite HE; reflexivity).
      rewrite bind_modB. reflexivity.
    - assert (c = trim body /\ s1 = started s) as (-> & ->) by (split; congruence). rewrite bind_modB. proj. rewrite trim_idem. reflexivity. }
  rewrite E. clear E. rewrite bind_getB. proj. destruct c as [|x c]; cbn [is_empty].
  - unfold ask_rand_bytes. rewrite bind_ask. unfold set_out. apply result_done; reflexivity.
  - unfold set_out. apply result_done; reflexivity.
Qed.
Print Assumptions C75_hash.

(** The clock is read once, before the text of the bif is evaluated: the seconds since the epoch if there is no text, otherwise
    the time in the format given by the source text. *)
Theorem C75_date : forall env s i mods body only p s1 c s3 i3, Forall modifier mods ->
  ~ In "&"%char mods -> ~ In "!"%char mods -> ~ In "+"%char mods ->
  may_start s -> selected only i mods (B "date") ->
  prepared env (B "date") (started s) (started_in s i) only body p [] s1 ->
  let now := env.(e_now) s1.(strace) in
  let s2 := add_event (EvNow now) s1 in
  (if contains (B "{:") (trim body) then eval_nested env (B "date") s2 (started_in s i) (code_of body) only
   else BOk (trim body) s2 (started_in s i)) = BOk c s3 i3 ->
  eval_bif env s i (bif_text mods (B "date") body) only =
  match c, env.(e_date) now (trim body) with
  | [], _ => finished mods (dec_N now) s3 i3
  | _, Some o => finished mods o s3 i3
  | _, None => BPanic PDate
  end.
Proof.
  intros env s i mods body only p s1 c s3 i3 HM HA HG HU HS HO HP now s2 HE.
  rewrite eval_bif_text by (assumption || plain).
  change (dispatch env ?r (B "date")) with (bif_date env r). unfold bif_date, entry.
  rewrite bind_reject by (proj; allowed). pose proof (room_started s) as HR.
  erewrite bind_done by (eapply run_extract; [exact HR|reflexivity..|exact HP]).
  rewrite bind_no_flags by reflexivity. unfold ask_now. rewrite bind_ask. fold now. fold s2.
  assert (room (enough_fuel s) s1) as HR1 by (eapply room_later; [eapply prepared_later; exact HP|exact HR]).
  assert (room (enough_fuel s) s2) as HR2 by exact HR1.
  rewrite bind_getB. proj. rewrite (has_mod_false _ _ HU), bind_if. change BIF_OPEN with (B "{:").
  match goal with |- bif_result _ (if _ then ?X else ?Y) = _ =>
    assert ((if contains (B "{:") (trim body) then X else Y) =
      (b <- getB ;; if is_empty b.(code) then set_out (dec_N now)
        else o <- lift_option PDate (env.(e_date) now b.(src)) ;; set_out o)
      (mkSt s3 i3 (bset_code c (bset_flags [] (bset_params p (bset_code (code_of body) (bif_of mods (B "date") body only))))))) as E end.
  { destruct (contains (B "{:") (trim body)).
    - rewrite bind_bind. erewrite bind_done by (rewrite child_nested by (exact HR2 || reflexivity); proj; rewrite HE; reflexivity).
      rewrite bind_modB. reflexivity.
    - assert (c = trim body /\ s3 = s2 /\ i3 = started_in s i) as (-> & -> & ->) by (repeat split; congruence). rewrite bind_modB. proj. rewrite trim_idem. reflexivity. }
  rewrite E. clear E. rewrite bind_getB. proj. destruct c as [|x c]; cbn [is_empty].
  - unfold set_out. apply result_done; reflexivity.
  - change (src (bif_of mods (B "date") body only)) with (trim body).
    destruct (e_date env now (trim body)); cbn [lift_option]; [|reflexivity]. rewrite bind_ret. unfold set_out. apply result_done; reflexivity.
Qed.
Print Assumptions C75_date.

(** ** C76: fetch *)

Theorem C76_fetch : forall env s i mods body only p s1 a s2 url c s3 i3, Forall modifier mods ->
  ~ In "&"%char mods -> ~ In "!"%char mods -> ~ In "+"%char mods ->
  may_start s -> selected only i mods (B "fetch") ->
  prepared env (B "fetch") (started s) (started_in s i) only body p [] s1 ->
  arguments env (B "fetch") (started_in s i) only (arg_texts p) s1 a s2 -> nth_error a 1 = Some url ->
  eval_code env (B "fetch") false s2 (started_in s i) (code_of body) only = BOk c s3 i3 ->
  exists frame html, fetch_frame (nth 2 a []) frame /\
    filled_in [(B "{id}", nth 5 a []); (B "{name}", nth 6 a []); (B "{wrap}", nth 3 a []); (B "{class}", nth 4 a []);
               (B "{body}", c); (B "{endpoint}", url)] frame html /\
    eval_bif env s i (bif_text mods (B "fetch") body) only =
    (if s3.(cfg).(disable_js) || s3.(already_js) then finished mods html s3 i3
     else finished mods (html ++ B "{:!cache;{:moveto;</body>>" ++ NEUTRAL_JS ++ B ":}:}") (set_already_js true s3) i3).
Proof.
  intros env s i mods body only p s1 a s2 url c s3 i3 HM HA HG HU HS HO HP HAr HX HE.
  assert (forall n, arg_or_empty a n = nth n a []) as HN.
  { intro n. unfold arg_or_empty, arg. rewrite nth_default_eq || idtac. destruct (nth_error a n) eqn:E.
    - symmetry. apply nth_error_nth. exact E.
    - symmetry. apply nth_overflow. apply nth_error_None. exact E. }
  exists (fetch_div (nth 2 a [])). eexists. split; [|split].
  - unfold fetch_div.
    destruct (beq_spec (nth 2 a []) (B "form")) as [->|H1]; [apply ff_event; cbn; tauto|].
    destruct (beq_spec (nth 2 a []) (B "none")) as [->|H2]; [apply ff_event; cbn; tauto|].
    destruct (beq_spec (nth 2 a []) (B "visible")) as [->|H3]; [apply ff_event; cbn; tauto|].
    destruct (beq_spec (nth 2 a []) (B "click")) as [->|H4]; [apply ff_event; cbn; tauto|].
    apply ff_auto. cbn [map fst fetch_events In]. intuition congruence.
  - eapply fi_one; [apply replace_replaced; discriminate|]. eapply fi_one; [apply replace_replaced; discriminate|].
    eapply fi_one; [apply replace_replaced; discriminate|]. eapply fi_one; [apply replace_replaced; discriminate|].
    eapply fi_one; [apply replace_replaced; discriminate|]. eapply fi_one; [apply replace_replaced; discriminate|]. apply fi_none.
  - rewrite eval_bif_text by (assumption || plain).
    change (dispatch env ?r (B "fetch")) with (bif_fetch r). unfold bif_fetch, entry.
    rewrite bind_reject by (proj; allowed). pose proof (room_started s) as HR.
    erewrite bind_done by (eapply run_extract; [exact HR|reflexivity..|exact HP]).
    rewrite bind_no_flags by reflexivity.
    assert (room (enough_fuel s) s1) as HR1 by (eapply room_later; [eapply prepared_later; exact HP|exact HR]).
    erewrite bind_done by (eapply run_args; [exact HR1|reflexivity..|exact HAr]).
    unfold need_arg, arg. rewrite HX, bind_ret, bind_getB. proj. rewrite (has_mod_false _ _ HU).
    assert (room (enough_fuel s) s2) as HR2 by (eapply room_later; [eapply arguments_later; exact HAr|exact HR1]).
    erewrite bind_done by (rewrite run_code by (exact HR2 || reflexivity); proj; rewrite HE; reflexivity).
    rewrite bind_getB, bind_getS. proj. rewrite !HN.
    destruct (disable_js (cfg s3)); cbn [negb andb orb]; [unfold set_out; apply result_done; reflexivity|].
    destruct (already_js s3); cbn [negb andb orb]; [unfold set_out; apply result_done; reflexivity|].
    unfold set_out. rewrite bind_modB. unfold modS. apply result_done; reflexivity.
Qed.
Print Assumptions C76_fetch.

(** ** C59: replace *)

Theorem C59_replace_bif : forall env s i mods body only a s1 x y c s2 i2, Forall modifier mods ->
  ~ In "&"%char mods -> ~ In "!"%char mods -> ~ In "+"%char mods ->
  may_start s -> selected only i mods (B "replace") -> ~ occurs (B "{:flg;") (params_of body) ->
  arguments env (B "replace") (started_in s i) only (arg_texts (params_of body)) (started s) a s1 ->
  nth_error a 1 = Some x -> nth_error a 2 = Some y -> x <> [] ->
  eval_code env (B "replace") false s1 (started_in s i) (code_of body) only = BOk c s2 i2 ->
  exists r, replaced x y c r /\ eval_bif env s i (bif_text mods (B "replace") body) only = finished mods r s2 i2.
Proof.
  intros env s i mods body only a s1 x y c s2 i2 HM HA HG HU HS HO HFl HAr HX HY HNe HE.
  exists (replace x y c). split; [apply replace_replaced; exact HNe|].
  rewrite eval_bif_text by (assumption || plain).
  change (dispatch env ?r (B "replace")) with (bif_replace r). unfold bif_replace, entry.
  rewrite bind_reject by (proj; allowed). pose proof (room_started s) as HR.
  erewrite bind_done by (eapply run_extract_raw; reflexivity).
  rewrite bind_getB. proj. rewrite (contains_no _ _ HFl).
  erewrite bind_done by (eapply run_args; [exact HR|reflexivity..|exact HAr]).
  unfold need_arg, arg. rewrite HX, bind_ret, HY, bind_ret. rewrite (has_mod_false _ _ HU).
  assert (room (enough_fuel s) s1) as HR1 by (eapply room_later; [eapply arguments_later; exact HAr|exact HR]).
  erewrite bind_done by (rewrite run_code by (exact HR1 || reflexivity); proj; rewrite HE; reflexivity).
  rewrite bind_getB. proj. unfold set_out. apply result_done; reflexivity.
Qed.
Print Assumptions C59_replace_bif.

(** The empty text occurs before every character and at the end. *)
Theorem C59_replace_empty : forall env s i mods body only a s1 y c s2 i2 l, Forall modifier mods ->
  ~ In "&"%char mods -> ~ In "!"%char mods -> ~ In "+"%char mods ->
  may_start s -> selected only i mods (B "replace") -> ~ occurs (B "{:flg;") (params_of body) ->
  arguments env (B "replace") (started_in s i) only (arg_texts (params_of body)) (started s) a s1 ->
  nth_error a 1 = Some [] -> nth_error a 2 = Some y ->
  eval_code env (B "replace") false s1 (started_in s i) (code_of body) only = BOk c s2 i2 -> characters c l ->
  eval_bif env s i (bif_text mods (B "replace") body) only = finished mods (y ++ concat (map (fun ch => ch ++ y) l)) s2 i2.
Proof.
  intros env s i mods body only a s1 y c s2 i2 l HM HA HG HU HS HO HFl HAr HX HY HE HL.
  rewrite eval_bif_text by (assumption || plain).
  change (dispatch env ?r (B "replace")) with (bif_replace r). unfold bif_replace, entry.
  rewrite bind_reject by (proj; allowed). pose proof (room_started s) as HR.
  erewrite bind_done by (eapply run_extract_raw; reflexivity).
  rewrite bind_getB. proj. rewrite (contains_no _ _ HFl).
  erewrite bind_done by (eapply run_args; [exact HR|reflexivity..|exact HAr]).
  unfold need_arg, arg. rewrite HX, bind_ret, HY, bind_ret. rewrite (has_mod_false _ _ HU).
  assert (room (enough_fuel s) s1) as HR1 by (eapply room_later; [eapply arguments_later; exact HAr|exact HR]).
  erewrite bind_done by (rewrite run_code by (exact HR1 || reflexivity); proj; rewrite HE; reflexivity).
  rewrite bind_getB. proj. unfold set_out, replace. rewrite (characters_chars _ _ HL), flat_map_concat_map.
  apply result_done; reflexivity.
Qed.
Print Assumptions C59_replace_empty.
Example C59_empty_example : output_of "{:replace; ~~-~ >> abc :}" = B "-a-b-c-".
Proof. vm_compute. reflexivity. Qed.

(** the script is appended the first time only; the placeholders are filled in order, so that "{endpoint}" inside an
    earlier value is filled as well *)
Example C76_example :
  output_of "{:replace; ~a~b~ >> banana {:;name:} :}" = B "bbnbnb World" /\
  output_of "{:flg; x y :}[{:lang; :}]" = B "[en]" /\
  (match eval_bif env0 (set_already_js true (fst (start_of ""))) (snd (start_of "")) (B "{:fetch; |/u|none|w{endpoint}| >> x :}") [] with
  | BOk o s _ => contains (B "w/u") o && negb (contains NEUTRAL_JS o) && already_js s
  | _ => false
  end) = true.
Proof. repeat split; vm_compute; reflexivity. Qed.

(** The format is the source text even when it has bifs: they are evaluated, only to see whether their text is empty. *)
Theorem C75_format_is_evaluated_refuted :
  ~ forall env s i body only p s1 c s3 i3 o, may_start s -> selected only i [] (B "date") ->
    prepared env (B "date") (started s) (started_in s i) only body p [] s1 ->
    eval_nested env (B "date") (add_event (EvNow (env.(e_now) s1.(strace))) s1) (started_in s i) (code_of body) only = BOk c s3 i3 ->
    c <> [] -> env.(e_date) (env.(e_now) s1.(strace)) c = Some o ->
    eval_bif env s i (bif_text [] (B "date") body) only = finished [] o s3 i3.
Proof.
  intro H.
  assert (forall r : BRes, (match r with BOk c _ _ => beq c (B "World") | _ => false end) = true -> exists c s3 i3, r = BOk c s3 i3 /\ c = B "World") as X.
  { intros [c s3 i3|q|] Hr; try discriminate Hr. exists c, s3, i3. split; [reflexivity|]. destruct (beq_spec c (B "World")); [assumption|discriminate]. }
  assert (exists c s3 i3, eval_nested env0 (B "date") (add_event (EvNow (env0.(e_now) (started (fst (start_of ""))).(strace))) (started (fst (start_of ""))))
    (started_in (fst (start_of "")) (snd (start_of ""))) (code_of (B " {:;name:} ")) [] = BOk c s3 i3 /\ c = B "World") as (c & s3 & i3 & E & Ec)
    by (apply X; vm_compute; reflexivity).
  assert (eval_bif env0 (fst (start_of "")) (snd (start_of "")) (bif_text [] (B "date") (B " {:;name:} ")) [] = finished [] c s3 i3) as HF.
  { eapply H; [| | |exact E| |].
    - vm_compute. discriminate.
    - left. reflexivity.
    - apply unseparated. vm_compute. reflexivity.
    - rewrite Ec. discriminate.
    - reflexivity. }
  assert ((match eval_bif env0 (fst (start_of "")) (snd (start_of "")) (bif_text [] (B "date") (B " {:;name:} ")) [] with BOk o _ _ => beq o (B "World") | _ => false end) = false) as HB
    by (vm_compute; reflexivity).
  rewrite HF, Ec in HB. discriminate HB.
Qed.
Print Assumptions C75_format_is_evaluated_refuted.
