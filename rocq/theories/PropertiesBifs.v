(** * Property theorems: the individual bifs *)

From Verif Require Import Bytes Json Utils ConstantsGen State Engine Template Spec SpecEngine BytesFacts TextProofs
  FrameProofs FrameRun EngineFrames MoreFrames EvalProofs KeepProofs HandlerProofs Samples.

(** ** C22, C23: bool, filled, defined and array *)

Definition test_fun (nm : bytes) : json -> bytes -> bool :=
  if beq nm (B "bool") then is_bool_key
  else if beq nm (B "filled") then fun d k => negb (is_empty_key d k)
  else if beq nm (B "defined") then is_defined_key else is_array_key.

Definition tests : list bytes := [B "bool"; B "filled"; B "defined"; B "array"].

Lemma tests_dispatch env rec nm : In nm tests -> plain_name nm /\ dispatch env rec nm = bif_cond rec (test_fun nm).
Proof. intros [<-|[<-|[<-|[<-|[]]]]]; (split; [plain|reflexivity]). Qed.

Lemma cond_run env s i mods nm body only p s1 : In nm tests -> Forall modifier mods -> ~ In "&"%char mods ->
  may_start s -> selected only i mods nm ->
  prepared env nm (started s) (started_in s i) only body p [] s1 ->
  eval_bif env s i (bif_text mods nm body) only =
  conditional env (xorb (var_test (test_fun nm) s1 (started_in s i) p) (has_mod "!" mods)) mods nm (code_of body)
    s1 (started_in s i) only.
Proof.
  intros HT HM HA HS HO HP. destruct (tests_dispatch env (run_blocks env (enough_fuel s)) nm HT) as [HN HD].
  rewrite eval_bif_text by assumption. rewrite HD. unfold bif_cond, entry.
  rewrite bind_reject by (proj; allowed).
  pose proof (room_started s) as HR.
  erewrite bind_done by (eapply run_extract; [exact HR|reflexivity..|exact HP]).
  rewrite bind_no_flags by reflexivity.
  rewrite bind_getB, bind_getS, bind_getI. proj. unfold conditional.
  destruct (xorb _ _).
  - assert (room (enough_fuel s) s1) as HR1 by (eapply room_later; [eapply prepared_later; exact HP|exact HR]).
    unfold bind at 1. rewrite run_code by (exact HR1 || reflexivity). proj.
    destruct (eval_code env nm (has_mod "+" mods) s1 (started_in s i) (code_of body) only) as [o s2 i2|q|] eqn:E;
      [|reflexivity|reflexivity].
    cbn [onto and_then]. rewrite bind_getB. unfold set_out. apply result_done; reflexivity.
  - apply result_done; reflexivity.
Qed.

Lemma test_meaning nm P m n : condition_of nm P -> n <> [] ->
  (test_fun nm (JObj m) n = true <-> exists l v, name_path n l /\ reaches l (JObj m) v /\ P v).
Proof.
  intros HC HN. destruct (name_path_exists n) as [l Hl].
  assert (forall b : bool, (forall l, name_path n l -> (b = true <-> exists v, reaches l (JObj m) v /\ P v)) ->
    (b = true <-> exists l v, name_path n l /\ reaches l (JObj m) v /\ P v)) as HB.
  { intros b HB. split.
    - intro E. apply (HB l Hl) in E as (v & H1 & H2). eauto.
    - intros (l' & v & H1 & H2 & H3). apply (HB l' H1). eauto. }
  apply HB. intros l' Hl'. destruct HC.
  - exact (bool_spec m n l' HN Hl').
  - pose proof (filled_spec m n l' HN Hl') as E. change (test_fun (B "filled") (JObj m) n) with (negb (is_empty_key (JObj m) n)).
    rewrite negb_true_iff. exact E.
  - exact (defined_spec m n l' HN Hl').
  - exact (array_spec m n l' HN Hl').
Qed.

Lemma condition_tests nm P : condition_of nm P -> In nm tests.
Proof. intros []; cbn; tauto. Qed.

(** With the same body in the same state, exactly one of the plain and the '!' form renders the
    code; the other one renders nothing. *)
Theorem C22_exactly_one : forall env s i mods nm body only p s1, In nm tests ->
  Forall modifier mods -> ~ In "&"%char mods -> ~ In "!"%char mods ->
  may_start s -> selected only i mods nm ->
  prepared env nm (started s) (started_in s i) only body p [] s1 ->
  let renders := and_then (eval_code env nm (has_mod "+" mods) s1 (started_in s i) (code_of body) only) (finished mods) in
  let nothing := finished mods [] s1 (started_in s i) in
  let plain := eval_bif env s i (bif_text mods nm body) only in
  let negated := eval_bif env s i (bif_text ("!"%char :: mods) nm body) only in
  (plain = renders /\ negated = nothing) \/ (plain = nothing /\ negated = renders).
Proof.
  intros env s i mods nm body only p s1 HT HM HA HG HS HO HP. cbn zeta.
  rewrite (cond_run env s i mods nm body only p s1) by assumption.
  rewrite (cond_run env s i ("!"%char :: mods) nm body only p s1); try assumption.
  - rewrite (has_mod_false "!" mods HG). change (has_mod "!" ("!"%char :: mods)) with true.
    unfold conditional. destruct (var_test (test_fun nm) s1 (started_in s i) p); cbn [xorb].
    + left. split; reflexivity.
    + right. split; reflexivity.
  - constructor; [right; left; reflexivity|exact HM].
  - intros [H|H]; [discriminate|contradiction].
  - apply selected_more. exact HO.
Qed.
Print Assumptions C22_exactly_one.

(** which one, from the value of the variable *)
Theorem C22_condition : forall env s i mods nm P body only p s1, condition_of nm P ->
  Forall modifier mods -> ~ In "&"%char mods -> may_start s -> selected only i mods nm ->
  prepared env nm (started s) (started_in s i) only body p [] s1 ->
  is_obj (fst (scope_of s1 (started_in s i) p)) -> snd (scope_of s1 (started_in s i) p) <> [] ->
  let renders := and_then (eval_code env nm (has_mod "+" mods) s1 (started_in s i) (code_of body) only) (finished mods) in
  let nothing := finished mods [] s1 (started_in s i) in
  let result := eval_bif env s i (bif_text mods nm body) only in
  (value_is P s1 (started_in s i) p -> result = if has_mod "!" mods then nothing else renders) /\
  (~ value_is P s1 (started_in s i) p -> result = if has_mod "!" mods then renders else nothing).
Proof.
  intros env s i mods nm P body only p s1 HC HM HA HS HO HP HB HN. cbn zeta.
  rewrite (cond_run env s i mods nm body only p s1) by (assumption || eapply condition_tests; eassumption).
  assert (var_test (test_fun nm) s1 (started_in s i) p = true <-> value_is P s1 (started_in s i) p) as E.
  { unfold value_is, var_test, scope_of in *. change LOCAL with (B "local::").
    destruct (strip_prefix (B "local::") p) as [l|]; cbn [fst snd] in *.
    - destruct HB as [m Em]. unfold visible in Em |- *. unfold local_data_of. rewrite Em. apply test_meaning; assumption.
    - destruct HB as [m Em]. unfold data_of. rewrite Em. apply test_meaning; assumption. }
  split; intro H.
  - apply E in H. rewrite H. unfold conditional. destruct (has_mod "!" mods); reflexivity.
  - destruct (var_test (test_fun nm) s1 (started_in s i) p); [exfalso; apply H, E; reflexivity|].
    unfold conditional. destruct (has_mod "!" mods); reflexivity.
Qed.
Print Assumptions C22_condition.

(** ** C22, C60: same and contains *)
Definition compare_fun (nm : bytes) : bytes -> bytes -> bool :=
  if beq nm (B "same") then beq else fun hay needle => contains needle hay.
Definition compares : list bytes := [B "same"; B "contains"].
Lemma compares_dispatch env rec nm : In nm compares -> plain_name nm /\ dispatch env rec nm = bif_compare rec (compare_fun nm).
Proof. intros [<-|[<-|[]]]; (split; [plain|reflexivity]). Qed.

Lemma compare_run env s i mods nm body only l x y s1 : In nm compares -> Forall modifier mods -> ~ In "&"%char mods ->
  may_start s -> selected only i mods nm -> ~ occurs (B "{:flg;") (params_of body) ->
  arguments env nm (started_in s i) only (arg_texts (params_of body)) (started s) l s1 ->
  nth_error l 1 = Some x -> nth_error l 2 = Some y ->
  eval_bif env s i (bif_text mods nm body) only =
  conditional env (xorb (compare_fun nm x y) (has_mod "!" mods)) mods nm (code_of body) s1 (started_in s i) only.
Proof.
  intros HT HM HA HS HO HF HP HX HY. destruct (compares_dispatch env (run_blocks env (enough_fuel s)) nm HT) as [HN HD].
  rewrite eval_bif_text by assumption. rewrite HD. unfold bif_compare, entry.
  rewrite bind_reject by (proj; allowed).
  pose proof (room_started s) as HR.
  erewrite bind_done by (apply run_extract_raw; reflexivity).
  rewrite bind_getB. proj.
  assert (contains (B "{:flg;") (params_of body) = false) as EF
    by (destruct (contains _ _) eqn:E; [|reflexivity]; apply contains_iff in E; contradiction).
  rewrite EF.
  erewrite bind_done by (apply run_args; [exact HR|reflexivity|reflexivity|exact HP]).
  unfold need_arg, arg. rewrite HX, bind_ret, HY, bind_ret. unfold conditional.
  destruct (xorb _ _).
  - assert (room (enough_fuel s) s1) as HR1 by (eapply room_later; [eapply arguments_later; exact HP|exact HR]).
    unfold bind at 1. rewrite run_code by (exact HR1 || reflexivity). proj.
    destruct (eval_code env nm (has_mod "+" mods) s1 (started_in s i) (code_of body) only) as [o s2 i2|q|] eqn:E;
      [|reflexivity|reflexivity].
    cbn [onto and_then]. rewrite bind_getB. unfold set_out. apply result_done; reflexivity.
  - apply result_done; reflexivity.
Qed.

Theorem C22_exactly_one_compare : forall env s i mods nm body only l x y s1, In nm compares ->
  Forall modifier mods -> ~ In "&"%char mods -> ~ In "!"%char mods ->
  may_start s -> selected only i mods nm -> ~ occurs (B "{:flg;") (params_of body) ->
  arguments env nm (started_in s i) only (arg_texts (params_of body)) (started s) l s1 ->
  nth_error l 1 = Some x -> nth_error l 2 = Some y ->
  let renders := and_then (eval_code env nm (has_mod "+" mods) s1 (started_in s i) (code_of body) only) (finished mods) in
  let nothing := finished mods [] s1 (started_in s i) in
  let plain := eval_bif env s i (bif_text mods nm body) only in
  let negated := eval_bif env s i (bif_text ("!"%char :: mods) nm body) only in
  (plain = renders /\ negated = nothing) \/ (plain = nothing /\ negated = renders).
Proof.
  intros env s i mods nm body only l x y s1 HT HM HA HG HS HO HF HP HX HY. cbn zeta.
  rewrite (compare_run env s i mods nm body only l x y s1) by assumption.
  rewrite (compare_run env s i ("!"%char :: mods) nm body only l x y s1); try assumption.
  - rewrite (has_mod_false "!" mods HG). change (has_mod "!" ("!"%char :: mods)) with true.
    unfold conditional. destruct (compare_fun nm x y); cbn [xorb]; [left|right]; split; reflexivity.
  - constructor; [right; left; reflexivity|exact HM].
  - intros [H|H]; [discriminate|contradiction].
  - apply selected_more. exact HO.
Qed.
Print Assumptions C22_exactly_one_compare.

(** same: the two arguments are equal; contains: the second occurs in the first *)
Theorem C60_same : forall env s i mods body only l x y s1, Forall modifier mods -> ~ In "&"%char mods ->
  may_start s -> selected only i mods (B "same") -> ~ occurs (B "{:flg;") (params_of body) ->
  arguments env (B "same") (started_in s i) only (arg_texts (params_of body)) (started s) l s1 ->
  nth_error l 1 = Some x -> nth_error l 2 = Some y ->
  let renders := and_then (eval_code env (B "same") (has_mod "+" mods) s1 (started_in s i) (code_of body) only) (finished mods) in
  let nothing := finished mods [] s1 (started_in s i) in
  let result := eval_bif env s i (bif_text mods (B "same") body) only in
  (x = y -> result = if has_mod "!" mods then nothing else renders) /\
  (x <> y -> result = if has_mod "!" mods then renders else nothing).
Proof.
  intros env s i mods body only l x y s1 HM HA HS HO HF HP HX HY. cbn zeta.
  rewrite (compare_run env s i mods (B "same") body only l x y s1) by (assumption || (cbn; tauto)).
  change (compare_fun (B "same")) with beq. unfold conditional. split.
  - intros ->. rewrite beq_refl. destruct (has_mod "!" mods); reflexivity.
  - intro H. destruct (beq x y) eqn:E; [apply beq_eq in E; contradiction|]. destruct (has_mod "!" mods); reflexivity.
Qed.
Print Assumptions C60_same.

Theorem C59_contains_bif : forall env s i mods body only l x y s1, Forall modifier mods -> ~ In "&"%char mods ->
  may_start s -> selected only i mods (B "contains") -> ~ occurs (B "{:flg;") (params_of body) ->
  arguments env (B "contains") (started_in s i) only (arg_texts (params_of body)) (started s) l s1 ->
  nth_error l 1 = Some x -> nth_error l 2 = Some y ->
  let renders := and_then (eval_code env (B "contains") (has_mod "+" mods) s1 (started_in s i) (code_of body) only) (finished mods) in
  let nothing := finished mods [] s1 (started_in s i) in
  let result := eval_bif env s i (bif_text mods (B "contains") body) only in
  (occurs y x -> result = if has_mod "!" mods then nothing else renders) /\
  (~ occurs y x -> result = if has_mod "!" mods then renders else nothing).
Proof.
  intros env s i mods body only l x y s1 HM HA HS HO HF HP HX HY. cbn zeta.
  rewrite (compare_run env s i mods (B "contains") body only l x y s1) by (assumption || (cbn; tauto)).
  change (compare_fun (B "contains") x y) with (contains y x). unfold conditional. split.
  - intro H. apply contains_iff in H. rewrite H. destruct (has_mod "!" mods); reflexivity.
  - intro H. destruct (contains y x) eqn:E; [apply contains_iff in E; contradiction|]. destruct (has_mod "!" mods); reflexivity.
Qed.
Print Assumptions C59_contains_bif.

(** ** C23: what the code of a condition that does not hold may do *)

(** Two bodies with the same parameters: either the code of both is rendered, or the result is
    the same for both, the state after the evaluation of the parameters. *)
Theorem C23_tests : forall env s i mods nm body body' only p s1, In nm tests ->
  Forall modifier mods -> ~ In "&"%char mods -> may_start s -> selected only i mods nm ->
  params_of body' = params_of body -> prepared env nm (started s) (started_in s i) only body p [] s1 ->
  let renders c := and_then (eval_code env nm (has_mod "+" mods) s1 (started_in s i) c only) (finished mods) in
  let nothing := finished mods [] s1 (started_in s i) in
  let result b := eval_bif env s i (bif_text mods nm b) only in
  (result body = nothing /\ result body' = nothing) \/
  (result body = renders (code_of body) /\ result body' = renders (code_of body')).
Proof.
  intros env s i mods nm body body' only p s1 HT HM HA HS HO HE HP. cbv beta zeta.
  assert (prepared env nm (started s) (started_in s i) only body' p [] s1) as HP'.
  { remember [] as fl eqn:EF. destruct HP as [HN|p s1 i1 HO' HE'].
    - rewrite <- HE. apply pr_plain. rewrite HE. exact HN.
    - eapply pr_eval; rewrite HE; eassumption. }
  rewrite (cond_run env s i mods nm body only p s1) by assumption.
  rewrite (cond_run env s i mods nm body' only p s1) by assumption.
  unfold conditional. destruct (xorb _ _); [right|left]; split; reflexivity.
Qed.
Print Assumptions C23_tests.

Theorem C23_compare : forall env s i mods nm body body' only l x y s1, In nm compares ->
  Forall modifier mods -> ~ In "&"%char mods -> may_start s -> selected only i mods nm ->
  params_of body' = params_of body -> ~ occurs (B "{:flg;") (params_of body) ->
  arguments env nm (started_in s i) only (arg_texts (params_of body)) (started s) l s1 ->
  nth_error l 1 = Some x -> nth_error l 2 = Some y ->
  let renders c := and_then (eval_code env nm (has_mod "+" mods) s1 (started_in s i) c only) (finished mods) in
  let nothing := finished mods [] s1 (started_in s i) in
  let result b := eval_bif env s i (bif_text mods nm b) only in
  (result body = nothing /\ result body' = nothing) \/
  (result body = renders (code_of body) /\ result body' = renders (code_of body')).
Proof.
  intros env s i mods nm body body' only l x y s1 HT HM HA HS HO HE HF HP HX HY. cbv beta zeta.
  rewrite (compare_run env s i mods nm body only l x y s1) by assumption.
  rewrite (compare_run env s i mods nm body' only l x y s1) by (rewrite ?HE; assumption).
  unfold conditional. destruct (xorb _ _); [right|left]; split; reflexivity.
Qed.
Print Assumptions C23_compare.

(** ** C24: else *)
Theorem C24_else : forall env s i mods body only p s1, Forall modifier mods -> ~ In "&"%char mods ->
  may_start s -> selected only i mods (B "else") ->
  prepared env (B "else") (started s) (started_in s i) only body p [] s1 ->
  let renders := and_then (eval_code env (B "else") (has_mod "+" mods) s1 (started_in s i) (code_of body) only) (finished mods) in
  let nothing := finished mods [] s1 (started_in s i) in
  eval_bif env s i (bif_text mods (B "else") body) only =
  if xorb i.(last_bif_out) (has_mod "!" mods) then nothing else renders.
Proof.
  intros env s i mods body only p s1 HM HA HS HO HP. cbv beta zeta.
  rewrite eval_bif_text by (assumption || plain).
  change (dispatch env ?r (B "else")) with (bif_else r). unfold bif_else, entry.
  rewrite bind_reject by (proj; allowed).
  pose proof (room_started s) as HR.
  erewrite bind_done by (eapply run_extract; [exact HR|reflexivity..|exact HP]).
  rewrite bind_no_flags by reflexivity.
  rewrite bind_getB, bind_getI. proj. change (last_bif_out (started_in s i)) with (last_bif_out i).
  destruct (xorb _ _); [apply result_done; reflexivity|].
  assert (room (enough_fuel s) s1) as HR1 by (eapply room_later; [eapply prepared_later; exact HP|exact HR]).
  unfold bind at 1. rewrite run_code by (exact HR1 || reflexivity). proj.
  destruct (eval_code env (B "else") (has_mod "+" mods) s1 (started_in s i) (code_of body) only) as [o s2 i2|q|] eqn:E;
    [|reflexivity|reflexivity].
  cbn [onto and_then]. rewrite bind_getB. unfold set_out. apply result_done; reflexivity.
Qed.
Print Assumptions C24_else.

(** [last_bif_out] of the block is whether the previous bif of the block has written anything
    (before white space around it is removed) *)
Theorem C24_previous : forall env s i mods nm body only o s' i', Forall modifier mods -> plain_name nm ->
  may_start s -> selected only i mods nm ->
  eval_bif env s i (bif_text mods nm body) only = BOk o s' i' ->
  exists written, o = trim ((if has_mod "^" mods then BACKSPACE else []) ++ written) /\
    (i'.(last_bif_out) = false <-> written = []) /\ i'.(last_coalesce_out) = i'.(last_bif_out).
Proof.
  intros env s i mods nm body only o s' i' HM HN HS HO H.
  destruct (bif_outcome _ _ _ _ _ _ _ _ _ _ HM HN HS HO H) as (w & i1 & -> & -> & _).
  exists w. split; [reflexivity|]. split; [|reflexivity].
  cbn [last_bif_out iset_last]. destruct w; cbn; split; congruence.
Qed.
Print Assumptions C24_previous.

(** "Output" in C24 means before trimming: white space written by the previous bif counts. *)
Theorem C24_visible_output_refuted :
  output_of "[{:;blank:}{:else; none :}]" = B "[]" /\ output_of "[{:;nothing:}{:else; none :}]" = B "[none]".
Proof. split; vm_compute; reflexivity. Qed.
Print Assumptions C24_visible_output_refuted.

Example C24_example : output_of "{:;name:}{:else; no :}{:;nothing:}{:else; yes :}{:!else; also :}" = B "Worldyesalso" /\
  (let s := fst (start_of "") in
   may_start s /\ selected [] (snd (start_of "")) [] (B "else") /\
   prepared env0 (B "else") (started s) (started_in s (snd (start_of ""))) [] (B " x ") [] [] (started s)).
Proof.
  split; [vm_compute; reflexivity|]. split; [vm_compute; discriminate|]. split; [left; reflexivity|].
  apply (pr_plain env0 (B "else") (started (fst (start_of ""))) (started_in (fst (start_of "")) (snd (start_of ""))) [] (B " x ")).
  intro H. apply contains_iff in H. vm_compute in H. discriminate.
Qed.
Example C22_example :
  output_of "{:bool; num >> a :}{:!bool; num >> b :}{:filled; no >> c :}{:!filled; no >> d :}{:array; list >> e :}{:defined; list->7 >> f :}{:!same; /a/b/ >> g :}{:contains; /abc/c/ >> h :}"
  = B "adegh".
Proof. vm_compute. reflexivity. Qed.
(** a failed condition: the variable, the snippet and the exit of the code leave no trace *)
Example C23_example : output_of "{:bool; no >> {:exit; 500 :}{:nosuch;:}{:include; /etc/passwd :} :}{:same; /a/b/ >> {:exit; 404 :} :}ok" = B "ok".
Proof. vm_compute. reflexivity. Qed.
Example C60_example : arg_texts (B "/{:;name:}/World/") = [[]; B "{:;name:}"; B "World"; []] /\
  output_of "{:same; /{:;name:}/World/ >> same :}" = B "same".
Proof. split; vm_compute; reflexivity. Qed.
