(** * C87, C88: the order of the modifiers and the layout of a bif *)

From Verif Require Import Bytes Json Utils ConstantsGen State Engine Template Spec SpecEngine SpecLayout BytesFacts
  TemplateProofs WordProofs EvalProofs HandlerProofs LayoutProofs Samples.

(** two bifs with the same modifiers and the same parts run in step *)
Lemma in_step env s i m1 m2 nm b1 b2 only :
  Forall modifier m1 -> Forall modifier m2 -> (forall c, has_mod c m1 = has_mod c m2) ->
  plain_name nm -> nm <> B "neutral" -> i.(in_cache) = false ->
  may_start s -> selected only i m1 nm -> selected only i m2 nm ->
  trim b1 = trim b2 \/ (~ In nm whole_body /\ same_src (trim b1) (trim b2)) ->
  same_but_quote env (bif_text m1 nm b1) (bif_text m2 nm b2)
    (eval_bif env s i (bif_text m1 nm b1) only) (eval_bif env s i (bif_text m2 nm b2) only).
Proof.
  intros HM1 HM2 HE HP HN HC HS HO1 HO2 HB. rewrite !eval_bif_text by assumption.
  destruct HB as [HB|[HW HB]].
  - assert (entry s i m2 nm b2 only = tw (bif_text m2 nm b2) None (entry s i m1 nm b1 only)) as ->.
    { unfold entry, tw, twin, bif_of. cbn. rewrite !HE, HB. reflexivity. }
    apply twin_result; [exact HN|left; reflexivity|]. split; [reflexivity|]. split; [exact I|exact HC].
  - assert (entry s i m2 nm b2 only = tw (bif_text m2 nm b2) (Some (trim b2)) (entry s i m1 nm b1 only)) as ->.
    { unfold entry, tw, twin, bif_of. cbn. rewrite !HE. reflexivity. }
    apply twin_result; [exact HN|right; exact HW|]. split; [reflexivity|]. split; [exact HB|exact HC].
Qed.

(** ** C87: the order of the modifiers does not matter *)
Theorem C87_modifier_order : forall env s i m1 m2 nm body only,
  Forall modifier m1 -> Forall modifier m2 -> (forall c, In c m1 <-> In c m2) ->
  plain_name nm -> nm <> B "neutral" -> i.(in_cache) = false ->
  may_start s -> selected only i m1 nm -> selected only i m2 nm ->
  same_but_quote env (bif_text m1 nm body) (bif_text m2 nm body)
    (eval_bif env s i (bif_text m1 nm body) only) (eval_bif env s i (bif_text m2 nm body) only).
Proof.
  intros env s i m1 m2 nm body only HM1 HM2 HE HP HN HC HS HO1 HO2. apply in_step; try assumption; [|left; reflexivity].
  intro c. unfold has_mod. apply eq_true_iff_eq. rewrite !existsb_exists.
  split; intros (d & HI & E); exists d; (split; [apply HE; exact HI|exact E]).
Qed.
Print Assumptions C87_modifier_order.

(** ** C88: white space around the parts of a bif does not matter *)
Theorem C88_layout_of_the_parts : forall env s i mods nm only p c w1 w2 w3 w4 v1 v2 v3 v4,
  Forall modifier mods -> plain_name nm -> nm <> B "neutral" -> ~ In nm whole_body -> i.(in_cache) = false ->
  may_start s -> selected only i mods nm -> parameter_text p ->
  Forall all_white [w1; w2; w3; w4; v1; v2; v3; v4] ->
  let t1 := bif_text mods nm (w1 ++ p ++ w2 ++ B ">>" ++ w3 ++ c ++ w4) in
  let t2 := bif_text mods nm (v1 ++ p ++ v2 ++ B ">>" ++ v3 ++ c ++ v4) in
  same_but_quote env t1 t2 (eval_bif env s i t1 only) (eval_bif env s i t2 only).
Proof.
  intros env s i mods nm only p c w1 w2 w3 w4 v1 v2 v3 v4 HM HP HN HW HC HS HO HPT HA t1 t2.
  repeat match goal with H : Forall all_white (_ :: _) |- _ => apply Forall_cons_iff in H as [? H] end. clear HA.
  apply in_step; try assumption; [intro; reflexivity|]. right. split; [exact HW|].
  destruct (layout_parts w1 p w2 w3 c w4) as (k1 & C1 & G1 & P1 & E1); try assumption.
  destruct (layout_parts v1 p v2 v3 c v4) as (k2 & C2 & G2 & P2 & E2); try assumption.
  split; [exact C1|]. split; [exact C2|]. exists k1, k2. split; [exact G1|]. split; [exact G2|].
  split; [rewrite P1, P2; reflexivity|rewrite E1, E2; reflexivity].
Qed.
Print Assumptions C88_layout_of_the_parts.

Theorem C88_layout_of_the_body : forall env s i mods nm only body w1 w2 v1 v2,
  Forall modifier mods -> plain_name nm -> nm <> B "neutral" -> i.(in_cache) = false ->
  may_start s -> selected only i mods nm -> Forall all_white [w1; w2; v1; v2] ->
  let t1 := bif_text mods nm (w1 ++ body ++ w2) in
  let t2 := bif_text mods nm (v1 ++ body ++ v2) in
  same_but_quote env t1 t2 (eval_bif env s i t1 only) (eval_bif env s i t2 only).
Proof.
  intros env s i mods nm only body w1 w2 v1 v2 HM HP HN HC HS HO HA t1 t2.
  repeat match goal with H : Forall all_white (_ :: _) |- _ => apply Forall_cons_iff in H as [? H] end. clear HA.
  apply in_step; try assumption; [intro; reflexivity|]. left. rewrite !trim_spaces by assumption. reflexivity.
Qed.
Print Assumptions C88_layout_of_the_body.

(** A bif can also be repeated: a text that reports an error and one that does not *)
Example C87_example :
  output_of "{:^!defined; nope >> {:;name:} :}" = output_of "{:!^defined; nope >> {:;name:} :}" /\
  output_of "x {:^!defined; nope >> {:;name:} :}" = B "xWorld" /\
  Forall modifier (B "^!") /\ Forall modifier (B "!^") /\ (forall c, In c (B "^!") <-> In c (B "!^")) /\ plain_name (B "defined").
Proof.
  split; [vm_compute; reflexivity|]. split; [vm_compute; reflexivity|].
  split; [repeat (constructor; [unfold modifier; cbn; tauto|]); constructor|]. split; [repeat (constructor; [unfold modifier; cbn; tauto|]); constructor|].
  split; [intro c; cbn; tauto|]. plain.
Qed.
Example C88_example :
  output_of "{:same;/{:;name:}/World/>>yes:}" = B "yes" /\
  output_of "{:same;   /{:;name:}/World/   >>   yes   :}" = B "yes" /\
  parameter_text (B "/{:code; a >> b :}/World/") /\ all_white (B "   ").
Proof.
  split; [vm_compute; reflexivity|]. split; [vm_compute; reflexivity|]. split; [vm_compute; reflexivity|].
  exists [[" "%char]; [" "%char]; [" "%char]]. split; [reflexivity|]. repeat constructor; exists 32%N; (split; [cbn; tauto|reflexivity]).
Qed.
