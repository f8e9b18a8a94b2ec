(** * Property theorems: the numbers of {:sum;} (C108) *)

From Verif Require Import Bytes Json Utils ConstantsGen State Engine Template Spec SpecEngine Float64 SpecDouble BytesFacts NumberProofs WordProofs HandlerProofs
  DoubleProofs DoubleShow Samples PropertiesEngine PropertiesHandlers.
Open Scope nat_scope.

(** ** Reading, adding and printing are those of IEEE 754, which leaves no choice (but of two equally near shortest texts) *)
Theorem C108_reads : forall s x, read_f64 s = Some x <-> stands_for s x.
Proof. exact read_iff. Qed.
Print Assumptions C108_reads.
Theorem C108_adds : forall x y z, f64_add x y = z <-> adds x y z.
Proof. exact add_iff. Qed.
Print Assumptions C108_adds.
Theorem C108_shows : forall x, valid x -> shows x (show_f64 x).
Proof. exact show_ok. Qed.
Print Assumptions C108_shows.
(** a text stands for at most one number, and for one exactly if it is a floating-point text; it is then a number of 64 bits *)
Theorem C108_number : forall s, ((exists x, stands_for s x) <-> exists p, float_text s p) /\
  forall x y, stands_for s x -> stands_for s y -> x = y /\ valid x.
Proof.
  intro s. split.
  - split; intros [x H]; [exists (positive x); apply stands_float; exact H|eapply float_stands; exact H].
  - intros x y HX HY. split; [eapply stands_unique; eassumption|eapply stands_valid; exact HX].
Qed.
Print Assumptions C108_number.
(** the number is positive exactly when the text counts as positive in conditions *)
Theorem C108_positive : forall s x p, stands_for s x -> float_text s p ->
  (p = true <-> match x with Fin neg v => neg = false /\ (v <> 0)%N | Inf neg => neg = false | NaN => False end).
Proof.
  intros s x p HX HP. rewrite (float_det _ _ _ HP (stands_float _ _ HX)). destruct x as [[|] v|[|]|]; cbn [positive].
  - split; [discriminate|intros [H _]; discriminate H].
  - rewrite negb_true_iff, N.eqb_neq. split; [intro H; split; [reflexivity|exact H]|intros [_ H]; exact H].
  - split; discriminate.
  - split; reflexivity.
  - split; [discriminate|intros []].
Qed.
Print Assumptions C108_positive.
(** a text that stands for a number is true in a condition exactly if the number is positive *)
Theorem C108_condition : forall s x, stands_for s x ->
  (truthy (JStr s) <-> match x with Fin neg v => neg = false /\ (v <> 0)%N | Inf neg => neg = false | NaN => False end).
Proof.
  intros s x HX. pose proof (stands_float _ _ HX) as HF. rewrite <- (C108_positive s x _ HX HF). cbn [truthy]. unfold non_positive_number. split.
  - intros (_ & _ & H). destruct (positive x); [reflexivity|contradiction].
  - intro HP. split; [|split].
    + intros ->. apply read_iff in HX. discriminate HX.
    + intros ->. apply read_iff in HX. discriminate HX.
    + intro H0. pose proof (float_det _ _ _ H0 HF). congruence.
Qed.
Print Assumptions C108_condition.

(** ** A machine that adds this way *)
Theorem C108_machine : forall env, (forall x y, e_fadd env x y = sum_text x y) -> doubles env.
Proof.
  intros env HE x y a b c HX HY HA. rewrite HE. unfold sum_text. rewrite (proj2 (read_iff _ _) HX), (proj2 (read_iff _ _) HY), (proj2 (add_iff _ _ _) HA).
  apply show_ok. eapply adds_valid; [eapply stands_valid; exact HX|eapply stands_valid; exact HY|exact HA].
Qed.
Print Assumptions C108_machine.
(** the sum of two numbers is one number; its text is read back as that number *)
Theorem C108_reads_back : forall env x y a b, doubles env -> stands_for x a -> stands_for y b ->
  exists c, adds a b c /\ (forall d, adds a b d -> d = c) /\ shows c (e_fadd env x y) /\ stands_for (e_fadd env x y) c.
Proof.
  intros env x y a b HD HX HY. assert (adds a b (f64_add a b)) as HA by (apply add_iff; reflexivity). exists (f64_add a b). split; [exact HA|].
  split; [intros d H; symmetry; apply add_iff; exact H|]. pose proof (HD x y a b _ HX HY HA) as HS. split; [exact HS|]. apply shows_back; [|exact HS].
  eapply adds_valid; [eapply stands_valid; exact HX|eapply stands_valid; exact HY|exact HA].
Qed.
Print Assumptions C108_reads_back.
Theorem C108_commutes : forall env x y, (forall x y, e_fadd env x y = sum_text x y) -> e_fadd env x y = e_fadd env y x.
Proof. intros env x y HE. rewrite !HE. unfold sum_text. destruct (read_f64 x), (read_f64 y); try reflexivity. rewrite add_comm. reflexivity. Qed.
Print Assumptions C108_commutes.
(** The sum differs from the exact sum by at most its 2^53rd part. *)
Theorem C108_error : forall s a t b n v, adds (Fin s a) (Fin t b) (Fin n v) ->
  let sum := (signed s a + signed t b)%Z in (Z.abs (sum - signed n v) * 2 ^ 53 <= Z.abs sum)%Z.
Proof. exact adds_error. Qed.
Print Assumptions C108_error.

(** ** Integers below 2^53 are added exactly, and written the usual way *)
Lemma exact_step env x y a b : doubles env -> plain_integer x a -> plain_integer y b ->
  (Z.abs a < 2 ^ 53)%Z -> (Z.abs b < 2 ^ 53)%Z -> (Z.abs (a + b) < 2 ^ 53)%Z -> plain_integer (e_fadd env x y) (a + b).
Proof.
  intros HD HX HY HA HB HS. apply integer_shows; [exact HS|].
  apply (HD x y (integer_double a) (integer_double b)); [apply integer_reads; assumption|apply integer_reads; assumption|apply integer_adds; exact HS].
Qed.
Theorem C108_exact : forall env x y a b, doubles env -> plain_integer x a -> plain_integer y b ->
  (Z.abs a < 2 ^ 53)%Z -> (Z.abs b < 2 ^ 53)%Z -> (Z.abs (a + b) < 2 ^ 53)%Z -> plain_integer (e_fadd env x y) (a + b).
Proof. exact exact_step. Qed.
Print Assumptions C108_exact.
(** however many are added one after the other *)
Theorem C108_running : forall env l z0 t0, doubles env -> plain_integer t0 z0 ->
  Forall (fun p => plain_integer (fst p) (snd p) /\ (Z.abs (snd p) < 2 ^ 53)%Z) l ->
  (forall k, (Z.abs (fold_left Z.add (firstn k (map snd l)) z0) < 2 ^ 53)%Z) ->
  plain_integer (fold_left (e_fadd env) (map fst l) t0) (fold_left Z.add (map snd l) z0).
Proof.
  intros env l z0 t0 HD H0 HF HK. revert z0 t0 H0 HK. induction HF as [|[x a] l [HX HA] HF IH]; intros z0 t0 H0 HK; [exact H0|]. cbn [map fold_left fst snd] in *.
  apply IH; [|intro k; exact (HK (S k))]. apply exact_step; try assumption; [exact (HK 0)|exact (HK 1)].
Qed.
Print Assumptions C108_running.

(** ** The function of templates *)
Theorem C108_sum : forall env s i mods body only args s1 x y a b, doubles env -> Forall modifier mods ->
  ~ In "&"%char mods -> ~ In "!"%char mods -> ~ In "+"%char mods ->
  may_start s -> selected only i mods (B "sum") -> has_data s -> can_report s -> ~ occurs (B "{:flg;") (trim body) ->
  arguments env (B "sum") (started_in s i) only (arg_texts (trim body)) (started s) args s1 ->
  nth_error args 1 = Some x -> nth_error args 2 = Some y -> stands_for x a -> stands_for y b ->
  exists c t, adds a b c /\ shows c t /\ stands_for t c /\
    eval_bif env s i (bif_text mods (B "sum") body) only = finished mods t s1 (started_in s i).
Proof.
  intros env s i mods body only args s1 x y a b HD HM H1 H2 H3 HS HO HH HC HF HA HX HY SX SY.
  destruct (C108_reads_back env x y a b HD SX SY) as (c & HAD & _ & HSH & HST). exists c, (e_fadd env x y). split; [exact HAD|]. split; [exact HSH|]. split; [exact HST|].
  destruct (C75_sum env s i mods body only args s1 x y HM H1 H2 H3 HS HO HH HC HF HA HX HY) as (HOK & _). apply HOK; eexists; apply stands_float; eassumption.
Qed.
Print Assumptions C108_sum.
Theorem C108_integers : forall env s i mods body only args s1 x y a b, doubles env -> Forall modifier mods ->
  ~ In "&"%char mods -> ~ In "!"%char mods -> ~ In "+"%char mods ->
  may_start s -> selected only i mods (B "sum") -> has_data s -> can_report s -> ~ occurs (B "{:flg;") (trim body) ->
  arguments env (B "sum") (started_in s i) only (arg_texts (trim body)) (started s) args s1 ->
  nth_error args 1 = Some x -> nth_error args 2 = Some y -> plain_integer x a -> plain_integer y b ->
  (Z.abs a < 2 ^ 53)%Z -> (Z.abs b < 2 ^ 53)%Z -> (Z.abs (a + b) < 2 ^ 53)%Z ->
  exists t, plain_integer t (a + b) /\ eval_bif env s i (bif_text mods (B "sum") body) only = finished mods t s1 (started_in s i).
Proof.
  intros env s i mods body only args s1 x y a b HD HM H1 H2 H3 HS HO HH HC HF HA HX HY SX SY AX AY AS. exists (e_fadd env x y).
  split; [apply exact_step; assumption|].
  destruct (C75_sum env s i mods body only args s1 x y HM H1 H2 H3 HS HO HH HC HF HA HX HY) as (HOK & _).
  apply HOK; eexists; apply stands_float; [apply (integer_reads x a)|apply (integer_reads y b)]; assumption.
Qed.
Print Assumptions C108_integers.

(** ** Examples *)
Definition env_doubles (env : Env) : Env :=
  mkEnv env.(e_md5) env.(e_sha256) env.(e_lower) env.(e_from_str) env.(e_to_string) env.(e_to_pretty) sum_text env.(e_parent) env.(e_date)
        env.(e_cwd) env.(e_tmp) env.(e_exists) env.(e_is_file) env.(e_canon) env.(e_read) env.(e_read_err) env.(e_mkdir) env.(e_create) env.(e_write)
        env.(e_mtime) env.(e_age) env.(e_now) env.(e_local_now) env.(e_rand) env.(e_rand_bytes) env.(e_python) env.(e_php).
Example C108_example : doubles (env_doubles env1) /\ output_in (env_doubles env1) "{:sum; /{:;num:}/35/ :}" = B "42" /\
  output_in (env_doubles env1) "{:sum; /0.1/0.2/ :}" = B "0.30000000000000004" /\ output_in (env_doubles env1) "{:sum; ~-1e3~1.5~ :}" = B "-998.5".
Proof. split; [apply C108_machine; reflexivity|]. split; [|split]; vm_compute; reflexivity. Qed.
(** beyond 2^53 neighbouring integers are one, and sums depend on the order *)
Example C108_limits :
  sum_text (B "9007199254740992") (B "1") = B "9007199254740992" /\ sum_text (B "9007199254740991") (B "0") = B "9007199254740991" /\
  sum_text (sum_text (B "0.1") (B "0.2")) (B "0.3") <> sum_text (B "0.1") (sum_text (B "0.2") (B "0.3")) /\
  sum_text (B "-0") (B "-0") = B "-0" /\ sum_text (B "1e308") (B "1e308") = B "inf" /\ sum_text (B "inf") (B "-inf") = B "NaN" /\
  sum_text (B "5e-324") (B "0") = B "0." ++ repeat "0"%char 323 ++ B "5" /\ sum_text (B "1e23") (B "0") = B "100000000000000000000000".
Proof.
  split; [vm_compute; reflexivity|]. split; [vm_compute; reflexivity|]. split; [vm_compute; discriminate|]. split; [vm_compute; reflexivity|].
  split; [vm_compute; reflexivity|]. split; [vm_compute; reflexivity|]. split; vm_compute; reflexivity.
Qed.
