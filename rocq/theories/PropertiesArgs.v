(** * Property theorems: words, arguments and numbers (C95), missing arguments (C96), unknown bifs, flags, error lines (C97) *)

From Verif Require Import Bytes Json Utils ConstantsGen State Engine Template Spec SpecEngine BytesFacts EscapeProofs WildcardProofs TextProofs
  BlockProofs TemplateProofs WordProofs InertProofs FrameProofs FrameRun EngineFrames MoreFrames EvalProofs KeepProofs HandlerProofs Samples
  PropertiesVars PropertiesFiles PropertiesMore PropertiesHandlers PropertiesMisc PropertiesCache PropertiesBifs PropertiesLoops.

(** ** C95: words, arguments *)

(** every text has its words, and only those *)
Theorem C95_words : forall t, exists l, words t l /\ (forall l', words t l' -> l' = l) /\ (forall w, In w l <-> word_of w t).
Proof.
  intro t. exists (split_whitespace t). split; [apply words_iff; reflexivity|]. split.
  - intros l' H. apply words_iff in H. congruence.
  - intro w. apply words_exact.
Qed.
Print Assumptions C95_words.

(** what cutting a text means: the pieces are determined, they make up the text, and the delimiter is in none of them *)
Theorem C95_pieces : forall d t, d <> [] -> exists l, pieces d t l /\ (forall l', pieces d t l' -> l' = l) /\
  joined d l t /\ Forall (fun x => ~ occurs d x) l.
Proof.
  intros d t HD. exists (split d t). assert (pieces d t (split d t)) as H by (apply pieces_iff; [exact HD|reflexivity]).
  split; [exact H|]. split; [intros l' H'; exact (pieces_det _ _ _ HD H' _ H)|].
  revert H. generalize (split d t). induction 1 as [t H|u v l HM HP [IH1 IH2]]; split.
  - constructor.
  - constructor; [exact H|constructor].
  - inversion HP; subst; constructor; exact IH1.
  - constructor; [|exact IH2]. intros (x & y & E). apply (HM (length x)).
    + subst. rewrite !app_length. destruct d; [congruence|cbn; lia].
    + exists x, (y ++ d ++ v). split; [rewrite E, <- !app_assoc; reflexivity|reflexivity].
Qed.
Print Assumptions C95_pieces.

(** The arguments: the first character is the delimiter, the rest is cut at each of its occurrences; they are numbered from 1. *)
Theorem C95_arguments : (arg_texts [] = [[]]) /\
  forall t d r, characters t (d :: r) -> exists l, arg_texts t = [] :: l /\ pieces d (concat r) l.
Proof.
  split; [reflexivity|]. intros t d r HC. pose proof (characters_chars _ _ HC) as E. unfold arg_texts. rewrite E.
  destruct HC as [EC HF]. cbn [concat] in EC. inversion HF as [|d' r' HD _]; subst.
  assert (d <> []) as HN by (destruct HD as (a & x & -> & _); discriminate).
  exists (split d (concat r)). assert (pieces d (concat r) (split d (concat r))) as HP by (apply pieces_iff; [exact HN|reflexivity]).
  split; [|exact HP]. apply pieces_iff; [exact HN|]. apply (pc_cut d []); [cbn; lia|exact HP].
Qed.
Print Assumptions C95_arguments.

Example C95_example : words (B "  a  bc ") [B "a"; B "bc"] /\ arg_texts (B "/x//y/") = [[]; B "x"; []; B "y"; []] /\
  characters (B "/x//y/") [B "/"; B "x"; B "/"; B "/"; B "y"; B "/"] /\
  output_of "{:same; /{:;name:}/World/ >> yes :}{:same; #/#/# >> yes :}" = B "yesyes".
Proof.
  split; [apply words_iff; vm_compute; reflexivity|]. split; [vm_compute; reflexivity|]. split; [|vm_compute; reflexivity].
  split; [reflexivity|]. repeat (constructor; [do 2 eexists; split; [reflexivity|split; [reflexivity|constructor]]|]). constructor.
Qed.

(** ** C96: missing and malformed arguments *)

Lemma short_none {A} (l : list A) n : length l <= n -> nth_error l n = None.
Proof. apply nth_error_None. Qed.

Ltac args_report HH HAr HC := eapply keeps_reports; [eapply (arguments_keeps _ _ _ _ _ (started _)); [exact HH|exact HAr]|exact HC].

(** same, contains, replace, sum without two arguments *)
Theorem C96_two_arguments : forall env s i mods nm body only l s1,
  In nm [B "same"; B "contains"; B "replace"; B "sum"] -> Forall modifier mods ->
  ~ In "&"%char mods -> (nm = B "replace" \/ nm = B "sum" -> ~ In "!"%char mods /\ ~ In "+"%char mods) ->
  may_start s -> selected only i mods nm -> has_data s -> can_report s ->
  let ps := if beq nm (B "sum") then trim body else params_of body in
  ~ occurs (B "{:flg;") ps ->
  arguments env nm (started_in s i) only (arg_texts ps) (started s) l s1 -> length l < 3 ->
  eval_bif env s i (bif_text mods nm body) only =
  failed env (B "arguments not found") nm mods (bif_text mods nm body) [] s1 (started_in s i).
Proof.
  intros env s i mods nm body only l s1 HI HM HA HX HS HO HH HC ps HFl HAr HL. subst ps.
  assert (can_report s1) as HC1 by args_report HH HAr HC. pose proof (room_started s) as HR.
  assert (nth_error l 2 = None) as E2 by (apply short_none; lia).
  assert (nm = B "sum" \/ nm <> B "sum" /\ In nm [B "same"; B "contains"; B "replace"]) as [->|[HNS HI']].
  { cbn [In] in HI |- *. destruct HI as [<-|[<-|[<-|[<-|[]]]]]; [right|right|right|left; reflexivity]; (split; [|tauto]); intro H; apply (f_equal (@length ascii)) in H; discriminate. }
  - destruct (HX (or_intror eq_refl)) as [HG HU]. rewrite beq_refl in *.
    rewrite eval_bif_text by (assumption || plain).
    change (dispatch env ?r (B "sum")) with (bif_sum env r). unfold bif_sum, entry.
    rewrite bind_reject by (proj; allowed). rewrite bind_modB, bind_getB. proj. rewrite (contains_no _ _ HFl).
    erewrite bind_done by (eapply run_args; [apply room_started|reflexivity..|exact HAr]).
    unfold need_arg, arg. destruct (nth_error l 1); [rewrite bind_ret, E2|]; rewrite bind_err; apply result_fail; (exact HC1 || reflexivity).
  - assert (beq nm (B "sum") = false) as EN by (apply beq_neq; exact HNS). rewrite EN in *. cbn [In] in HI'.
    assert (nm = B "replace" \/ nm <> B "replace" /\ In nm compares) as [->|[_ HI2]].
    { destruct HI' as [<-|[<-|[<-|[]]]]; [right|right|left; reflexivity]; (split; [|cbn; tauto]); intro H; apply (f_equal (@length ascii)) in H; discriminate. }
    + destruct (HX (or_introl eq_refl)) as [HG HU]. rewrite eval_bif_text by (assumption || plain).
      change (dispatch env ?r (B "replace")) with (bif_replace r). unfold bif_replace, entry.
      rewrite bind_reject by (proj; allowed).
      erewrite bind_done by (eapply run_extract_raw; reflexivity).
      rewrite bind_getB. proj. rewrite (contains_no _ _ HFl).
      erewrite bind_done by (eapply run_args; [exact HR|reflexivity..|exact HAr]).
      unfold need_arg, arg. destruct (nth_error l 1); [rewrite bind_ret, E2|]; rewrite bind_err; apply result_fail; (exact HC1 || reflexivity).
    + destruct (compares_dispatch env (run_blocks env (enough_fuel s)) nm HI2) as [HN HD].
      rewrite eval_bif_text by assumption. rewrite HD. unfold bif_compare, entry.
      rewrite bind_reject by (proj; allowed).
      erewrite bind_done by (apply run_extract_raw; reflexivity).
      rewrite bind_getB. proj. rewrite (contains_no _ _ HFl).
      erewrite bind_done by (apply run_args; [exact HR|reflexivity|reflexivity|exact HAr]).
      unfold need_arg, arg. destruct (nth_error l 1); [rewrite bind_ret, E2|]; rewrite bind_err; apply result_fail; (exact HC1 || reflexivity).
Qed.
Print Assumptions C96_two_arguments.

Theorem C96_join : forall env s i mods body only a s1, Forall modifier mods ->
  ~ In "&"%char mods -> ~ In "!"%char mods -> ~ In "+"%char mods ->
  may_start s -> selected only i mods (B "join") -> has_data s -> can_report s ->
  arguments env (B "join") (started_in s i) only (arg_texts (trim body)) (started s) a s1 -> length a < 3 ->
  eval_bif env s i (bif_text mods (B "join") body) only =
  failed env (if length a <? 2 then B "arguments 'array' not found" else B "arguments 'separator' not found") (B "join") mods
    (bif_text mods (B "join") body) [] s1 (started_in s i).
Proof.
  intros env s i mods body only a s1 HM HA HG HU HS HO HH HC HAr HL.
  assert (can_report s1) as HC1 by args_report HH HAr HC. rewrite eval_bif_text by (assumption || plain).
  change (dispatch env ?r (B "join")) with (bif_join r). unfold bif_join, entry.
  rewrite bind_reject by (proj; allowed). rewrite bind_modB.
  erewrite bind_done by (apply run_args; [apply room_started|reflexivity|reflexivity|exact HAr]).
  unfold need_arg, arg. destruct (length a <? 2) eqn:E.
  - apply Nat.ltb_lt in E. rewrite (short_none a 1) by lia. rewrite bind_err. apply result_fail; (exact HC1 || reflexivity).
  - apply Nat.ltb_ge in E. destruct (nth_error a 1) eqn:E1; [|apply nth_error_None in E1; lia].
    rewrite bind_ret, (short_none a 2) by lia. rewrite bind_err. apply result_fail; (exact HC1 || reflexivity).
Qed.
Print Assumptions C96_join.

Theorem C96_cache : forall env s i mods body only a s1, Forall modifier mods ->
  ~ In "&"%char mods -> ~ In "!"%char mods -> ~ In "+"%char mods ->
  may_start s -> selected only i mods (B "cache") -> ~ occurs (B "{:flg;") (params_of body) -> ~ bypassed s ->
  has_data s -> can_report s ->
  arguments env (B "cache") (caching (started_in s i)) only (arg_texts (params_of body)) (started s) a s1 -> length a < 2 ->
  eval_bif env s i (bif_text mods (B "cache") body) only =
  failed env (B "arguments 'expires' not found") (B "cache") mods (bif_text mods (B "cache") body) [] s1 (started_in s i).
Proof.
  intros env s i mods body only a s1 HM HA HG HU HS HO HF HB HH HC HAr HL.
  assert (can_report s1) as HC1 by args_report HH HAr HC. rewrite eval_bif_text by (assumption || plain).
  change (dispatch ?e ?r (B "cache")) with (bif_cache e r); unfold bif_cache, entry.
  rewrite bind_reject by (proj; allowed).
  erewrite bind_done by (apply run_extract_raw; reflexivity).
  rewrite bind_getB, bind_getI, bind_getS; proj; rewrite (contains_no _ _ HF), (has_mod_false _ _ HG).
  assert (cache_bypass (started s) = false) as -> by
    (destruct (cache_bypass (started s)) eqn:EB; [apply bypass_iff in EB; contradiction|reflexivity]).
  rewrite bind_modI.
  erewrite bind_done by (apply run_args; [apply room_started|reflexivity|reflexivity|exact HAr]).
  rewrite bind_modI. unfold need_arg, arg at 1. rewrite short_none by lia. rewrite bind_err, caching_back. apply result_fail; (exact HC1 || reflexivity).
Qed.
Print Assumptions C96_cache.

Theorem C96_fetch : forall env s i mods body only p s1 a s2, Forall modifier mods ->
  ~ In "&"%char mods -> ~ In "!"%char mods -> ~ In "+"%char mods ->
  may_start s -> selected only i mods (B "fetch") -> has_data s -> can_report s ->
  prepared env (B "fetch") (started s) (started_in s i) only body p [] s1 ->
  arguments env (B "fetch") (started_in s i) only (arg_texts p) s1 a s2 -> length a < 2 ->
  eval_bif env s i (bif_text mods (B "fetch") body) only =
  failed env (B "arguments not found") (B "fetch") mods (bif_text mods (B "fetch") body) [] s2 (started_in s i).
Proof.
  intros env s i mods body only p s1 a s2 HM HA HG HU HS HO HH HC HP HAr HL.
  assert (can_report s2) as HC1.
  { eapply keeps_reports; [eapply (arguments_keeps _ _ _ _ _ s1); [eapply prepared_has_data; [exact HP|exact HH]|exact HAr]|].
    eapply prepared_reports; [| |exact HP]; [exact HH|exact HC]. }
  rewrite eval_bif_text by (assumption || plain).
  change (dispatch env ?r (B "fetch")) with (bif_fetch r). unfold bif_fetch, entry.
  rewrite bind_reject by (proj; allowed).
  erewrite bind_done by (eapply run_extract; [apply room_started|reflexivity..|exact HP]).
  rewrite bind_no_flags by reflexivity.
  assert (room (enough_fuel s) s1) as HR1 by (eapply room_later; [eapply prepared_later; exact HP|apply room_started]).
  erewrite bind_done by (eapply run_args; [exact HR1|reflexivity..|exact HAr]).
  unfold need_arg, arg at 1. rewrite short_none by lia. rewrite bind_err. apply result_fail; (exact HC1 || reflexivity).
Qed.
Print Assumptions C96_fetch.

(** each: three words; the key and the value may not be local; the code must be balanced *)
Definition each_fault (l : list bytes) (code msg : bytes) : Prop :=
  match l with
  | [] => msg = B "arguments not found"
  | [_] => msg = B "arguments 'key' not found"
  | [_; _] => msg = B "arguments 'value' not found"
  | _ :: kn :: vn :: _ =>
      (exists r, kn = B "local::" ++ r \/ vn = B "local::" ++ r) /\ msg = B "insecure varname" \/
      (forall r, kn <> B "local::" ++ r /\ vn <> B "local::" ++ r) /\
      exists n ns, extract_blocks code = Unmatched n /\ plain_decimal ns (N.of_nat n) /\ msg = B "Unmatched block at position " ++ ns
  end.
Theorem C96_each : forall env s i mods body only p s1 l msg, Forall modifier mods ->
  ~ In "&"%char mods -> ~ In "!"%char mods -> may_start s -> selected only i mods (B "each") -> has_data s -> can_report s ->
  prepared env (B "each") (started s) (started_in s i) only body p [] s1 ->
  words p l -> each_fault l (code_of body) msg ->
  eval_bif env s i (bif_text mods (B "each") body) only =
  failed env msg (B "each") mods (bif_text mods (B "each") body) [] s1 (started_in s i).
Proof.
  intros env s i mods body only p s1 l msg HM HA HG HS HO HH HC HP HW HF. apply words_iff in HW.
  assert (can_report s1) as HC1 by (eapply prepared_reports; [| |exact HP]; [exact HH|exact HC]).
  rewrite eval_bif_text by (assumption || plain).
  change (dispatch env ?r (B "each")) with (bif_each r). unfold bif_each, entry.
  rewrite bind_reject by (proj; allowed).
  erewrite bind_done by (eapply run_extract; [apply room_started|reflexivity..|exact HP]).
  rewrite bind_no_flags by reflexivity.
  rewrite bind_getB. proj. rewrite HW. unfold need_arg, arg.
  destruct l as [|an [|kn [|vn l]]]; cbn [nth_error]; rewrite ?bind_ret; cbn [each_fault] in HF;
    [subst; rewrite bind_err; apply result_fail; (exact HC1 || reflexivity)..|].
  destruct HF as [[HF ->]|[HF (n & ns & E & HN & ->)]].
  - assert (starts_with LOCAL kn || starts_with LOCAL vn = true) as ->.
    { apply orb_true_iff. destruct HF as [r [HF|HF]]; [left|right]; apply starts_with_iff; exists r; exact HF. }
    apply result_fail; (exact HC1 || reflexivity).
  - assert (starts_with LOCAL kn || starts_with LOCAL vn = false) as ->.
    { apply orb_false_iff; split; match goal with |- ?x = false => destruct x eqn:ES end; try reflexivity; exfalso;
        apply starts_with_iff in ES as [r ES]; destruct (HF r) as [H1 H2]; [exact (H1 ES)|exact (H2 ES)]. }
    rewrite bind_getS, bind_getI. proj. rewrite E.
    rewrite (plain_decimal_det _ _ _ HN (dec_N_plain _)). apply result_fail; (exact HC1 || reflexivity).
Qed.
Print Assumptions C96_each.

(** for: a variable and two numbers ("from..to" or "from to"); the code must be balanced *)
Definition for_fault (l : list bytes) (code msg : bytes) : Prop :=
  match l with
  | [] => msg = B "arguments not found"
  | [_] => msg = B "arguments 'from' and 'to' not found"
  | _ :: x :: r =>
      (forall z, ~ int32 x z) /\ msg = B "argument is not a number" \/
      (exists z, int32 x z) /\
      match r with
      | [] => msg = B "arguments 'to' not found"
      | y :: _ =>
          (forall z, ~ int32 y z) /\ msg = B "argument is not a number" \/
          (exists z, int32 y z) /\
          exists n ns, extract_blocks code = Unmatched n /\ plain_decimal ns (N.of_nat n) /\ msg = B "Unmatched block at position " ++ ns
      end
  end.
Theorem C96_for : forall env s i mods body only p s1 l msg, Forall modifier mods ->
  ~ In "&"%char mods -> ~ In "!"%char mods -> may_start s -> selected only i mods (B "for") -> has_data s -> can_report s ->
  prepared env (B "for") (started s) (started_in s i) only body p [] s1 ->
  range_words p l -> for_fault l (code_of body) msg ->
  eval_bif env s i (bif_text mods (B "for") body) only =
  failed env msg (B "for") mods (bif_text mods (B "for") body) [] s1 (started_in s i).
Proof.
  intros env s i mods body only p s1 l msg HM HA HG HS HO HH HC HP HW HF. apply range_words_iff in HW.
  assert (can_report s1) as HC1 by (eapply prepared_reports; [| |exact HP]; [exact HH|exact HC]).
  rewrite eval_bif_text by (assumption || plain).
  change (dispatch env ?r (B "for")) with (bif_for r). unfold bif_for, entry.
  rewrite bind_reject by (proj; allowed).
  erewrite bind_done by (eapply run_extract; [apply room_started|reflexivity..|exact HP]).
  rewrite bind_no_flags by reflexivity. rewrite bind_modB.
  rewrite bind_getB. proj. rewrite HW. unfold need_arg, arg, need_i32.
  destruct l as [|v [|x l]]; cbn [nth_error]; rewrite ?bind_ret; cbn [for_fault] in HF;
    [subst; rewrite bind_err; apply result_fail; (exact HC1 || reflexivity)..|].
  destruct HF as [[HF ->]|[[a HX] HF]]; [rewrite (proj2 (i32_none _) HF), bind_err; apply result_fail; (exact HC1 || reflexivity)|].
  apply i32_iff in HX. rewrite HX, bind_ret. destruct l as [|y l]; cbn [nth_error]; [subst; rewrite bind_err; apply result_fail; (exact HC1 || reflexivity)|].
  destruct HF as [[HF ->]|[[b HY] (n & ns & E & HN & ->)]]; [rewrite (proj2 (i32_none _) HF), bind_err; apply result_fail; (exact HC1 || reflexivity)|].
  apply i32_iff in HY. rewrite HY, bind_ret, E. rewrite (plain_decimal_det _ _ _ HN (dec_N_plain _)). apply result_fail; (exact HC1 || reflexivity).
Qed.
Print Assumptions C96_for.

(** rand: two numbers *)
Definition rand_fault (l : list bytes) (msg : bytes) : Prop :=
  match l with
  | [] => msg = B "arguments not found"
  | x :: r =>
      (forall z, ~ int32 x z) /\ msg = B "argument is not a number" \/
      (exists z, int32 x z) /\
      match r with
      | [] => msg = B "arguments not found"
      | y :: _ => (forall z, ~ int32 y z) /\ msg = B "argument is not a number"
      end
  end.
Theorem C96_rand : forall env s i mods body only c s1 i1 l msg, Forall modifier mods ->
  ~ In "&"%char mods -> ~ In "!"%char mods -> ~ In "+"%char mods ->
  may_start s -> selected only i mods (B "rand") -> has_data s -> can_report s ->
  eval_text env (B "rand") (started s) (started_in s i) (trim body) only = BOk c s1 i1 -> c <> [] ->
  range_words c l -> rand_fault l msg ->
  eval_bif env s i (bif_text mods (B "rand") body) only =
  failed env msg (B "rand") mods (bif_text mods (B "rand") body) [] s1 i1.
Proof.
  intros env s i mods body only c s1 i1 l msg HM HA HG HU HS HO HH HCan HE HC HW HF. apply range_words_iff in HW.
  destruct (rand_text env s i mods body only c s1 i1 (b <- getB ;; modB (bset_code (replace (B "..") (B " ") b.(code))) ;;; err msg) HM HA HG HU HS HO HE)
    as (bb & Hu & Hc & Ha & Hr & Ho & E).
  { intros bb _ Hc _ _ _. rewrite bind_getB, Hc. assert (is_empty c = false) as -> by (destruct c; [congruence|reflexivity]).
    rewrite bind_modB, bind_getB. cbn [code bset_code]. rewrite Hc, HW. rewrite bind_getB, Hc, bind_modB. unfold need_i32.
    destruct l as [|x l]; cbn [nth_error rand_fault] in *; [subst; reflexivity|].
    destruct HF as [[HF ->]|[[a HX] HF]]; [rewrite (proj2 (i32_none _) HF), bind_err; reflexivity|].
    apply i32_iff in HX. rewrite HX, bind_ret. destruct l as [|y l]; cbn [nth_error] in *; [subst; reflexivity|].
    destruct HF as [HF ->]. rewrite (proj2 (i32_none _) HF), bind_err. reflexivity. }
  rewrite E. rewrite bind_getB, bind_modB. unfold err. cbn [bf inh sh]. proj. rewrite Ha, Hr.
  apply result_fail; [|exact Hu|exact Ho].
  unfold eval_text in HE. destruct (contains (B "{:") (trim body)).
  - eapply keeps_reports; [eapply nested_keeps; [|exact HE]; exact HH|exact HCan].
  - assert (s1 = started s) as -> by congruence. exact HCan.
Qed.
Print Assumptions C96_rand.

Definition errors_in (src : string) : json := match render env1 5 (sample src) with TOk _ t => get_error t | _ => JNull end.
Definition first_error (src : string) : bytes := match errors_in src with JArr [JStr l] => l | _ => [] end.
Example C96_example :
  first_error "{:same; /a >> x :}" = B "[now] Error (same) arguments not found file~: () src: {:same; /a >> x :}" /\
  first_error "{:join; :}" = B "[now] Error (join) arguments 'array' not found file~: () src: {:join; :}" /\
  first_error "{:each; rows k >> x :}" = B "[now] Error (each) arguments 'value' not found file~: () src: {:each; rows k >> x :}" /\
  first_error "{:for; n 1..x >> x :}" = B "[now] Error (for) argument is not a number file~: () src: {:for; n 1..x >> x :}" /\
  first_error "{:rand; 7 :}" = B "[now] Error (rand) arguments not found file~: () src: {:rand; 7 :}" /\
  has_data (fst (start_of "")) /\ can_report (fst (start_of "")).
Proof.
  do 5 (split; [vm_compute; reflexivity|]). split; [split; eexists; vm_compute; reflexivity|exists true; vm_compute; reflexivity].
Qed.

(** ** C97: unknown bifs, flags, error lines *)

(** [t] is [s] with every line break replaced by a space *)
Definition on_one_line (s t : bytes) : Prop :=
  Forall2 (fun a b => (a = ascii_of_N 10 \/ a = ascii_of_N 13) /\ b = " "%char \/ a <> ascii_of_N 10 /\ a <> ascii_of_N 13 /\ b = a) s t.
Lemma one_line_is s : on_one_line s (one_line s).
Proof.
  unfold on_one_line, one_line. induction s as [|a s IH]; cbn [map]; constructor; [|exact IH].
  assert (forall n, (n < 256)%N -> (a = ascii_of_N n <-> N_of_ascii a = n)) as X.
  { intros n Hn. split; [intros ->; apply N_ascii_embedding; exact Hn|intros <-; symmetry; apply ascii_N_embedding]. }
  destruct (N.eqb_spec (N_of_ascii a) 10) as [E|E]; [left; split; [left; apply X; [lia|exact E]|reflexivity]|].
  destruct (N.eqb_spec (N_of_ascii a) 13) as [E2|E2]; [left; split; [right; apply X; [lia|exact E2]|reflexivity]|].
  right. split; [intro H; apply X in H; [exact (E H)|lia]|]. split; [intro H; apply X in H; [exact (E2 H)|lia]|reflexivity].
Qed.

(** A failed bif: one line is recorded, with the time, the bif, the message, the file and the source; the rest of the
    state is the one in which the bif has failed. *)
Theorem C97_report : forall env msg al mods text o s i l, errors_are s.(schema) l ->
  let now := env.(e_local_now) s.(strace) in
  exists line o' s' i', failed env msg al mods text o s i = BOk o' s' i' /\
    errors_are s'.(schema) (l ++ [line]) /\
    on_one_line (B "[" ++ now ++ B "] Error (" ++ al ++ B ") " ++ msg ++ B " file~: (" ++ i.(current_file) ++ B ") src: " ++ text) line /\
    s'.(has_error) = true /\ s'.(strace) = EvLocalNow now :: s.(strace) /\
    (forall k, k <> B "__error" -> vget k s'.(schema) = vget k s.(schema)) /\
    s'.(indir_store) = s.(indir_store) /\ s'.(status_code) = s.(status_code) /\ s'.(status_text) = s.(status_text) /\
    s'.(status_param) = s.(status_param) /\ s'.(exit) = s.(exit) /\ s'.(redirect_js) = s.(redirect_js).
Proof.
  intros env msg al mods text o s i l HL now. unfold failed, finished, with_error. do 4 eexists. split; [reflexivity|].
  split; [apply push_error_list; exact HL|]. split; [apply one_line_is|]. split; [reflexivity|]. split; [reflexivity|].
  split; [|repeat split; reflexivity].
  intros k Hk. unfold push_error. cbn [schema set_has_error set_schema add_event]. apply modify_at_other. exact Hk.
Qed.
Print Assumptions C97_report.

(** A bif without ";" : one line is recorded and nothing is written. *)
Theorem C97_no_delimiter : forall env s i body l, ~ occurs (B ";") body -> may_start s -> can_report s -> errors_are s.(schema) l ->
  exists line s' i', eval_bif env s i (B "{:" ++ body ++ B ":}") [] = BOk [] s' i' /\
    errors_are s'.(schema) (l ++ [line]) /\ on_one_line (B "The delimiter was not found: {:" ++ body ++ B ":}") line /\
    s'.(has_error) = true /\ s'.(strace) = s.(strace) /\ i'.(last_bif_out) = i.(last_bif_out) /\
    (forall k, k <> B "__error" -> vget k s'.(schema) = vget k s.(schema)) /\
    s'.(indir_store) = s.(indir_store) /\ s'.(status_code) = s.(status_code) /\ s'.(exit) = s.(exit).
Proof.
  intros env s i body l HO HS HC HL. unfold eval_bif, bif_run. unfold may_start in HS.
  assert ((bisf_max (cfg s) <? bisf_count s + 1)%N = false) as -> by (apply N.ltb_ge; exact HS).
  unfold bif_parse, strip_prefix_suffix.
  assert (strip_prefix BIF_OPEN (B "{:" ++ body ++ B ":}") = Some (body ++ B ":}")) as -> by (apply strip_prefix_some; reflexivity).
  assert (strip_suffix BIF_CLOSE (body ++ B ":}") = Some body) as -> by (apply strip_suffix_some; reflexivity).
  unfold split_once. destruct (find (B ";") body) as [n|] eqn:E.
  { exfalso. apply HO. apply find_some in E as [E _]. eapply occurs_at_occurs. exact E. }
  cbn [is_empty negb]. assert (show_error (set_bisf_count (bisf_count s + 1) s) <> None) as HX by (apply show_can; exact HC).
  destruct (show_error _); [|congruence]. do 3 eexists. split; [reflexivity|].
  split; [apply push_error_list; exact HL|]. split; [apply one_line_is|]. split; [reflexivity|]. split; [reflexivity|]. split; [reflexivity|].
  split; [|repeat split; reflexivity].
  intros k Hk. unfold push_error. cbn [schema set_has_error set_schema]. apply modify_at_other. exact Hk.
Qed.
Print Assumptions C97_no_delimiter.

(** A name that is none of the bifs *)
Theorem C97_unknown : forall env s i mods nm body only, ~ In nm (map fst refused) -> Forall modifier mods -> plain_name nm ->
  may_start s -> selected only i mods nm -> can_report s ->
  eval_bif env s i (bif_text mods nm body) only =
  failed env (B "unknown bif") (B "unknown") mods (bif_text mods nm body) [] (started s) (started_in s i).
Proof.
  intros env s i mods nm body only HN HM HP HS HO HC. rewrite eval_bif_text by assumption.
  rewrite C54_table_is_complete by exact HN. unfold bif_unknown, entry. rewrite bind_modB.
  apply result_fail; [exact HC|reflexivity|reflexivity].
Qed.
Print Assumptions C97_unknown.

(** the bif takes all these modifiers (C54) *)
Definition takes (nm mods : bytes) : Prop := forall no c, In (nm, no) refused -> In c no -> ~ In c mods.
Lemma takes_no nm no mods c : takes nm mods -> In (nm, no) refused -> In c no -> has_mod c mods = false.
Proof. intros H H1 H2. apply has_mod_false. exact (H no c H1 H2). Qed.
Definition in_table (nm no : bytes) : bool := existsb (fun e => beq (fst e) nm && beq (snd e) no) refused.
Lemma takes_none nm no mods : takes nm mods -> in_table nm no = true -> forall c, existsb (aeqb c) no = true -> has_mod c mods = false.
Proof.
  intros H H1 c H2. apply existsb_exists in H1 as ([a b] & H1 & E). apply andb_prop in E as [E1 E2]. cbn [fst snd] in E1, E2. apply beq_eq in E1, E2. subst.
  apply existsb_exists in H2 as (x & H2 & E). apply aeqb_eq in E. subst. exact (takes_no _ _ _ _ H H1 H2).
Qed.
Ltac taken HX no := proj; rewrite ?(takes_none _ no _ HX (eq_refl true)) by reflexivity; reflexivity.

(** Bifs that have no flags. *)
Definition flagless : list bytes :=
  [B "array"; B "bool"; B "defined"; B "filled"; B "declare"; B "each"; B "else"; B "fetch"; B "flg"; B "for"; B "date"; B "param";
   B "exit"; B "moveto"; B "redirect"].
(** these write themselves again when they are part of a cached text *)
Definition echoed : list bytes := [B "exit"; B "moveto"; B "redirect"].
Theorem C97_no_flags : forall env s i mods nm body only p fl s1, In nm flagless -> takes nm mods -> Forall modifier mods -> may_start s -> selected only i mods nm -> has_data s -> can_report s ->
  prepared env nm (started s) (started_in s i) only body p fl s1 -> fl <> [] ->
  eval_bif env s i (bif_text mods nm body) only =
  failed env (B "flags not allowed") nm mods (bif_text mods nm body)
    (if existsb (beq nm) echoed then echo i (bif_text mods nm body) else []) s1 (started_in s i).
Proof.
  intros env s i mods nm body only p fl s1 HF HX HM HS HO HH HC HP HN.
  assert (can_report s1) as HC1 by (eapply prepared_reports; [| |exact HP]; [exact HH|exact HC]).
  assert (plain_name nm) as HPl.
  { assert (Forall plain_name flagless) as HFo by (repeat (constructor; [plain|]); constructor).
    rewrite Forall_forall in HFo. exact (HFo _ HF). }
  rewrite eval_bif_text by assumption. pose proof (room_started s) as HR.
  assert (exists t, t (bif_of mods nm body only) = false /\
    ((exists h, dispatch env (run_blocks env (enough_fuel s)) nm =
       (reject t ;;; x <- extract_params_code (run_blocks env (enough_fuel s)) true ;; no_flags ;;; h x)) /\ existsb (beq nm) echoed = false \/
     (exists h, dispatch env (run_blocks env (enough_fuel s)) nm =
       (reject t ;;; echo_in_cache ;;; x <- extract_params_code (run_blocks env (enough_fuel s)) true ;; no_flags ;;; h x)) /\ existsb (beq nm) echoed = true))
    as (t & ET & [[(h & ->) ->]|[(h & ->) ->]]).
  2:{ unfold entry. rewrite bind_reject by exact ET.
    erewrite bind_done by (eapply run_extract; [exact HR|reflexivity..|exact HP]).
    rewrite bind_flags by exact HN. apply result_fail; [exact HC1|reflexivity|reflexivity]. }
  2:{ unfold entry. rewrite bind_reject by exact ET. rewrite bind_echo.
    erewrite bind_done by (eapply run_extract; [exact HR|reflexivity..|exact HP]).
    rewrite bind_flags by exact HN. apply result_fail; [exact HC1|reflexivity|reflexivity]. }
  cbn [flagless In] in HF.
  repeat (destruct HF as [<-|HF];
    [eexists; split; [|first [left; split; [eexists; reflexivity|reflexivity]|right; split; [eexists; reflexivity|reflexivity]]];
     first [taken HX (B "&")|taken HX (B "&+")|taken HX (B "&!")|taken HX (B "&!+")|taken HX (B "&!^+")]|]).
  destruct HF.
Qed.
Print Assumptions C97_no_flags.

(** Bifs whose parameters are not evaluated as a whole: a flag in them is refused before anything is evaluated. *)
Theorem C97_raw_flags : forall env s i mods nm body only,
  In nm [B "same"; B "contains"; B "eval"; B "cache"; B "replace"; B "sum"] -> takes nm mods ->
  Forall modifier mods -> may_start s -> selected only i mods nm -> can_report s ->
  occurs (B "{:flg;") (if beq nm (B "sum") then trim body else params_of body) ->
  eval_bif env s i (bif_text mods nm body) only =
  failed env (B "flags not allowed") nm mods (bif_text mods nm body) [] (started s) (started_in s i).
Proof.
  intros env s i mods nm body only HI HX HM HS HO HC HF. apply contains_iff in HF.
  assert (can_report (started s)) as HC1 by exact HC.
  destruct HI as [<-|[<-|[<-|[<-|[<-|[<-|[]]]]]]]; rewrite eval_bif_text by (assumption || plain); unfold entry;
    (match type of HF with context [if ?c then _ else _] => let v := eval vm_compute in c in change c with v in HF end; cbn iota in HF).
  - change (dispatch env ?r (B "same")) with (bif_compare r beq). unfold bif_compare. rewrite bind_reject by (taken HX (B "&")).
    erewrite bind_done by (apply run_extract_raw; reflexivity). rewrite bind_getB. proj. rewrite HF. apply result_fail; [exact HC1|reflexivity|reflexivity].
  - change (dispatch env ?r (B "contains")) with (bif_compare r (fun hay needle => contains needle hay)). unfold bif_compare. rewrite bind_reject by (taken HX (B "&")).
    erewrite bind_done by (apply run_extract_raw; reflexivity). rewrite bind_getB. proj. rewrite HF. apply result_fail; [exact HC1|reflexivity|reflexivity].
  - change (dispatch env ?r (B "eval")) with (bif_eval r). unfold bif_eval. rewrite bind_reject by (taken HX (B "&")).
    erewrite bind_done by (apply run_extract_raw; reflexivity). rewrite bind_getB. proj. rewrite HF. apply result_fail; [exact HC1|reflexivity|reflexivity].
  - change (dispatch env ?r (B "cache")) with (bif_cache env r). unfold bif_cache. rewrite bind_reject by (taken HX (B "&+")).
    erewrite bind_done by (apply run_extract_raw; reflexivity). rewrite bind_getB, bind_getI, bind_getS. proj. rewrite HF. apply result_fail; [exact HC1|reflexivity|reflexivity].
  - change (dispatch env ?r (B "replace")) with (bif_replace r). unfold bif_replace. rewrite bind_reject by (taken HX (B "&!+")).
    erewrite bind_done by (apply run_extract_raw; reflexivity). rewrite bind_getB. proj. rewrite HF. apply result_fail; [exact HC1|reflexivity|reflexivity].
  - change (dispatch env ?r (B "sum")) with (bif_sum env r). unfold bif_sum. rewrite bind_reject by (taken HX (B "&!+")).
    rewrite bind_modB, bind_getB. proj. rewrite HF. apply result_fail; [exact HC1|reflexivity|reflexivity].
Qed.
Print Assumptions C97_raw_flags.

(** Bifs with flags: the first flag that is not one of theirs is reported. *)
Definition wrong_flag (ok : list bytes) (fl f : bytes) : Prop :=
  exists l r, pieces (B "|") fl (l ++ f :: r) /\ f <> [] /\ ~ In f ok /\ Forall (fun g => g = [] \/ In g ok) l.
Lemma find_wrong ok fl f : wrong_flag ok fl f -> bad_flag ok fl = Some f.
Proof.
  intros (l & r & HP & HN & HO & HF). apply pieces_iff in HP; [|discriminate]. unfold bad_flag. rewrite HP. clear HP.
  induction HF as [|g l Hg HF IH]; cbn [app List.find].
  - assert (is_empty f = false) as -> by (destruct f; [congruence|reflexivity]).
    assert (existsb (beq f) ok = false) as ->; [|reflexivity].
    destruct (existsb (beq f) ok) eqn:E; [|reflexivity]. apply existsb_exists in E as (x & Hx & E). apply beq_eq in E. subst. contradiction.
  - assert (negb (is_empty g) && negb (existsb (beq g) ok) = false) as ->.
    { destruct Hg as [->|Hg]; [reflexivity|]. assert (existsb (beq g) ok = true) as -> by (apply existsb_exists; exists g; split; [exact Hg|apply beq_refl]).
      apply andb_false_r. }
    exact IH.
Qed.

Lemma bind_wrong_flag {C} ok f (k : unit -> M C) s i b : wrong_flag ok (bflags b) f ->
  bind (check_flags ok) k (mkSt s i b) = Fail (mkErr (f ++ B " flag not allowed") i.(current_file) b.(alias) b.(raw)) (mkSt s i b).
Proof. intro H. unfold check_flags. rewrite bind_bind, bind_getB, (find_wrong _ _ _ H), bind_err. reflexivity. Qed.

Theorem C97_wrong_flag : forall env s i mods nm ok body only p fl s1 f,
  In (nm, ok) [(B "code", [B "safe"; B "encode_tags"; B "encode_bifs"; B "noparse"; B "encode_tags_after"]);
               (B "include", [B "require"; B "safe"; B "noparse"]); (B "snippet", [B "static"]); (B "snip", [B "static"]);
               (B "allow", [B "partial"; B "replace"; B "casein"])] ->
  takes nm mods -> Forall modifier mods -> may_start s -> selected only i mods nm -> has_data s -> can_report s ->
  let al := if beq nm (B "snip") then B "snippet" else nm in
  prepared env al (started s) (started_in s i) only body p fl s1 -> wrong_flag ok fl f ->
  (nm = B "allow" -> declared s1 (started_in s i) p <> []) ->
  eval_bif env s i (bif_text mods nm body) only =
  failed env (f ++ B " flag not allowed") al mods (bif_text mods nm body) [] s1 (started_in s i).
Proof.
  intros env s i mods nm ok body only p fl s1 f HI HX HM HS HO HH HC al HP HW HD.
  assert (can_report s1) as HC1 by (eapply prepared_reports; [| |exact HP]; [exact HH|exact HC]).
  pose proof (room_started s) as HR. subst al.
  destruct HI as [HI|[HI|[HI|[HI|[HI|[]]]]]]; apply (f_equal fst) in HI as HI1; apply (f_equal snd) in HI as HI2; cbn [fst snd] in HI1, HI2; subst nm ok;
   rewrite eval_bif_text by (assumption || plain); unfold entry.
  - change (if beq (B "code") (B "snip") then B "snippet" else B "code") with (B "code") in *.
    change (dispatch env ?r (B "code")) with (bif_code r). unfold bif_code. rewrite bind_reject by (taken HX (B "&!")).
    erewrite bind_done by (eapply run_extract; [exact HR|reflexivity..|exact HP]). rewrite (bind_wrong_flag _ f) by exact HW.
    apply result_fail; [exact HC1|reflexivity|reflexivity].
  - change (if beq (B "include") (B "snip") then B "snippet" else B "include") with (B "include") in *.
    change (dispatch env ?r (B "include")) with (bif_include env r). unfold bif_include. rewrite bind_reject by (taken HX (B "&+")).
    erewrite bind_done by (eapply run_extract; [exact HR|reflexivity..|exact HP]). rewrite (bind_wrong_flag _ f) by exact HW.
    apply result_fail; [exact HC1|reflexivity|reflexivity].
  - change (if beq (B "snippet") (B "snip") then B "snippet" else B "snippet") with (B "snippet") in *.
    change (dispatch env ?r (B "snippet")) with (bif_snippet r). unfold bif_snippet. rewrite bind_reject by (taken HX (B "&!+")). rewrite bind_modB.
    erewrite bind_done by (eapply run_extract; [exact HR|reflexivity..|exact HP]). rewrite (bind_wrong_flag _ f) by exact HW.
    apply result_fail; [exact HC1|reflexivity|reflexivity].
  - change (if beq (B "snip") (B "snip") then B "snippet" else B "snip") with (B "snippet") in *.
    change (dispatch env ?r (B "snip")) with (bif_snippet r). unfold bif_snippet. rewrite bind_reject by (taken HX (B "&!+")). rewrite bind_modB.
    erewrite bind_done by (eapply run_extract; [exact HR|reflexivity..|exact HP]). rewrite (bind_wrong_flag _ f) by exact HW.
    apply result_fail; [exact HC1|reflexivity|reflexivity].
  - change (if beq (B "allow") (B "snip") then B "snippet" else B "allow") with (B "allow") in *. specialize (HD eq_refl).
    change (dispatch env ?r (B "allow")) with (bif_allow env r). unfold bif_allow. rewrite bind_reject by (taken HX (B "&+")).
    erewrite bind_done by (eapply run_extract; [exact HR|reflexivity..|exact HP]). rewrite bind_getB, bind_getS, bind_getI. proj.
    change (get_from_key (idx (get_indir s1 (indir (started_in s i))) (B "declare")) p) with (declared s1 (started_in s i) p).
    destruct (declared s1 (started_in s i) p) as [|a r]; [congruence|]. cbn [is_empty].
    rewrite (bind_wrong_flag _ f) by exact HW. apply result_fail; [exact HC1|reflexivity|reflexivity].
Qed.
Print Assumptions C97_wrong_flag.

(** locale has three flags; others are refused unless one of these is given as well *)
Theorem C97_locale_flags : forall env s i mods body only p fl s1, takes (B "locale") mods -> Forall modifier mods ->
  may_start s -> selected only i mods (B "locale") -> has_data s -> can_report s ->
  prepared env (B "locale") (started s) (started_in s i) only body p fl s1 -> fl <> [] ->
  (forall f, In f [B "require"; B "inline"; B "noparse"] -> flagged f fl = false) ->
  eval_bif env s i (bif_text mods (B "locale") body) only =
  failed env (B "flags not allowed") (B "locale") mods (bif_text mods (B "locale") body) [] s1 (started_in s i).
Proof.
  intros env s i mods body only p fl s1 HX HM HS HO HH HC HP HN HF.
  assert (can_report s1) as HC1 by (eapply prepared_reports; [| |exact HP]; [exact HH|exact HC]).
  rewrite eval_bif_text by (assumption || plain). unfold entry. change (dispatch env ?r (B "locale")) with (bif_locale env r).
  unfold bif_locale. rewrite bind_reject by (taken HX (B "&+")).
  erewrite bind_done by (eapply run_extract; [apply room_started|reflexivity..|exact HP]). rewrite bind_getB. proj.
  assert (is_empty fl = false) as -> by (destruct fl; [congruence|reflexivity]).
  pose proof (HF (B "require") ltac:(cbn [In]; tauto)) as E1. pose proof (HF (B "inline") ltac:(cbn [In]; tauto)) as E2.
  pose proof (HF (B "noparse") ltac:(cbn [In]; tauto)) as E3.
  change (contains (B "|require|") fl = false) in E1. change (contains (B "|inline|") fl = false) in E2. change (contains (B "|noparse|") fl = false) in E3.
  unfold has_flag. proj. rewrite E1, E2, E3. cbn [negb andb]. apply result_fail; [exact HC1|reflexivity|reflexivity].
Qed.
Print Assumptions C97_locale_flags.

Example C97_example :
  first_error "{:nosuch; x :}" = B "[now] Error (unknown) unknown bif file~: () src: {:nosuch; x :}" /\
  first_error "{:nosuch:}" = B "The delimiter was not found: {:nosuch:}" /\
  first_error "{:bool; {:flg; x :} name >> y :}" = B "[now] Error (bool) flags not allowed file~: () src: {:bool; {:flg; x :} name >> y :}" /\
  first_error "{:code; {:flg; safe wrong :} >> y :}" = B "[now] Error (code) wrong flag not allowed file~: () src: {:code; {:flg; safe wrong :} >> y :}" /\
  wrong_flag [B "safe"] (B "|safe|wrong|") (B "wrong") /\ takes (B "code") (B "^+") /\ ~ takes (B "code") (B "!").
Proof.
  do 4 (split; [vm_compute; reflexivity|]). split; [|split].
  - exists [[]; B "safe"], [[]]. split; [apply pieces_iff; [discriminate|vm_compute; reflexivity]|]. split; [discriminate|].
    split; [intros [H|[]]; discriminate H|]. constructor; [left; reflexivity|]. constructor; [right; left; reflexivity|constructor].
  - intros no c HT Hc HI.
    repeat (destruct HT as [HT|HT];
      [apply (f_equal fst) in HT as HT1; cbn [fst] in HT1; first [exfalso; vm_compute in HT1; discriminate HT1
           |apply (f_equal snd) in HT as HT2; cbn [snd] in HT2; subst no]|]); [|destruct HT].
    destruct Hc as [<-|[<-|[]]]; (destruct HI as [HI|[HI|[]]]; discriminate HI).
  - intro H. apply (H (B "&!") "!"%char); [vm_compute; tauto|right; left; reflexivity|left; reflexivity].
Qed.
