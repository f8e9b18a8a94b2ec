(** * Property theorems: cache *)

From Verif Require Import TraceProofs Bytes Json Utils ConstantsGen State Engine Template Spec SpecEngine BytesFacts EscapeProofs TextProofs
  BlockProofs TemplateProofs InertProofs FrameProofs FrameRun EngineFrames MoreFrames EvalProofs KeepProofs HandlerProofs Samples
  PropertiesVars.

(** ** Steps *)
Lemma empty_key_idx j k : contains BIF_ARRAY k = false -> contains [c_slash] k = false ->
  is_empty_key j k = false <-> ~ empty_value (idx j k).
Proof.
  intros H1 H2. unfold is_empty_key, resolve_pointer, idx. rewrite H1, H2. cbn [negb andb]. unfold empty_value.
  destruct (vget k j) as [[|b|n|[|c s]|[|x l]|[|x m]]|]; cbn [is_empty]; split; intro H; try reflexivity; try discriminate H;
    try (exfalso; apply H; tauto); intuition discriminate.
Qed.
Lemma request_iff s k : In k [B "POST"; B "GET"; B "COOKIES"] ->
  is_empty_key (idx (data_of s) (B "CONTEXT")) k = false <-> has_request s k.
Proof. intro H. apply empty_key_idx; repeat destruct H as [<-|H]; try destruct H; reflexivity. Qed.
Lemma bypass_iff s : cache_bypass s = true <-> bypassed s.
Proof.
  unfold cache_bypass, bypassed. rewrite !orb_true_iff, !andb_true_iff, !negb_true_iff.
  rewrite !request_iff by (cbn; tauto). tauto.
Qed.
Lemma request_part env s0 s k t : In k [B "POST"; B "GET"; B "COOKIES"] -> request_text env s0 s k t ->
  (if is_empty_key (idx (data_of s0) (B "CONTEXT")) k then [] else e_to_string env (idx (idx (data_of s) (B "CONTEXT")) k)) = t.
Proof.
  intros HI [H|H].
  - destruct (is_empty_key _ k) eqn:E; [reflexivity|]. apply (request_iff s0 k HI) in E. contradiction.
  - apply (request_iff s0 k HI) in H. rewrite H. reflexivity.
Qed.
Definition only_custom (a : list bytes) : bool :=
  match arg a 3 with Some v => negb (beq v (B "false") || beq v (B "0") || is_empty v) | None => false end.
Lemma only_iff a : only_custom a = true <-> only_id a.
Proof.
  unfold only_custom, arg, only_id. destruct (nth_error a 3) as [v|].
  - rewrite negb_true_iff, !orb_false_iff. split.
    + intros [[H1 H2] H3]. exists v. split; [reflexivity|]. split; [intros ->; discriminate H3|].
      split; intros ->; rewrite beq_refl in *; discriminate.
    + intros (v' & E & H1 & H2 & H3). assert (v' = v) as -> by congruence.
      split; [split|]; [| |destruct v; [congruence|reflexivity]].
      * destruct (beq v (B "false")) eqn:EB; [apply beq_eq in EB; congruence|reflexivity].
      * destruct (beq v (B "0")) eqn:EB; [apply beq_eq in EB; congruence|reflexivity].
  - split; [discriminate|]. intros (v & E & _). discriminate E.
Qed.
Lemma nth_arg a k : arg_or_empty a k = nth k a [].
Proof.
  unfold arg_or_empty. revert k. induction a as [|x a IH]; intros [|k]; cbn; try reflexivity. apply IH.
Qed.
Lemma key_is env s0 s i a expires code key : cache_key_of env s0 s i a expires code key ->
  cache_key env s0 s i (arg_or_empty a 2) expires code (only_custom a) = key.
Proof.
  intros [H|l H [post get cookies H1 H2 H3]].
  - apply only_iff in H. rewrite H, nth_arg. reflexivity.
  - destruct (only_custom a) eqn:E; [apply only_iff in E; contradiction|]. unfold cache_key.
    rewrite (request_part env s0 s (B "POST") post), (request_part env s0 s (B "GET") get), (request_part env s0 s (B "COOKIES") cookies)
      by (assumption || cbn; tauto).
    rewrite nth_arg, !get_data_text. cbn [concat]. rewrite app_nil_r. reflexivity.
Qed.
Lemma dir_is env s key : 3 <= length (e_sha256 env key) -> cache_dir_of s (e_sha256 env key) = Some (entry_dir env s key).
Proof.
  intro H. unfold cache_dir_of, entry_dir. destruct (length (e_sha256 env key) <? 3) eqn:E; [apply Nat.ltb_lt in E; lia|].
  destruct (cache_prefix (cfg s)); reflexivity.
Qed.
Lemma caching_back s i : iset_in_cache (in_cache (started_in s i)) (iset_in_cache true (started_in s i)) = started_in s i.
Proof. destruct i; reflexivity. Qed.
Lemma run_cached env n s i b restore : room n s -> file_path b = [] -> dir b = [] ->
  child_in_cache (run_blocks env n) (code b) false restore (mkSt s i b) =
  onto b (and_then (eval_nested env (alias b) s (caching i) (code b) (only b)) (fun o s' i' => BOk o s' (iset_in_cache restore i')))
     (fun o => o) (fun _ b => b).
Proof.
  intros HR HF HD. unfold child_in_cache. rewrite bind_modI. unfold bind at 1. rewrite child_nested by assumption.
  change (iset_in_cache true i) with (caching i).
  destruct (eval_nested _ _ _ _ _ _); reflexivity.
Qed.

(** ** C50: caching disabled, or excluded for the request *)
(** The code is evaluated as in any other bif; neither a cache file nor the clock is consulted. *)
Theorem C50_bypass : forall env s i mods body only, Forall modifier mods ->
  ~ In "&"%char mods -> ~ In "!"%char mods -> ~ In "+"%char mods ->
  may_start s -> selected only i mods (B "cache") -> ~ occurs (B "{:flg;") (params_of body) -> bypassed s ->
  eval_bif env s i (bif_text mods (B "cache") body) only =
  and_then (eval_code env (B "cache") false (started s) (started_in s i) (code_of body) only) (finished mods).
Proof.
  intros env s i mods body only HM HA HG HU HS HO HF HB. rewrite eval_bif_text by (assumption || plain).
  change (dispatch env ?r (B "cache")) with (bif_cache env r). unfold bif_cache, entry.
  rewrite bind_reject by (proj; allowed). pose proof (room_started s) as HR.
  erewrite bind_done by (apply run_extract_raw; reflexivity).
  rewrite bind_getB, bind_getI, bind_getS. proj. rewrite (contains_no _ _ HF), (has_mod_false _ _ HG).
  assert (cache_bypass (started s) = true) as -> by (apply bypass_iff; exact HB).
  rewrite (has_mod_false _ _ HU).
  unfold bind at 1. rewrite run_code by (exact HR || reflexivity). proj.
  destruct (eval_code env (B "cache") false (started s) (started_in s i) (code_of body) only) as [o s2 i2|q|]; [|reflexivity|reflexivity].
  cbn [onto and_then]. rewrite bind_getB. apply result_done; reflexivity.
Qed.
Print Assumptions C50_bypass.

(** so code without bifs asks the environment nothing at all *)
Theorem C50_no_access : forall env s i mods body only, Forall modifier mods ->
  ~ In "&"%char mods -> ~ In "!"%char mods -> ~ In "+"%char mods ->
  may_start s -> selected only i mods (B "cache") -> ~ occurs (B "{:flg;") (params_of body) -> bypassed s ->
  ~ occurs (B "{:") (code_of body) ->
  eval_bif env s i (bif_text mods (B "cache") body) only = finished mods (code_of body) (started s) (started_in s i).
Proof.
  intros env s i mods body only HM HA HG HU HS HO HF HB HC. rewrite C50_bypass by assumption.
  unfold eval_code. rewrite (contains_no _ _ HC). reflexivity.
Qed.
Print Assumptions C50_no_access.

(** ** C47, C48 *)
Lemma strace_add e s : strace (add_event e s) = e :: strace s.
Proof. reflexivity. Qed.
Definition decide (env : Env) (f x : bytes) (k1 k2 : M unit) : M unit :=
  ex <- ask_exists env f ;;
  expired <- (if ex then cache_file_expires env f (match parse_u64 x with Some n => n | None => 0%N end) else ret true) ;;
  if ex && negb expired then k1 else k2.
Lemma run_expires env f n s i b :
  cache_file_expires env f n (mkSt s i b) =
  let t1 := strace s in
  let t2 := EvNow (e_now env t1) :: t1 in
  let s2 := add_event (EvMtime f (e_mtime env t2 f)) (add_event (EvNow (e_now env t1)) s) in
  match e_mtime env t2 f with
  | None => Done true (mkSt s2 i b)
  | Some t => if (u64_max <? t + n)%N then Panic PExpireOverflow else Done (t + n <? e_now env t1)%N (mkSt s2 i b)
  end.
Proof.
  unfold cache_file_expires, ask_now. rewrite bind_ask. unfold ask_mtime. rewrite bind_ask. cbv zeta.
  rewrite ?strace_add.
  destruct (e_mtime env (EvNow (e_now env (strace s)) :: strace s) f) as [t|]; [|reflexivity].
  rewrite app_if. destruct (u64_max <? t + n)%N; reflexivity.
Qed.
Lemma decide_fresh env f x k1 k2 s i b s2 : fresh env s f x s2 -> decide env f x k1 k2 (mkSt s i b) = k1 (mkSt s2 i b).
Proof.
  intros [t HX HW HO HN]. unfold decide, ask_exists. rewrite bind_ask, HX.
  unfold written_at, present, seconds in *. cbv zeta in HW.
  erewrite bind_done.
  2:{ rewrite run_expires. cbv zeta. rewrite ?strace_add. rewrite HW.
      destruct (u64_max <? _)%N eqn:E1; [apply N.ltb_lt in E1; lia|]. destruct (_ <? e_now _ _)%N eqn:E2; [apply N.ltb_lt in E2; lia|].
      rewrite <- HW. reflexivity. }
  cbn [andb negb]. reflexivity.
Qed.
Lemma decide_stale env f x k1 k2 s i b s2 : stale env s f x s2 -> decide env f x k1 k2 (mkSt s i b) = k2 (mkSt s2 i b).
Proof.
  intros [HX|HX HW|t HX HW HO HN]; unfold decide, ask_exists; rewrite bind_ask, HX; [reflexivity| |];
    unfold written_at, present, seconds in *; cbv zeta in HW.
  - erewrite bind_done.
    2:{ rewrite run_expires. cbv zeta. rewrite ?strace_add. rewrite HW.
        rewrite <- HW. reflexivity. }
    cbn [andb negb]. reflexivity.
  - erewrite bind_done.
    2:{ rewrite run_expires. cbv zeta. rewrite ?strace_add. rewrite HW.
        destruct (u64_max <? _)%N eqn:E1; [apply N.ltb_lt in E1; lia|]. destruct (_ <? e_now _ _)%N eqn:E2; [|apply N.ltb_ge in E2; lia].
        rewrite <- HW. reflexivity. }
    cbn [andb negb]. reflexivity.
Qed.
Definition store (env : Env) (d f : bytes) : M unit :=
  b <- getB ;;
  set_out b.(code) ;;;
  md <- ask_mkdir env d ;;
  match md with
  | Some e => err (B "Failed to create cache directory " ++ d ++ B ": " ++ e)
  | None =>
      cr <- ask_create env f ;;
      match cr with
      | Some e => err (B "Failed to create file " ++ f ++ B ": " ++ e)
      | None =>
          w <- ask_write env f b.(code) ;;
          match w with
          | Some e => err (B "Failed to write to cache " ++ f ++ B ": " ++ e)
          | None => ret tt
          end
      end
  end.
Lemma run_store env d f s i b e s2 : stores env d f (code b) s e s2 ->
  store env d f (mkSt s i b) = match e with
    | None => Done tt (mkSt s2 i (bset_out (code b) b))
    | Some msg => Fail (mkErr msg i.(current_file) b.(alias) b.(raw)) (mkSt s2 i (bset_out (code b) b))
    end.
Proof.
  intro H. unfold store. rewrite bind_getB. unfold set_out. rewrite bind_modB. unfold ask_mkdir. rewrite bind_ask.
  destruct H as [e H|e H H2|e H H2 H3|H H2 H3]; rewrite H; [reflexivity|..];
    unfold ask_create; rewrite bind_ask; rewrite ?strace_add; rewrite H2; [reflexivity|..];
    unfold ask_write; rewrite bind_ask; rewrite ?strace_add; rewrite H3; reflexivity.
Qed.
Ltac cache_start HP HF HG HB HE HK HL :=
  rewrite eval_bif_text by (assumption || plain);
  change (dispatch ?e ?r (B "cache")) with (bif_cache e r); unfold bif_cache, entry;
  rewrite bind_reject by (proj; allowed);
  erewrite bind_done by (apply run_extract_raw; reflexivity);
  rewrite bind_getB, bind_getI, bind_getS; proj; rewrite (contains_no _ _ HF), (has_mod_false _ _ HG);
  (match goal with |- context [cache_bypass (started ?s)] =>
     assert (cache_bypass (started s) = false) as -> by
       (destruct (cache_bypass (started s)) eqn:EB; [apply bypass_iff in EB; contradiction|reflexivity]) end);
  rewrite bind_modI;
  erewrite bind_done by (apply run_args; [apply room_started|reflexivity|reflexivity|exact HP]);
  rewrite bind_modI; unfold need_arg, arg at 1; rewrite HE, bind_ret, bind_getS, bind_getI;
  rewrite caching_back;
  match goal with |- context [cache_key ?e ?s0 ?s1 ?i ?id ?x ?c (match arg ?a 3 with Some _ => _ | None => false end)] =>
    change (match arg a 3 with Some _ => _ | None => false end) with (only_custom a) end;
  (match goal with |- context [cache_key ?e (started ?s)] => change (cache_key e (started s)) with (cache_key e s) end);
  rewrite (key_is _ _ _ _ _ _ _ _ HK), (dir_is _ _ _ HL); cbn [lift_option]; rewrite bind_ret;
  match goal with |- context [entry_dir ?e ?s1 ?key ++ B "/" ++ e_sha256 ?e ?key ++ B "-" ++ ?x] =>
    change (entry_dir e s1 key ++ B "/" ++ e_sha256 e key ++ B "-" ++ x) with (entry_file e s1 key x) end;
  match goal with |- context [bind (ask_exists ?e ?f) (fun ex => bind (if ex then cache_file_expires _ _ (match parse_u64 ?x with Some _ => _ | None => _ end) else _) (fun ed => if ex && negb ed then ?k1 else ?k2))] =>
    change (bind (ask_exists e f) _) with (decide e f x k1 k2) end.

Theorem C47_hit : forall env s i mods body only a s1 expires key s2 c, Forall modifier mods ->
  ~ In "&"%char mods -> ~ In "!"%char mods -> ~ In "+"%char mods ->
  may_start s -> selected only i mods (B "cache") -> ~ occurs (B "{:flg;") (params_of body) -> ~ bypassed s ->
  arguments env (B "cache") (caching (started_in s i)) only (arg_texts (params_of body)) (started s) a s1 ->
  nth_error a 1 = Some expires -> cache_key_of env s s1 (started_in s i) a expires (code_of body) key ->
  3 <= length (e_sha256 env key) ->
  let f := entry_file env s1 key expires in
  fresh env s1 f expires s2 -> e_read env (strace s2) f = Some c ->
  eval_bif env s i (bif_text mods (B "cache") body) only =
  finished mods c (add_event (EvRead f (Some c)) s2) (started_in s i).
Proof.
  intros env s i mods body only a s1 expires key s2 c HM HA HG HU HS HO HF HB HP HE HK HL f HX HR.
  cache_start HP HF HG HB HE HK HL.
  erewrite decide_fresh by exact HX. unfold ask_read. rewrite bind_ask. fold f. rewrite HR. apply result_done; reflexivity.
Qed.
Print Assumptions C47_hit.

(** a fresh entry that cannot be read is an error; the code is evaluated all the same, if it has bifs *)
Lemma arguments_data env al i only l s r s1 : has_data s -> arguments env al i only l s r s1 -> has_data s1.
Proof.
  intros HD H. induction H as [|p r s o s1 i1 l s2 HE HA IH]; [exact HD|]. apply IH.
  unfold eval_text in HE. destruct (contains _ p); [eapply nested_has_data; eassumption|]. congruence.
Qed.
Lemma code_keeps env al s i src only o s' i' : has_data s -> eval_code env al false s i src only = BOk o s' i' ->
  keeps_rest s s' /\ i' = i.
Proof.
  intros HD. unfold eval_code. destruct (contains _ src).
  - intro H. split; [eapply nested_keeps; eassumption|eapply nested_later; exact H].
  - intro H. assert (s' = s /\ i' = i) as [-> ->] by (split; congruence). split; [apply keeps_refl|reflexivity].
Qed.
Lemma event_keeps e s : keeps_rest s (add_event e s).
Proof. split; [split; [reflexivity|split; [apply N.le_refl|exists [e]; reflexivity]]|intros k _; reflexivity]. Qed.
Lemma dated_keeps env s f : keeps_rest s (dated env s f).
Proof. unfold dated. eapply keeps_trans; [eapply keeps_trans|]; apply event_keeps. Qed.
Lemma fresh_facts env s f x s2 : fresh env s f x s2 -> keeps_rest s s2 /\ (has_data s -> has_data s2).
Proof. intros []. split; [apply dated_keeps|auto]. Qed.
Lemma stale_facts env s f x s2 : stale env s f x s2 -> keeps_rest s s2 /\ (has_data s -> has_data s2).
Proof. intros []; (split; [apply event_keeps || apply dated_keeps|auto]). Qed.
Lemma stores_keeps env d f o s e s2 : stores env d f o s e s2 -> keeps_rest s s2.
Proof. intros []; repeat (eapply keeps_trans; [|apply event_keeps]); apply keeps_refl. Qed.

Theorem C47_unreadable : forall env s i mods body only a s1 expires key s2 o s3 i3, Forall modifier mods ->
  ~ In "&"%char mods -> ~ In "!"%char mods -> ~ In "+"%char mods ->
  may_start s -> selected only i mods (B "cache") -> ~ occurs (B "{:flg;") (params_of body) -> ~ bypassed s ->
  has_data s -> can_report s ->
  arguments env (B "cache") (caching (started_in s i)) only (arg_texts (params_of body)) (started s) a s1 ->
  nth_error a 1 = Some expires -> cache_key_of env s s1 (started_in s i) a expires (code_of body) key ->
  3 <= length (e_sha256 env key) ->
  let f := entry_file env s1 key expires in
  fresh env s1 f expires s2 -> e_read env (strace s2) f = None -> occurs (B "{:") (code_of body) ->
  eval_nested env (B "cache") (add_event (EvRead f None) s2) (caching (started_in s i)) (code_of body) only = BOk o s3 i3 ->
  eval_bif env s i (bif_text mods (B "cache") body) only =
  failed env (B "Failed to read cache " ++ f) (B "cache") mods (bif_text mods (B "cache") body) o s3 (started_in s i).
Proof.
  intros env s i mods body only a s1 expires key s2 o s3 i3 HM HA HG HU HS HO HF HB HD HC HP HE HK HL f HX HR HI HN.
  assert (keeps_rest (started s) s2 /\ has_data s2) as [K2 D2].
  { destruct (fresh_facts _ _ _ _ _ HX) as [K D]. split; [eapply keeps_trans; [eapply arguments_keeps; [|exact HP]; exact HD|exact K]|].
    apply D. eapply arguments_data; [|exact HP]; exact HD. }
  assert (room (enough_fuel s) (add_event (EvRead f None) s2)) as HRm.
  { eapply room_later; [|apply room_started]. eapply later_trans; [exact (proj1 K2)|]. apply event_keeps. }
  cache_start HP HF HG HB HE HK HL.
  erewrite decide_fresh by exact HX. unfold ask_read. rewrite bind_ask. fold f. rewrite HR.
  change BIF_OPEN with (B "{:"). rewrite (contains_yes _ _ HI), (has_mod_false _ _ HU). rewrite bind_bind.
  destruct (nested_later _ _ _ _ _ _ _ _ _ HN) as [_ ->].
  erewrite bind_done.
  2:{ match goal with |- child_in_cache ?r _ _ _ (mkSt _ _ ?b) = _ => change (code_of body) with (code b) end.
      rewrite run_cached by (exact HRm || reflexivity). proj. rewrite HN. cbn [and_then onto]. reflexivity. }
  unfold set_out. rewrite bind_modB. unfold err. cbn [inh bf].
  change (iset_in_cache (in_cache (started_in s i)) (caching (started_in s i))) with
    (iset_in_cache (in_cache (started_in s i)) (iset_in_cache true (started_in s i))). rewrite caching_back. proj.
  apply result_fail; [|reflexivity|reflexivity]. apply (keeps_reports (started s)); [|exact HC].
  eapply keeps_trans; [exact K2|]. eapply keeps_trans; [apply event_keeps|]. eapply nested_keeps; [|exact HN]. exact D2.
Qed.
Print Assumptions C47_unreadable.

(** a fresh entry that cannot be read, with code without bifs: nothing is written *)
Theorem C47_unreadable_plain : forall env s i mods body only a s1 expires key s2, Forall modifier mods ->
  ~ In "&"%char mods -> ~ In "!"%char mods -> ~ In "+"%char mods ->
  may_start s -> selected only i mods (B "cache") -> ~ occurs (B "{:flg;") (params_of body) -> ~ bypassed s ->
  has_data s -> can_report s ->
  arguments env (B "cache") (caching (started_in s i)) only (arg_texts (params_of body)) (started s) a s1 ->
  nth_error a 1 = Some expires -> cache_key_of env s s1 (started_in s i) a expires (code_of body) key ->
  3 <= length (e_sha256 env key) ->
  let f := entry_file env s1 key expires in
  fresh env s1 f expires s2 -> e_read env (strace s2) f = None -> ~ occurs (B "{:") (code_of body) ->
  eval_bif env s i (bif_text mods (B "cache") body) only =
  failed env (B "Failed to read cache " ++ f) (B "cache") mods (bif_text mods (B "cache") body) []
    (add_event (EvRead f None) s2) (started_in s i).
Proof.
  intros env s i mods body only a s1 expires key s2 HM HA HG HU HS HO HF HB HD HC HP HE HK HL f HX HR HI.
  assert (keeps_rest (started s) s2) as K2.
  { destruct (fresh_facts _ _ _ _ _ HX) as [K D]. eapply keeps_trans; [eapply arguments_keeps; [|exact HP]; exact HD|exact K]. }
  cache_start HP HF HG HB HE HK HL.
  erewrite decide_fresh by exact HX. unfold ask_read. rewrite bind_ask. fold f. rewrite HR.
  change BIF_OPEN with (B "{:"). rewrite (contains_no _ _ HI). rewrite bind_ret. unfold err. cbn [inh bf].
  apply result_fail; [|reflexivity|reflexivity]. apply (keeps_reports (started s)); [|exact HC].
  eapply keeps_trans; [exact K2|]. apply event_keeps.
Qed.
Print Assumptions C47_unreadable_plain.
(** and if the evaluation of the code is aborted, so is the bif *)
Theorem C47_unreadable_aborted : forall env s i mods body only a s1 expires key s2, Forall modifier mods ->
  ~ In "&"%char mods -> ~ In "!"%char mods -> ~ In "+"%char mods ->
  may_start s -> selected only i mods (B "cache") -> ~ occurs (B "{:flg;") (params_of body) -> ~ bypassed s ->
  arguments env (B "cache") (caching (started_in s i)) only (arg_texts (params_of body)) (started s) a s1 ->
  nth_error a 1 = Some expires -> cache_key_of env s s1 (started_in s i) a expires (code_of body) key ->
  3 <= length (e_sha256 env key) ->
  let f := entry_file env s1 key expires in
  fresh env s1 f expires s2 -> e_read env (strace s2) f = None -> occurs (B "{:") (code_of body) ->
  (forall o s3 i3, eval_nested env (B "cache") (add_event (EvRead f None) s2) (caching (started_in s i)) (code_of body) only <> BOk o s3 i3) ->
  eval_bif env s i (bif_text mods (B "cache") body) only =
  eval_nested env (B "cache") (add_event (EvRead f None) s2) (caching (started_in s i)) (code_of body) only.
Proof.
  intros env s i mods body only a s1 expires key s2 HM HA HG HU HS HO HF HB HP HE HK HL f HX HR HI HN.
  assert (room (enough_fuel s) (add_event (EvRead f None) s2)) as HRm.
  { eapply room_later; [|apply room_started]. eapply later_trans; [eapply arguments_later; exact HP|].
    eapply later_trans; [apply (fresh_facts _ _ _ _ _ HX)|]. apply event_keeps. }
  cache_start HP HF HG HB HE HK HL.
  erewrite decide_fresh by exact HX. unfold ask_read. rewrite bind_ask. fold f. rewrite HR.
  change BIF_OPEN with (B "{:"). rewrite (contains_yes _ _ HI), (has_mod_false _ _ HU). rewrite bind_bind. unfold bind at 1.
  match goal with |- context [child_in_cache _ _ _ _ (mkSt _ _ ?b)] => set (b0 := b) end.
  change (code_of body) with (code b0). rewrite run_cached by (exact HRm || reflexivity).
  change (code b0) with (code_of body). change (alias b0) with (B "cache"). change (State.only b0) with only.
  destruct (eval_nested env (B "cache") (add_event (EvRead f None) s2) (caching (started_in s i)) (code_of body) only) as [o s3 i3|q|]; [edestruct HN; reflexivity|reflexivity|reflexivity].
Qed.
Print Assumptions C47_unreadable_aborted.

(** Without a fresh entry the code is evaluated, its output is stored and is the output of the bif,
    also when it cannot be stored. *)
Theorem C47_miss : forall env s i mods body only a s1 expires key s2 o s3 i3 e s4, Forall modifier mods ->
  ~ In "&"%char mods -> ~ In "!"%char mods -> ~ In "+"%char mods ->
  may_start s -> selected only i mods (B "cache") -> ~ occurs (B "{:flg;") (params_of body) -> ~ bypassed s ->
  has_data s -> can_report s ->
  arguments env (B "cache") (caching (started_in s i)) only (arg_texts (params_of body)) (started s) a s1 ->
  nth_error a 1 = Some expires -> cache_key_of env s s1 (started_in s i) a expires (code_of body) key ->
  3 <= length (e_sha256 env key) ->
  let f := entry_file env s1 key expires in
  stale env s1 f expires s2 ->
  eval_code env (B "cache") false s2 (caching (started_in s i)) (code_of body) only = BOk o s3 i3 ->
  stores env (entry_dir env s1 key) f o s3 e s4 ->
  eval_bif env s i (bif_text mods (B "cache") body) only =
  match e with
  | None => finished mods o s4 (started_in s i)
  | Some msg => failed env msg (B "cache") mods (bif_text mods (B "cache") body) o s4 (started_in s i)
  end.
Proof.
  intros env s i mods body only a s1 expires key s2 o s3 i3 e s4 HM HA HG HU HS HO HF HB HD HC HP HE HK HL f HX HN HW.
  assert (keeps_rest (started s) s2 /\ has_data s2) as [K2 D2].
  { destruct (stale_facts _ _ _ _ _ HX) as [K D]. split; [eapply keeps_trans; [eapply arguments_keeps; [|exact HP]; exact HD|exact K]|].
    apply D. eapply arguments_data; [|exact HP]; exact HD. }
  assert (room (enough_fuel s) s2) as HRm by (eapply room_later; [exact (proj1 K2)|apply room_started]).
  assert (can_report s4) as HC4.
  { apply (keeps_reports (started s)); [|exact HC]. eapply keeps_trans; [exact K2|]. eapply keeps_trans; [eapply code_keeps; [exact D2|exact HN]|].
    eapply stores_keeps; exact HW. }
  cache_start HP HF HG HB HE HK HL.
  erewrite decide_stale by exact HX. fold f. change BIF_OPEN with (B "{:").
  match goal with |- context [bind getB ?k] => change (bind getB k) with (store env (entry_dir env s1 key) f) end.
  set (b := bset_code (code_of body) (bset_params (params_of body) (bif_of mods (B "cache") body only))).
  assert (bind (if contains (B "{:") (code_of body)
          then c <- child_in_cache (run_blocks env (enough_fuel s)) (code_of body) (has_mod "+" mods) (in_cache (started_in s i)) ;; modB (bset_code c)
          else ret tt) (fun _ => store env (entry_dir env s1 key) f) (mkSt s2 (started_in s i) b)
    = store env (entry_dir env s1 key) f (mkSt s3 (started_in s i) (bset_code o b))) as ->.
  { unfold eval_code in HN. rewrite bind_if. destruct (contains (B "{:") (code_of body)).
    - destruct (nested_later _ _ _ _ _ _ _ _ _ HN) as [_ ->]. rewrite bind_bind.
      erewrite bind_done.
      2:{ rewrite (has_mod_false _ _ HU). change (code_of body) with (code b).
          rewrite run_cached by (exact HRm || reflexivity). change (code b) with (code_of body). change (alias b) with (B "cache").
          change (State.only b) with only. rewrite HN. cbn [and_then onto]. reflexivity. }
      rewrite bind_modB. change (iset_in_cache (in_cache (started_in s i)) (caching (started_in s i))) with
        (iset_in_cache (in_cache (started_in s i)) (iset_in_cache true (started_in s i))). rewrite caching_back. reflexivity.
    - rewrite bind_ret. assert (o = code_of body /\ s3 = s2) as [-> ->] by (split; congruence).
      replace (bset_code (code_of body) b) with b by reflexivity. reflexivity. }
  erewrite run_store by exact HW. destruct e as [msg|].
  - apply result_fail; [exact HC4|reflexivity|reflexivity].
  - apply result_done; reflexivity.
Qed.
Print Assumptions C47_miss.

(** the code is not stored if its evaluation is aborted *)
Theorem C47_aborted : forall env s i mods body only a s1 expires key s2, Forall modifier mods ->
  ~ In "&"%char mods -> ~ In "!"%char mods -> ~ In "+"%char mods ->
  may_start s -> selected only i mods (B "cache") -> ~ occurs (B "{:flg;") (params_of body) -> ~ bypassed s ->
  arguments env (B "cache") (caching (started_in s i)) only (arg_texts (params_of body)) (started s) a s1 ->
  nth_error a 1 = Some expires -> cache_key_of env s s1 (started_in s i) a expires (code_of body) key ->
  3 <= length (e_sha256 env key) ->
  stale env s1 (entry_file env s1 key expires) expires s2 ->
  (forall o s3 i3, eval_code env (B "cache") false s2 (caching (started_in s i)) (code_of body) only <> BOk o s3 i3) ->
  eval_bif env s i (bif_text mods (B "cache") body) only =
  eval_code env (B "cache") false s2 (caching (started_in s i)) (code_of body) only.
Proof.
  intros env s i mods body only a s1 expires key s2 HM HA HG HU HS HO HF HB HP HE HK HL HX HN.
  assert (room (enough_fuel s) s2) as HRm.
  { eapply room_later; [|apply room_started]. eapply later_trans; [eapply arguments_later; exact HP|].
    apply (stale_facts _ _ _ _ _ HX). }
  cache_start HP HF HG HB HE HK HL.
  erewrite decide_stale by exact HX. change BIF_OPEN with (B "{:"). unfold eval_code in *. rewrite bind_if.
  destruct (contains (B "{:") (code_of body)); [|edestruct HN; reflexivity].
  rewrite bind_bind. unfold bind at 1. rewrite (has_mod_false _ _ HU).
  match goal with |- context [child_in_cache _ _ _ _ (mkSt _ _ ?b)] => set (b0 := b) end.
  change (code_of body) with (code b0). rewrite run_cached by (exact HRm || reflexivity).
  change (code b0) with (code_of body). change (alias b0) with (B "cache"). change (State.only b0) with only.
  destruct (eval_nested env (B "cache") s2 (caching (started_in s i)) (code_of body) only) as [o s3 i3|q|]; [edestruct HN; reflexivity|reflexivity|reflexivity].
Qed.
Print Assumptions C47_aborted.

(** ** C48 *)
Lemma decision env s f x : (exists s2, fresh env s f x s2) \/ (exists s2, stale env s f x s2) \/
  (exists t, env.(e_exists) s.(strace) f = true /\ written_at env s f = Some t /\ (u64_max < t + seconds x)%N).
Proof.
  destruct (e_exists env (strace s) f) eqn:E1; [|right; left; eexists; apply sl_missing; exact E1].
  destruct (written_at env s f) as [t|] eqn:E2; [|right; left; eexists; apply sl_unknown; assumption].
  destruct (N.le_gt_cases (t + seconds x) u64_max) as [H|H]; [|right; right; exists t; auto].
  destruct (N.le_gt_cases (present env s f) (t + seconds x)) as [H2|H2].
  - left. eexists. eapply fr_fresh; eassumption.
  - right. left. eexists. eapply sl_old; eassumption.
Qed.
Lemma stores_total env d f o s : exists e s2, stores env d f o s e s2.
Proof.
  destruct (e_mkdir env (strace s) d) as [e|] eqn:E1; [eexists _, _; eapply so_mkdir; exact E1|].
  destruct (e_create env (EvMkdir d None :: strace s) f) as [e|] eqn:E2; [eexists _, _; eapply so_create; eassumption|].
  destruct (e_write env (EvCreate f None :: EvMkdir d None :: strace s) f o) as [e|] eqn:E3; [eexists _, _; eapply so_write; eassumption|].
  eexists _, _. apply so_done; assumption.
Qed.

(** An entry that exists but is too old is not used: the code is evaluated and stored anew. *)
Theorem C48_expired : forall env s i mods body only a s1 expires key t o s3 i3 e s4, Forall modifier mods ->
  ~ In "&"%char mods -> ~ In "!"%char mods -> ~ In "+"%char mods ->
  may_start s -> selected only i mods (B "cache") -> ~ occurs (B "{:flg;") (params_of body) -> ~ bypassed s ->
  has_data s -> can_report s ->
  arguments env (B "cache") (caching (started_in s i)) only (arg_texts (params_of body)) (started s) a s1 ->
  nth_error a 1 = Some expires -> cache_key_of env s s1 (started_in s i) a expires (code_of body) key ->
  3 <= length (e_sha256 env key) ->
  let f := entry_file env s1 key expires in
  e_exists env (strace s1) f = true -> written_at env s1 f = Some t ->
  (t + seconds expires <= u64_max)%N -> (t + seconds expires < present env s1 f)%N ->
  eval_code env (B "cache") false (dated env s1 f) (caching (started_in s i)) (code_of body) only = BOk o s3 i3 ->
  stores env (entry_dir env s1 key) f o s3 e s4 ->
  eval_bif env s i (bif_text mods (B "cache") body) only =
  match e with
  | None => finished mods o s4 (started_in s i)
  | Some msg => failed env msg (B "cache") mods (bif_text mods (B "cache") body) o s4 (started_in s i)
  end.
Proof.
  intros env s i mods body only a s1 expires key t o s3 i3 e s4 HM HA HG HU HS HO HF HB HD HC HP HE HK HL f HX HW H1 H2 HN HS4.
  eapply C47_miss; try eassumption. eapply sl_old; eassumption.
Qed.
Print Assumptions C48_expired.

(** The entry is read only if the present does not exceed its time plus the expiry.  (The code has
    no bifs, which could read the same file by other means.) *)
Theorem C48_read : forall env s i mods body only a s1 expires key out s' i' l r, Forall modifier mods ->
  ~ In "&"%char mods -> ~ In "!"%char mods -> ~ In "+"%char mods ->
  may_start s -> selected only i mods (B "cache") -> ~ occurs (B "{:flg;") (params_of body) -> ~ bypassed s ->
  has_data s -> can_report s ->
  arguments env (B "cache") (caching (started_in s i)) only (arg_texts (params_of body)) (started s) a s1 ->
  nth_error a 1 = Some expires -> cache_key_of env s s1 (started_in s i) a expires (code_of body) key ->
  3 <= length (e_sha256 env key) -> ~ occurs (B "{:") (code_of body) ->
  eval_bif env s i (bif_text mods (B "cache") body) only = BOk out s' i' ->
  strace s' = l ++ strace s1 -> In (EvRead (entry_file env s1 key expires) r) l ->
  exists t, written_at env s1 (entry_file env s1 key expires) = Some t /\
    (present env s1 (entry_file env s1 key expires) <= t + seconds expires)%N.
Proof.
  intros env s i mods body only a s1 expires key out s' i' l r HM HA HG HU HS HO HF HB HD HC HP HE HK HL HN HR HT HI.
  set (f := entry_file env s1 key expires) in *.
  destruct (decision env s1 f expires) as [[s2 [t H1 H2 H3 H4]]|[[s2 HX]|(t & H1 & H2 & H3)]].
  - exists t. split; assumption.
  - exfalso. destruct (stores_total env (entry_dir env s1 key) f (code_of body) s2) as (e & s4 & HW).
    erewrite C47_miss in HR; try eassumption. 2:{ unfold eval_code. rewrite (contains_no _ _ HN). reflexivity. }
    assert (exists l2, strace s2 = l2 ++ strace s1 /\ (forall x, ~ In (EvRead f x) l2)) as (l2 & E2 & N2).
    { destruct HX; [exists [EvExists f false]|eexists [_; _; _]|eexists [_; _; _]]; (split; [reflexivity|]); cbn; intuition discriminate. }
    assert (exists l4, strace s4 = l4 ++ strace s2 /\ (forall x, ~ In (EvRead f x) l4)) as (l4 & E4 & N4).
    { destruct HW; [eexists [_]|eexists [_; _]|eexists [_; _; _]|eexists [_; _; _]]; (split; [reflexivity|]); cbn; intuition discriminate. }
    assert (exists l5, strace s' = l5 ++ strace s4 /\ (forall x, ~ In (EvRead f x) l5)) as (l5 & E5 & N5).
    { destruct e as [msg|].
      - unfold failed, finished in HR. assert (s' = with_error env msg (B "cache") (bif_text mods (B "cache") body) s4 (started_in s i)) as -> by congruence.
        unfold with_error. eexists [_]. split; [unfold push_error; reflexivity|]. cbn. intuition discriminate.
      - unfold finished in HR. assert (s' = s4) as -> by congruence. exists []. split; [reflexivity|]. intros x []. }
    rewrite E5, E4, E2, !app_assoc in HT. apply app_inv_tail in HT. subst l. rewrite !in_app_iff in HI.
    specialize (N2 r). specialize (N4 r). specialize (N5 r). tauto.
  - exfalso. revert HR. cache_start HP HF HG HB HE HK HL. unfold decide, ask_exists. rewrite bind_ask. fold f. rewrite H1.
    unfold bind at 1. rewrite run_expires. rewrite ?strace_add. unfold written_at in H2. cbv zeta in H2 |- *. rewrite H2.
    unfold seconds in H3. apply N.ltb_lt in H3. rewrite H3. discriminate.
Qed.
Print Assumptions C48_read.

(** the expiry that overflows aborts the render *)
Theorem C48_overflow : forall env s i mods body only a s1 expires key t, Forall modifier mods ->
  ~ In "&"%char mods -> ~ In "!"%char mods -> ~ In "+"%char mods ->
  may_start s -> selected only i mods (B "cache") -> ~ occurs (B "{:flg;") (params_of body) -> ~ bypassed s ->
  arguments env (B "cache") (caching (started_in s i)) only (arg_texts (params_of body)) (started s) a s1 ->
  nth_error a 1 = Some expires -> cache_key_of env s s1 (started_in s i) a expires (code_of body) key ->
  3 <= length (e_sha256 env key) ->
  let f := entry_file env s1 key expires in
  e_exists env (strace s1) f = true -> written_at env s1 f = Some t -> (u64_max < t + seconds expires)%N ->
  eval_bif env s i (bif_text mods (B "cache") body) only = BPanic PExpireOverflow.
Proof.
  intros env s i mods body only a s1 expires key t HM HA HG HU HS HO HF HB HP HE HK HL f H1 H2 H3.
  cache_start HP HF HG HB HE HK HL. unfold decide, ask_exists. rewrite bind_ask. fold f. rewrite H1.
  unfold bind at 1. rewrite run_expires. rewrite ?strace_add. unfold written_at in H2. cbv zeta in H2 |- *. rewrite H2.
  unfold seconds in H3. apply N.ltb_lt in H3. rewrite H3. reflexivity.
Qed.
Print Assumptions C48_overflow.

(** ** C49 *)
Lemma one_differs_concat l l' : one_differs l l' -> concat l <> concat l'.
Proof.
  intros (a & x & y & b & -> & -> & N) E. rewrite !concat_app in E. cbn [concat] in E. apply app_inv_head in E. apply app_inv_tail in E. contradiction.
Qed.
(** Two evaluations that differ in exactly one of the identifier, language, expiry, POST, GET,
    COOKIES, host, route and code have different keys; they use the same file only if SHA-256 has
    the same digest for both. *)
Theorem C49_distinct : forall env s0 s i id x code l s0' s' i' id' x' code' l' digits,
  (forall k, length (e_sha256 env k) = digits) ->
  s'.(cfg).(cache_dir) = s.(cfg).(cache_dir) -> s'.(cfg).(cache_prefix) = s.(cfg).(cache_prefix) ->
  cache_parts env s0 s i id x code l -> cache_parts env s0' s' i' id' x' code' l' -> one_differs l l' ->
  concat l <> concat l' /\
  (entry_file env s (concat l) x = entry_file env s' (concat l') x' -> e_sha256 env (concat l) = e_sha256 env (concat l')).
Proof.
  intros env s0 s i id x code l s0' s' i' id' x' code' l' digits HL E1 E2 _ _ HD. split; [apply one_differs_concat; exact HD|].
  unfold entry_file, entry_dir. rewrite E1, E2, <- !app_assoc. intro E. apply app_inv_head in E. apply app_inv_head in E. apply app_inv_head in E.
  set (h := e_sha256 env (concat l)) in *. set (h' := e_sha256 env (concat l')) in *.
  assert (length h = length h') as EL by (unfold h, h'; rewrite !HL; reflexivity).
  assert (firstn 3 h = firstn 3 h' /\ B "/" ++ h ++ B "-" ++ x = B "/" ++ h' ++ B "-" ++ x') as [_ E3].
  { apply app_eq_len; [rewrite !firstn_length; lia|exact E]. }
  injection E3 as E3. apply app_eq_len in E3; [apply E3|exact EL].
Qed.
Print Assumptions C49_distinct.


(** Which file is consulted: right after the evaluation of the arguments the engine asks for the entry of the key. *)
Definition extends (t t' : trace) : Prop := exists new, t' = new ++ t.
Lemma extends_trans a b c : extends a b -> extends b c -> extends a c.
Proof. intros [x ->] [y ->]. exists (y ++ x). rewrite app_assoc. reflexivity. Qed.
Lemma nested_extends env al s i src only o s' i' : eval_nested env al s i src only = BOk o s' i' -> extends (strace s) (strace s').
Proof.
  unfold eval_nested, parse, parse_fuel. intro H.
  assert (JS (strace s) (cfg s) [] s) as H0.
  { split; [reflexivity|]. exists []. split; [reflexivity|]. split; [apply disciplined_nil|apply incl_refl]. }
  pose proof (tok_block_parse (strace s) (cfg s) _ (tok_run env (strace s) (cfg s) (enough_fuel s)) [] src only s (inside al i) H0) as HB.
  destruct (block_parse _ s _ src only) as [o1 s1 i1|p|]; [|discriminate|discriminate]. cbn in HB.
  assert (s' = drop_block s1 i1) as -> by congruence. destruct (drop_store s1 i1) as [x ->].
  destruct HB as [_ (new & E & _)]. exists new. exact E.
Qed.
Lemma finished_trace mods o s i out s' i' : finished mods o s i = BOk out s' i' -> s' = s.
Proof. unfold finished. congruence. Qed.
Lemma failed_trace env msg al mods text o s i out s' i' : failed env msg al mods text o s i = BOk out s' i' -> extends (strace s) (strace s').
Proof. intro H. apply finished_trace in H as ->. eexists [_]. reflexivity. Qed.
Lemma stores_extends env d f o s e s2 : stores env d f o s e s2 -> extends (strace s) (strace s2).
Proof. intros [e0 _|e0 _ _|e0 _ _ _|_ _ _]; [eexists [_]|eexists [_; _]|eexists [_; _; _]|eexists [_; _; _]]; reflexivity. Qed.
Lemma dated_extends env s f : extends (EvExists f true :: strace s) (strace (dated env s f)).
Proof. eexists [_; _]. reflexivity. Qed.
Theorem C49_consults : forall env s i mods body only a s1 expires key out s' i', Forall modifier mods ->
  ~ In "&"%char mods -> ~ In "!"%char mods -> ~ In "+"%char mods ->
  may_start s -> selected only i mods (B "cache") -> ~ occurs (B "{:flg;") (params_of body) -> ~ bypassed s ->
  has_data s -> can_report s ->
  arguments env (B "cache") (caching (started_in s i)) only (arg_texts (params_of body)) (started s) a s1 ->
  nth_error a 1 = Some expires -> cache_key_of env s s1 (started_in s i) a expires (code_of body) key ->
  3 <= length (e_sha256 env key) ->
  eval_bif env s i (bif_text mods (B "cache") body) only = BOk out s' i' ->
  exists new r, strace s' = new ++ EvExists (entry_file env s1 key expires) r :: strace s1.
Proof.
  intros env s i mods body only a s1 expires key out s' i' HM HA HG HU HS HO HF HB HD HC HP HE HK HL HR.
  set (f := entry_file env s1 key expires).
  enough (exists r, extends (EvExists f r :: strace s1) (strace s')) as (r & new & H) by (exists new, r; exact H).
  destruct (decision env s1 f expires) as [[s2 HX]|[[s2 HX]|(t & H1 & H2 & H3)]].
  - exists true. assert (extends (EvExists f true :: strace s1) (strace s2)) as X2 by (destruct HX; apply dated_extends).
    eapply extends_trans; [exact X2|]. destruct (e_read env (strace s2) f) as [c|] eqn:ER.
    + erewrite C47_hit in HR; try eassumption. apply finished_trace in HR as ->. eexists [_]. reflexivity.
    + assert (extends (strace s2) (strace (add_event (EvRead f None) s2))) as X3 by (eexists [_]; reflexivity).
      eapply extends_trans; [exact X3|].
      destruct (contains (B "{:") (code_of body)) eqn:EC.
      * apply contains_iff in EC.
        destruct (eval_nested env (B "cache") (add_event (EvRead f None) s2) (caching (started_in s i)) (code_of body) only) as [o s3 i3|q|] eqn:EN.
        -- erewrite C47_unreadable in HR; try eassumption. apply failed_trace in HR. eapply extends_trans; [|exact HR].
           eapply nested_extends. exact EN.
        -- erewrite C47_unreadable_aborted in HR; try eassumption; [change (entry_file env s1 key expires) with f in HR; rewrite EN in HR; discriminate|fold f; intros; rewrite EN; discriminate].
        -- erewrite C47_unreadable_aborted in HR; try eassumption; [change (entry_file env s1 key expires) with f in HR; rewrite EN in HR; discriminate|fold f; intros; rewrite EN; discriminate].
      * assert (~ occurs (B "{:") (code_of body)) as NC by (rewrite <- contains_iff; congruence).
        erewrite C47_unreadable_plain in HR; try eassumption. apply failed_trace in HR. exact HR.
  - assert (exists r, extends (EvExists f r :: strace s1) (strace s2)) as (r & X2).
    { destruct HX; [exists false; exists []; reflexivity|exists true; apply dated_extends|exists true; apply dated_extends]. }
    exists r. eapply extends_trans; [exact X2|].
    destruct (eval_code env (B "cache") false s2 (caching (started_in s i)) (code_of body) only) as [o s3 i3|q|] eqn:EN.
    + destruct (stores_total env (entry_dir env s1 key) f o s3) as (e & s4 & HW).
      assert (extends (strace s2) (strace s3)) as X3.
      { unfold eval_code in EN. destruct (contains _ _); [eapply nested_extends; exact EN|]. exists []. cbn. congruence. }
      erewrite C47_miss in HR; try eassumption.
      eapply extends_trans; [exact X3|]. eapply extends_trans; [eapply stores_extends; exact HW|].
      destruct e; [apply failed_trace in HR; exact HR|]. apply finished_trace in HR as ->. exists []. reflexivity.
    + erewrite C47_aborted in HR; try eassumption; rewrite EN in *; discriminate.
    + erewrite C47_aborted in HR; try eassumption; rewrite EN in *; discriminate.
  - erewrite C48_overflow in HR; try eassumption. discriminate.
Qed.
Print Assumptions C49_consults.

(** Two evaluations that differ in exactly one of the parts of the key consult different files, unless SHA-256 has the same
    digest for both keys. *)
Theorem C49_separate : forall env digits s i body only s1 l s2 s' i' body' only' s1' l' s2',
  3 <= digits -> (forall k, length (e_sha256 env k) = digits) ->
  keyed_cache env s i body only s1 l s2 -> keyed_cache env s' i' body' only' s1' l' s2' ->
  s1'.(cfg).(cache_dir) = s1.(cfg).(cache_dir) -> s1'.(cfg).(cache_prefix) = s1.(cfg).(cache_prefix) ->
  one_differs l l' -> e_sha256 env (concat l) <> e_sha256 env (concat l') ->
  exists f new r f' new' r', strace s2 = new ++ EvExists f r :: strace s1 /\ strace s2' = new' ++ EvExists f' r' :: strace s1' /\ f <> f'.
Proof.
  intros env digits s i body only s1 l s2 s' i' body' only' s1' l' s2' HG HL [a x out i2 H1 H2 H3 H4 H5 H6 H7 H8 H9 H10 H11]
    [a' x' out' i2' H1' H2' H3' H4' H5' H6' H7' H8' H9' H10' H11'] E1 E2 HD HS.
  destruct (C49_consults env s i [] body only a s1 x (concat l) out s2 i2) as (new & r & ET); try assumption;
    try (intros []); [constructor|constructor 2; assumption|rewrite HL; exact HG|].
  destruct (C49_consults env s' i' [] body' only' a' s1' x' (concat l') out' s2' i2') as (new' & r' & ET'); try assumption;
    try (intros []); [constructor|constructor 2; assumption|rewrite HL; exact HG|].
  exists (entry_file env s1 (concat l) x), new, r, (entry_file env s1' (concat l') x'), new', r'.
  split; [exact ET|]. split; [exact ET'|]. intro E. apply HS.
  eapply C49_distinct; [exact HL|exact E1|exact E2|exact H10|exact H10'|exact HD|exact E].
Qed.
Print Assumptions C49_separate.

(** ** Examples *)
(** an environment in which every file exists, was written at [t] and contains "stored" *)
Definition env_cache (t now : N) : Env :=
  mkEnv (fun s => s) (fun s => B "abc" ++ s) (fun s => s) (fun _ => inl (JObj [])) (fun _ => B "{..}")
        (fun _ => B "{}") (fun a _ => a) (fun _ => None) (fun _ s => Some s) (B "/cwd") (B "/tmp")
        (fun _ _ => true) (fun _ _ => true) (fun _ p => Some p) (fun _ _ => Some (B "stored")) (fun _ _ => [])
        (fun _ _ => None) (fun _ _ => None) (fun _ _ _ => None) (fun _ _ => Some t) (fun _ _ => Some 0%N)
        (fun _ => now) (fun _ => B "now") (fun _ lo _ => lo) (fun _ => B "0123456789abcdef")
        (fun _ _ => inl (JObj [])) (fun _ _ => inl (JObj [])).
Definition with_context (ctx : obj) (src : string) : Template :=
  set_src_str (B src) (tset_schema (match update_schema DEFAULT_SCHEMA (JObj [(B "data", JObj [(B "CONTEXT", JObj ctx)])]) with
                                    | Some j => j | None => JNull end) t0).
Definition trace_of (env : Env) (t : Template) : list event :=
  match render env 5 t with TOk _ t => rev t.(t_shared).(strace) | _ => [] end.

Definition entry_example : bytes := B "/tmp/neutral-cache/abc/abcen60{..}{:;name:}-60".
Example C47_example :
  trace_in (env_cache 100 160) "{:cache; /60/ >> {:;name:} :}!" =
    [EvExists entry_example true; EvNow 160; EvMtime entry_example (Some 100%N); EvRead entry_example (Some (B "stored"))] /\
  output_in (env_cache 100 160) "{:cache; /60/ >> {:;name:} :}!" = B "stored!".
Proof. split; vm_compute; reflexivity. Qed.
Example C48_example :
  trace_in (env_cache 100 161) "{:cache; /60/ >> {:;name:} :}!" =
    [EvExists entry_example true; EvNow 161; EvMtime entry_example (Some 100%N);
     EvMkdir (B "/tmp/neutral-cache/abc") None; EvCreate entry_example None; EvWrite entry_example (B "World") None] /\
  output_in (env_cache 100 161) "{:cache; /60/ >> {:;name:} :}!" = B "World!".
Proof. split; vm_compute; reflexivity. Qed.
Example C50_example :
  trace_of (env_cache 100 160) (with_context [(B "POST", JObj [(B "a", JStr (B "1"))])] "{:cache; /60/ >> x :}") = [].
Proof. vm_compute. reflexivity. Qed.

(** Two requests whose GET and COOKIES are exchanged have the same entry, whatever the digest. *)
Theorem C49_refuted : forall env, exists s s' i id x code l l',
  cache_parts env s s i id x code l /\ cache_parts env s' s' i id x code l' /\
  request s (B "GET") <> request s' (B "GET") /\ request s (B "COOKIES") <> request s' (B "COOKIES") /\
  s.(cfg) = s'.(cfg) /\ entry_file env s (concat l) x = entry_file env s' (concat l') x.
Proof.
  intro env. set (v := JObj [(B "user", JStr (B "1"))]).
  set (st := fun k => set_schema (JObj [(B "data", JObj [(B "CONTEXT", JObj [(k, v)])])]) t0.(t_shared)).
  exists (st (B "GET")), (st (B "COOKIES")), inherit_new, [], (B "60"), (B "page").
  eexists _, _. split; [|split].
  - apply (cp_parts env _ _ _ _ _ _ [] (e_to_string env v) []).
    + apply rq_none. intro H. apply H. left. reflexivity.
    + apply (rq_some env (st (B "GET")) (st (B "GET")) (B "GET")). unfold has_request, empty_value. vm_compute. intuition discriminate.
    + apply rq_none. intro H. apply H. left. reflexivity.
  - apply (cp_parts env _ _ _ _ _ _ [] [] (e_to_string env v)).
    + apply rq_none. intro H. apply H. left. reflexivity.
    + apply rq_none. intro H. apply H. left. reflexivity.
    + apply (rq_some env (st (B "COOKIES")) (st (B "COOKIES")) (B "COOKIES")). unfold has_request, empty_value. vm_compute. intuition discriminate.
  - split; [vm_compute; discriminate|]. split; [vm_compute; discriminate|]. split; reflexivity.
Qed.
Print Assumptions C49_refuted.
Example C49_refuted_example :
  trace_of (env_cache 100 160) (with_context [(B "GET", JObj [(B "user", JStr (B "1"))])] "{:cache; /60/ >> x :}") =
  trace_of (env_cache 100 160) (with_context [(B "COOKIES", JObj [(B "user", JStr (B "1"))])] "{:cache; /60/ >> x :}") /\
  trace_of (env_cache 100 160) (with_context [(B "GET", JObj [(B "user", JStr (B "1"))])] "{:cache; /60/ >> x :}") <> [].
Proof. split; vm_compute; [reflexivity|discriminate]. Qed.

(** the hypotheses of C49_separate are met: two hosts, and a digest that tells them apart *)
Definition env_digest (one : bytes) : Env :=
  mkEnv (fun s => s) (fun s => if beq s one then B "aaaa" else B "bbbb") (fun s => s) (fun _ => inl (JObj [])) (fun _ => B "{..}")
        (fun _ => B "{}") (fun a _ => a) (fun _ => None) (fun _ s => Some s) (B "/cwd") (B "/tmp")
        (fun _ _ => true) (fun _ _ => true) (fun _ p => Some p) (fun _ _ => Some (B "stored")) (fun _ _ => [])
        (fun _ _ => None) (fun _ _ => None) (fun _ _ _ => None) (fun _ _ => Some 100%N) (fun _ _ => Some 0%N)
        (fun _ => 150%N) (fun _ => B "now") (fun _ lo _ => lo) (fun _ => B "0123456789abcdef")
        (fun _ _ => inl (JObj [])) (fun _ _ => inl (JObj [])).
Definition started_with (ctx : obj) : Shared :=
  match init_render (env_digest []) (with_context ctx "") with IOk _ s _ => s | IPanic _ => t_shared t0 end.
Example C49_separate_example : exists one l l' s2 s2',
  keyed_cache (env_digest one) (started_with [(B "HOST", JStr (B "a"))]) inherit_new (B " /60/ >> x ") [] (started (started_with [(B "HOST", JStr (B "a"))])) l s2 /\
  keyed_cache (env_digest one) (started_with [(B "HOST", JStr (B "b"))]) inherit_new (B " /60/ >> x ") [] (started (started_with [(B "HOST", JStr (B "b"))])) l' s2' /\
  one_differs l l' /\ e_sha256 (env_digest one) (concat l) <> e_sha256 (env_digest one) (concat l').
Proof.
  exists (B "en60ax"). set (one := B "en60ax"). eexists _, _, _, _. split; [|split; [|split]].
  - eapply (kc_run _ _ _ _ _ _ _ _ [[]; B "60"; []] (B "60")).
    + unfold may_start. vm_compute. discriminate.
    + left. reflexivity.
    + intro HO; apply contains_iff in HO; vm_compute in HO; discriminate.
    + intro HO. apply (bypass_iff (started_with _)) in HO. vm_compute in HO. discriminate.
    + split; vm_compute; eexists; reflexivity.
    + eexists. vm_compute. reflexivity.
    + eapply ar_cons; [reflexivity|]. eapply ar_cons; [reflexivity|]. eapply ar_cons; [reflexivity|]. apply ar_nil.
    + reflexivity.
    + intros (v & E & _). discriminate.
    + apply cp_parts; apply rq_none; intro H; apply H; vm_compute; tauto.
    + vm_compute. reflexivity.
  - eapply (kc_run _ _ _ _ _ _ _ _ [[]; B "60"; []] (B "60")).
    + unfold may_start. vm_compute. discriminate.
    + left. reflexivity.
    + intro HO; apply contains_iff in HO; vm_compute in HO; discriminate.
    + intro HO. apply (bypass_iff (started_with _)) in HO. vm_compute in HO. discriminate.
    + split; vm_compute; eexists; reflexivity.
    + eexists. vm_compute. reflexivity.
    + eapply ar_cons; [reflexivity|]. eapply ar_cons; [reflexivity|]. eapply ar_cons; [reflexivity|]. apply ar_nil.
    + reflexivity.
    + intros (v & E & _). discriminate.
    + apply cp_parts; apply rq_none; intro H; apply H; vm_compute; tauto.
    + vm_compute. reflexivity.
  - eexists [_; _; _; _; _; _], _, _, [_; _]. split; [reflexivity|]. split; [reflexivity|]. vm_compute. discriminate.
  - vm_compute. discriminate.
Qed.
(** a change of the host alone leads to another file *)
Example C49_example :
  trace_of (env_cache 100 160) (with_context [(B "HOST", JStr (B "a"))] "{:cache; /60/ >> x :}") <>
  trace_of (env_cache 100 160) (with_context [(B "HOST", JStr (B "b"))] "{:cache; /60/ >> x :}").
Proof. vm_compute. discriminate. Qed.

(** ** !cache: inside a cache it is kept as it is, outside it is evaluated in place *)
Theorem C66_kept : forall env s i mods body only, Forall modifier mods ->
  ~ In "&"%char mods -> In "!"%char mods -> ~ In "+"%char mods ->
  may_start s -> selected only i mods (B "cache") -> ~ occurs (B "{:flg;") (params_of body) -> i.(in_cache) = true ->
  eval_bif env s i (bif_text mods (B "cache") body) only =
  finished mods (bif_text mods (B "cache") body) (started s) (started_in s i).
Proof.
  intros env s i mods body only HM HA HG HU HS HO HF HI. rewrite eval_bif_text by (assumption || plain).
  change (dispatch env ?r (B "cache")) with (bif_cache env r). unfold bif_cache, entry.
  rewrite bind_reject by (proj; allowed).
  erewrite bind_done by (apply run_extract_raw; reflexivity).
  rewrite bind_getB, bind_getI, bind_getS. proj. rewrite (contains_no _ _ HF), (has_mod_true _ _ HG).
  change (in_cache (started_in s i)) with (in_cache i). rewrite HI. apply result_done; reflexivity.
Qed.
Print Assumptions C66_kept.
Theorem C66_evaluated : forall env s i mods body only, Forall modifier mods ->
  ~ In "&"%char mods -> In "!"%char mods -> ~ In "+"%char mods ->
  may_start s -> selected only i mods (B "cache") -> ~ occurs (B "{:flg;") (params_of body) -> i.(in_cache) = false ->
  eval_bif env s i (bif_text mods (B "cache") body) only =
  and_then (eval_nested env (B "cache") (started s) (started_in s i) (code_of body) only) (finished mods).
Proof.
  intros env s i mods body only HM HA HG HU HS HO HF HI. rewrite eval_bif_text by (assumption || plain).
  change (dispatch env ?r (B "cache")) with (bif_cache env r). unfold bif_cache, entry.
  rewrite bind_reject by (proj; allowed). pose proof (room_started s) as HR.
  erewrite bind_done by (apply run_extract_raw; reflexivity).
  rewrite bind_getB, bind_getI, bind_getS. proj. rewrite (contains_no _ _ HF), (has_mod_true _ _ HG), (has_mod_false _ _ HU).
  change (in_cache (started_in s i)) with (in_cache i). rewrite HI.
  unfold bind at 1. rewrite child_nested by (exact HR || reflexivity). proj.
  destruct (eval_nested env (B "cache") (started s) (started_in s i) (code_of body) only) as [o s2 i2|q|]; [|reflexivity|reflexivity].
  cbn [onto and_then]. apply result_done; reflexivity.
Qed.
Print Assumptions C66_evaluated.
Example C66_example :
  output_in env0 "{:cache; /60/ >> {:;name:}{:!cache; {:;num:} :} :}{:!cache; {:;num:} :}" = B "World77" /\
  existsb (fun e => match e with EvWrite _ c None => beq c (B "World{:!cache; {:;num:} :}") | _ => false end)
    (trace_in env0 "{:cache; /60/ >> {:;name:}{:!cache; {:;num:} :} :}{:!cache; {:;num:} :}") = true.
Proof. split; vm_compute; reflexivity. Qed.
