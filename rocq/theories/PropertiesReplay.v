(** * C91: the bif limit only stops evaluations.  C92: a render depends on the world through its interactions only *)

From Verif Require Import Bytes Json Utils ConstantsGen State Engine Template Spec SpecEngine SpecReplay BytesFacts TemplateProofs ReplayProofs
  PropertiesEngine Samples.

Lemma in_world_self env : in_world env env = env.
Proof. destruct env. reflexivity. Qed.
Lemma raised_none s : raised 0 s = s.
Proof. destruct s as [a b c d e f g h i j l m n o]. destruct o. unfold raised, raise_cfg. cbn. rewrite N.add_0_r. reflexivity. Qed.
Lemma over_self env t t1 P : over env env t t1 P -> P.
Proof. intros (l & _ & H1 & H2). apply H2. exact H1. Qed.

(** ** C91 *)

(** What succeeds with a limit gives the same result with any larger one. *)
Theorem C91_larger_limit : forall env more s i source only o s' i',
  parse env s i source only = BOk o s' i' -> parse env (raised more s) i source only = BOk o (raised more s') i'.
Proof.
  intros env k s i source only o s' i' H. pose proof (brel_parse env env k s i source only) as R. rewrite H, in_world_self in R. cbn [brel] in R.
  exact (over_self _ _ _ _ R).
Qed.
Print Assumptions C91_larger_limit.

(** With a smaller limit an evaluation gives the same result (also the same panic) or is stopped by the limit. *)
Theorem C91_smaller_limit : forall env more s i source only,
  (exists o s' i', parse env s i source only = BOk o s' i' /\ parse env (raised more s) i source only = BOk o (raised more s') i') \/
  (exists p, parse env s i source only = BPanic p /\ parse env (raised more s) i source only = BPanic p) \/
  parse env s i source only = BPanic PBifLimit.
Proof.
  intros env k s i source only. pose proof (brel_parse env env k s i source only) as R. rewrite in_world_self in R.
  destruct (C26_parse_ends env s i source only) as [(o & s' & i' & E)|(p & E)]; rewrite E in R; cbn [brel] in R.
  - left. exists o, s', i'. split; [exact E|]. exact (over_self _ _ _ _ R).
  - right. destruct (R eq_refl) as [->|R2]; [right; exact E|left; exists p; split; assumption].
Qed.
Print Assumptions C91_smaller_limit.

(** For a whole page: from the state in which a render starts, through all its rounds, to the text returned. *)
Theorem C91_page : forall env fuel more s i source o1 s1 i1 o2 s2 page,
  top_parse env s i source [] = BOk o1 s1 i1 -> cache_rounds env fuel s1 i o1 = ROk o2 s2 -> ends_render s2 o2 = Some page ->
  exists i1', top_parse env (raised more s) i source [] = BOk o1 (raised more s1) i1' /\
    cache_rounds env fuel (raised more s1) i o1 = ROk o2 (raised more s2) /\ ends_render (raised more s2) o2 = Some page.
Proof.
  intros env fuel k s i source o1 s1 i1 o2 s2 page H1 H2 H3.
  pose proof (brel_top env env k s i source []) as R. rewrite H1, in_world_self in R. cbn [brel] in R. apply over_self in R.
  pose proof (rounds_replay env env k i fuel s1 o1 o2 s2 H2) as R2. rewrite in_world_self in R2. apply over_self in R2.
  exists i1. split; [exact R|]. split; [exact R2|]. exact H3.
Qed.
Print Assumptions C91_page.

Example C91_example :
  let (s, i) := start_of "{:for; n 1..3 >> {:;n:} :}" in
  let s1 := mkShared (schema s) (indir_store s) 0 [] false false (B "200") (B "OK") [] [] false [] []
              (mkCfg (B "en") [] 3 false true [] (B "/tmp") false false false false false 0 [] (B "/cwd")) in
  parse env0 s1 i (B "{:for; n 1..3 >> {:;n:} :}") [] = BPanic PBifLimit /\
  match parse env0 (raised 1 s1) i (B "{:for; n 1..3 >> {:;n:} :}") [] with BOk o _ _ => o = B "123" | _ => False end /\
  match parse env0 (raised 9 s1) i (B "{:for; n 1..3 >> {:;n:} :}") [] with BOk o _ _ => o = B "123" | _ => False end.
Proof. vm_compute. auto. Qed.

(** ** C92 *)
Lemma render_replay env w fuel t o t' : render env fuel t = TOk o t' ->
  over env w t.(t_shared).(strace) t'.(t_shared).(strace) (render (in_world env w) fuel t = TOk o t').
Proof.
  intro H. destruct (contains BIF_OPEN (t_raw t)) eqn:EC.
  - assert (occurs (B "{:") (t_raw t)) as HO by (apply contains_iff; exact EC).
    apply render_inv in H as (raw & s & i & o1 & s1 & i1 & o2 & s2 & E1 & E2 & E3 & E4 & ->); [|exact HO]. cbn [t_shared].
    assert (init_render (in_world env w) t = IOk raw s i) as E1' by exact E1.
    assert (s.(strace) = t.(t_shared).(strace)) as ET.
    { pose proof (init_facts _ _ _ _ _ E1) as F. destruct (in_new _ _ _ _ _ F) as (s0 & EN & ES).
      rewrite ES. cbn. unfold shared_new in EN. destruct (as_u64 _); [|discriminate]. destruct (as_u64 _); [|discriminate].
      injection EN as <-. reflexivity. }
    pose proof (brel_top env w 0 s i raw []) as R. rewrite E2, !raised_none in R. cbn [brel] in R.
    pose proof (rounds_replay env w 0 i fuel s1 o1 o2 s2 E3) as R2. rewrite !raised_none in R2.
    rewrite <- ET. eapply over_impl; [|exact (over_trans _ _ _ _ _ _ _ R R2)]. intros [A1 A2].
    unfold render. rewrite EC. cbn [negb]. rewrite E1'. cbv beta iota. rewrite A1. cbv beta iota. rewrite raised_none, A2. cbv beta iota. rewrite E4. reflexivity.
  - unfold render in *. rewrite EC in *. cbn [negb] in *. injection H as <- <-. apply over_refl. reflexivity.
Qed.

(** Every interaction is recorded, with the answer that was given. *)
Theorem C92_recorded : forall env fuel t o t', render env fuel t = TOk o t' ->
  exists new, t'.(t_shared).(strace) = new ++ t.(t_shared).(strace) /\ replays env env new t.(t_shared).(strace).
Proof.
  intros env fuel t o t' H. destruct (render_replay env env fuel t o t' H) as (l & E & R & _). exists l. split; assumption.
Qed.
Print Assumptions C92_recorded.

(** In any world that gives the recorded answers, the render has the same result: the same page, status, errors, and the same
    interactions again. *)
Theorem C92_replay : forall env w fuel t o t' new, render env fuel t = TOk o t' ->
  t'.(t_shared).(strace) = new ++ t.(t_shared).(strace) -> replays env w new t.(t_shared).(strace) ->
  render (in_world env w) fuel t = TOk o t'.
Proof.
  intros env w fuel t o t' new H E R. destruct (render_replay env w fuel t o t' H) as (l & E2 & _ & P).
  rewrite E2 in E. apply app_inv_tail in E. subst l. apply P. exact R.
Qed.
Print Assumptions C92_replay.

(** Files that the render does not ask about have no influence on it. *)
Theorem C92_other_files : forall U env w fuel t o t' new, render env fuel t = TOk o t' ->
  t'.(t_shared).(strace) = new ++ t.(t_shared).(strace) -> differ_at U env w ->
  (forall e p, In e new -> path_of e = Some p -> ~ U p) ->
  render (in_world env w) fuel t = TOk o t'.
Proof.
  intros U env w fuel t o t' new H E D N. destruct (render_replay env w fuel t o t' H) as (l & E2 & R & P).
  rewrite E2 in E. apply app_inv_tail in E. subst l. apply P. intros later e before ->.
  specialize (R later e before eq_refl). assert (forall p, path_of e = Some p -> ~ U p) as NP.
  { intros p HP. apply (N e p); [apply in_or_app; right; left; reflexivity|exact HP]. }
  destruct e; cbn [answers path_of] in *; try (specialize (NP _ eq_refl)).
  - rewrite (da_exists _ _ _ D) by exact NP. exact R.
  - rewrite (da_is_file _ _ _ D) by exact NP. exact R.
  - rewrite (da_canon _ _ _ D) by exact NP. exact R.
  - destruct R as [R _]. split; [rewrite (da_read _ _ _ D) by exact NP; exact R|]. intros _. apply (da_read_err _ _ _ D). exact NP.
  - rewrite (da_mkdir _ _ _ D) by exact NP. exact R.
  - rewrite (da_create _ _ _ D) by exact NP. exact R.
  - rewrite (da_write _ _ _ D) by exact NP. exact R.
  - rewrite (da_mtime _ _ _ D) by exact NP. exact R.
  - rewrite (da_age _ _ _ D) by exact NP. exact R.
  - rewrite (da_now _ _ _ D). exact R.
  - rewrite (da_local_now _ _ _ D). exact R.
  - rewrite (da_rand _ _ _ D). exact R.
  - rewrite (da_rand_bytes _ _ _ D). exact R.
  - rewrite (da_python _ _ _ D). exact R.
  - rewrite (da_php _ _ _ D). exact R.
Qed.
Print Assumptions C92_other_files.

(** A page without any interaction is the same in every world. *)
Theorem C92_pure : forall env w fuel t o t', render env fuel t = TOk o t' ->
  t'.(t_shared).(strace) = t.(t_shared).(strace) -> render (in_world env w) fuel t = TOk o t'.
Proof.
  intros env w fuel t o t' H E. apply (C92_replay env w fuel t o t' [] H E). apply replays_nil.
Qed.
Print Assumptions C92_pure.

Example C92_example :
  (* "/f.ntpl" and "/g.ntpl" exist in env1 but not in env0: only the first page depends on it *)
  output_in env1 "{:include; /f.ntpl :}" = B "[World]" /\ output_in (in_world env1 env0) "{:include; /f.ntpl :}" = [] /\
  trace_in env1 "{:;name:}" = [] /\ output_in (in_world env1 env0) "{:;name:}" = B "World" /\
  map path_of (trace_in env1 "{:include; /f.ntpl :}") = [Some (B "/f.ntpl"); Some (B "/f.ntpl"); Some (B "/f.ntpl")].
Proof. vm_compute. auto. Qed.
