(** * Property theorems: interactions with the outside world *)

From Verif Require Import Bytes Json Utils ConstantsGen State Engine Template Spec SpecEngine BytesFacts
  TemplateProofs FrameProofs FrameRun EngineFrames TraceProofs Samples.

(** ** C67: what a render reads, writes and executes *)
Lemma tok_rendered env t raw s i s1 i1 o1 fuel o2 s2 : init_render env t = IOk raw s i ->
  top_parse env s i raw [] = BOk o1 s1 i1 -> cache_rounds env fuel s1 i o1 = ROk o2 s2 ->
  exists new, s2.(strace) = new ++ t.(t_shared).(strace) /\ disciplined s2.(cfg) new.
Proof.
  intros E1 E2 E3. pose proof (init_facts _ _ _ _ _ E1) as F. destruct (in_new _ _ _ _ _ F) as (s0 & EN & ES).
  assert (s.(strace) = t.(t_shared).(strace)) as ET.
  { rewrite ES. cbn. unfold shared_new in EN. destruct (as_u64 _); [|discriminate]. destruct (as_u64 _); [|discriminate].
    injection EN as <-. reflexivity. }
  set (tr := strace (t_shared t)) in *.
  assert (JS tr (cfg s) [] s) as H0.
  { split; [reflexivity|]. exists []. split; [exact ET|]. split; [apply disciplined_nil|apply incl_refl]. }
  pose proof (tok_top env tr (cfg s) [] s i raw [] H0) as H1. rewrite E2 in H1. cbn in H1.
  pose proof (tok_rounds env tr (cfg s) [] i fuel s1 o1 o2 s2 H1 E3) as [HC (new & EN2 & D & _)].
  exists new. split; [exact EN2|]. rewrite HC. exact D.
Qed.

Theorem C67_render : forall env rounds t o t', render env rounds t = TOk o t' ->
  exists new, t'.(t_shared).(strace) = new ++ t.(t_shared).(strace) /\ disciplined t'.(t_shared).(cfg) new.
Proof.
  intros env rounds t o t' H. destruct (contains BIF_OPEN (t_raw t)) eqn:EC.
  - apply render_inv in H as (raw & s & i & o1 & s1 & i1 & o2 & s2 & E1 & E2 & E3 & _ & ->); [|apply contains_iff; exact EC].
    eapply tok_rendered; eassumption.
  - unfold render in H. rewrite EC in H. cbn [negb] in H. injection H as <- <-. exists [].
    split; [reflexivity|apply disciplined_nil].
Qed.
Print Assumptions C67_render.
Theorem C67_render_once : forall env rounds t o t', render_once env rounds t = TOk o t' ->
  exists new, t'.(t_shared).(strace) = new ++ t.(t_shared).(strace) /\ disciplined t'.(t_shared).(cfg) new.
Proof.
  intros env rounds t o t' H. destruct (contains BIF_OPEN (t_raw t)) eqn:EC.
  - unfold render_once in H. rewrite EC in H. cbn [negb] in H.
    change (init_render_once env t) with (init_render env t) in H.
    destruct (init_render env t) as [raw s i|p] eqn:E1; [|discriminate].
    destruct (top_parse env s i raw []) as [o1 s1 i1|p|] eqn:E2; [|discriminate|discriminate].
    destruct (cache_rounds env rounds s1 i o1) as [o2 s2|p|] eqn:E3; [|discriminate|discriminate].
    destruct (ends_render s2 o2); [|discriminate]. injection H as <- <-. cbn [t_shared].
    eapply tok_rendered; eassumption.
  - unfold render_once in H. rewrite EC in H. cbn [negb] in H. injection H as <- <-. exists [].
    split; [reflexivity|apply disciplined_nil].
Qed.
Print Assumptions C67_render_once.

(** In particular: what is written is below the cache directory, and nothing is written, made or created when the cache is
    disabled. *)
Lemma disciplined_later c e t later : disciplined c (later ++ e :: t) -> disciplined c t.
Proof. intros D l e' b ->. apply (D (later ++ e :: l) e' b). rewrite <- app_assoc. reflexivity. Qed.
Lemma disciplined_in c t e : disciplined c t -> In e t -> exists later before, t = later ++ e :: before /\ permitted c before e /\ disciplined c before.
Proof.
  intros D H. apply in_split in H as (l & b & ->). exists l, b. split; [reflexivity|]. split; [exact (D l e b eq_refl)|].
  eapply disciplined_later. exact D.
Qed.
Theorem C67_writes : forall c t p content r, disciplined c t -> In (EvWrite p content r) t ->
  c.(cache_disable) = false /\ exists rest, p = c.(cache_dir) ++ B "/" ++ rest.
Proof.
  intros c t p content r D H. apply disciplined_in with (2 := H) in D as (l & b & _ & HP & D). cbn [permitted] in HP.
  apply disciplined_in with (2 := HP) in D as (l1 & b1 & _ & HP1 & D1). cbn [permitted] in HP1.
  destruct HP1 as (d & f & HD & -> & HM).
  apply disciplined_in with (2 := HM) in D1 as (l2 & b2 & _ & [HC _] & _).
  split; [exact HC|]. destruct HD as (h & _ & ->). destruct (cache_prefix c) as [|x y].
  - exists (h ++ B "/" ++ f). rewrite <- !app_assoc. reflexivity.
  - exists ((x :: y) ++ B "/" ++ h ++ B "/" ++ f). rewrite <- !app_assoc. reflexivity.
Qed.
Print Assumptions C67_writes.
Example C67_example :
  match trace_in env1 "{:include; /f.ntpl :}{:cache; /60/ >> x :}" with
  | [EvExists f1 true; EvCanon _ _; EvRead f2 (Some _); EvExists _ false; EvMkdir d None; EvCreate f None; EvWrite f' c None] =>
      beq f1 (B "/f.ntpl") && beq f2 f1 && beq d (B "/tmp/neutral-cache/abc") && beq f f' && starts_with (d ++ B "/abc") f && beq c (B "x")
  | _ => false
  end = true.
Proof. vm_compute. reflexivity. Qed.
