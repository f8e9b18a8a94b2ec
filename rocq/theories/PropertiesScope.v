(** * Property theorems: scopes, termination *)

From Coq Require Import Wellfounded.
From Verif Require Import Bytes Json Utils ConstantsGen State Engine Template Spec SpecEngine BytesFacts EscapeProofs TextProofs
  BlockProofs TemplateProofs InertProofs FrameProofs FrameRun EngineFrames MoreFrames EvalProofs KeepProofs HandlerProofs Samples
  PropertiesVars PropertiesEngine PropertiesBifs PropertiesLoops.

(** ** C30: '+' *)
(** What is defined at the end of the content is what the following bifs of the level see. *)
Theorem C30_exported : forall env al s i src only o s' i', level_ok s i ->
  eval_scoped env al s i src only = BOk o s' i' ->
  exists s2 i2, parse env (fst (create_block_schema s i)) (inside al i) src only = BOk o s2 i2 /\
    visible s' i' = visible s2 i2 /\ level_ok s' i'.
Proof.
  intros env al s i src only o s' i' [H1 HL] H. unfold eval_scoped in H.
  pose proof (f_H_create _ _ _ _ (local_frame env) s i HL) as HC.
  pose proof (FrameProofs.create_own s i) as HO.
  destruct (create_block_schema s i) as [s1 i1]. cbn [fst snd] in *. subst i1.
  destruct HC as (C1 & C2 & C3).
  assert (at_level s1 (indir (inside al i)) (block_count (inside al i))) as HE.
  { destruct C2 as [(k & Hk & E) N]. split; [exists k; split; [cbn; lia|exact E]|exact N]. }
  pose proof (parse_ok env _ _ _ (local_frame env) s1 (inside al i) src only HE) as G.
  destruct (parse env s1 (inside al i) src only) as [o2 s2 i2|q|] eqn:EP; [|discriminate|discriminate]. cbn [indir iset_indir] in H.
  destruct G as (G1 & G2 & G3).
  exists s2, i2. assert (o2 = o) as -> by congruence. split; [reflexivity|].
  assert (s' = drop_block (update_indir s2 (indir i2) (own_id (block_count i))) i2 /\ i' = iset_indir (own_id (block_count i)) i) as [-> ->]
    by (split; congruence). clear H.
  destruct G1 as [G0 GN]. destruct (oget (indir i2) (indir_store s2)) as [v|] eqn:EV; [|congruence].
  set (c := block_count i) in *. assert (own_id c = block_id c) as EO by (rewrite own_id_max; f_equal; lia).
  assert (oget (own_id c) (indir_store (drop_block (update_indir s2 (indir i2) (own_id c)) i2)) = Some v) as EF.
  { unfold update_indir. rewrite EV. unfold drop_block. rewrite G3. change (block_count (inside al i)) with (c + 1)%N.
    destruct (_ && _); cbn [indir_store set_indir_store]; rewrite ?oget_oremove, oget_oset, beq_refl; [|reflexivity].
    rewrite EO, block_ne by lia. reflexivity. }
  split.
  - unfold visible, get_indir. cbn [indir iset_indir]. rewrite EF, EV. reflexivity.
  - split; [exact H1|]. cbn [indir iset_indir block_count]. split.
    + exists c. split; [lia|exact EO].
    + rewrite EF. discriminate.
Qed.
Print Assumptions C30_exported.

(** The content starts with what is visible to the bif. *)
Theorem C30_starts : forall al s i, level_ok s i -> visible (fst (create_block_schema s i)) (inside al i) = visible s i.
Proof.
  intros al s i [H1 [_ HL]]. unfold visible, create_block_schema. cbn [fst indir inside iset_block_count iset_alias].
  destruct (beq_spec (indir i) (if (block_count i <? 1)%N then B "block_1" else block_id (block_count i))) as [E|N]; [reflexivity|].
  destruct (oget (indir i) (indir_store s)) as [v|] eqn:EV; [|reflexivity].
  unfold get_indir. cbn [indir_store set_indir_store]. rewrite oget_oset.
  apply beq_neq in N. rewrite N. reflexivity.
Qed.
Print Assumptions C30_starts.

(** For instance {:+code; ... :}: the bifs after it see what its content has defined. *)
Theorem C30_code : forall env s i mods body only p s1 o s' i', Forall modifier mods -> ~ In "&"%char mods -> ~ In "!"%char mods ->
  In "+"%char mods -> may_start s -> selected only i mods (B "code") ->
  prepared env (B "code") (started s) (started_in s i) only body p [] s1 -> occurs (B "{:") (code_of body) ->
  level_ok s1 (started_in s i) ->
  eval_bif env s i (bif_text mods (B "code") body) only = BOk o s' i' ->
  exists w s2 i2, parse env (fst (create_block_schema s1 (started_in s i))) (inside (B "code") (started_in s i)) (code_of body) only = BOk w s2 i2 /\
    visible s' i' = visible s2 i2 /\ level_ok s' i'.
Proof.
  intros env s i mods body only p s1 o s' i' HM HA HG HU HS HO HP HC HL H.
  pose proof (code_run env s i mods body only p [] s1 HM HA HG HS HO HP) as E. cbv zeta in E.
  rewrite E in H by (intros f [<-|[]]; left; reflexivity). clear E.
  change (flagged (B "safe") []) with false in H. change (flagged (B "noparse") []) with false in H.
  change (flagged (B "encode_tags") []) with false in H. change (flagged (B "encode_bifs") []) with false in H.
  change (flagged (B "encode_tags_after") []) with false in H. cbv iota in H. unfold eval_code in H.
  rewrite (contains_yes _ _ HC), (has_mod_true _ _ HU) in H.
  destruct (eval_scoped env (B "code") s1 (started_in s i) (code_of body) only) as [w s2 i2|q|] eqn:ES; [|discriminate|discriminate].
  cbn [and_then] in H. unfold finished in H. assert (s' = s2 /\ i' = iset_last (negb (is_empty w)) i2) as [-> ->] by (split; congruence).
  destruct (C30_exported _ _ _ _ _ _ _ _ _ HL ES) as (s3 & i3 & E1 & E2 & E3).
  exists w, s3, i3. split; [exact E1|]. split; [exact E2|exact E3].
Qed.
Print Assumptions C30_code.

Example C30_example :
  output_of "{:code; {:+code; {:param; x >> hi :} :}[{:param; x :}]{:code; {:param; x >> ho :} :}[{:param; x :}] :}" = B "[hi][hi]" /\
  output_of "{:+bool; name >> {:+code; {:param; x >> hi :} :} :}[{:param; x :}]" = B "[hi]".
Proof. split; vm_compute; reflexivity. Qed.

(** ** C27: termination *)
Lemma eval_bif_count env s i text only o s' i' : eval_bif env s i text only = BOk o s' i' ->
  (bisf_count s < bisf_count s')%N /\ later s s'.
Proof.
  unfold eval_bif, bif_run. destruct (bisf_max (cfg s) <? bisf_count s + 1)%N eqn:E; [discriminate|]. intro H.
  pose proof (okb_parse env _ _ _ (trivial_frame env) (enough_fuel s) _ (run_blocks_ok env _ _ _ (trivial_frame env) (enough_fuel s)) mFree
     (set_bisf_count (bisf_count s + 1) s) (iset_bif_count (bisf_count s + 1) i) text only (or_introl eq_refl) I (room_started s)) as G.
  rewrite H in G. destruct G as (_ & G & _). split; [|eapply later_trans; [apply later_count|exact G]].
  destruct G as (_ & G & _). cbn in G. lia.
Qed.
Lemma evaluates_later env only l s i o s' i' fin : evaluates (fun s i t => eval_bif env s i t only) l s i o s' i' fin -> later s s'.
Proof.
  intro H. induction H as [| | | |? ? ? ? ? ? ? ? ? ? ? ? ? ? ? H1]; try apply later_refl; try assumption.
  eapply later_trans; [|eassumption]. eapply eval_bif_count; exact H1.
Qed.
Lemma evaluates_progress env only l s i o s' i' fin :
  evaluates (fun s i t => eval_bif env s i t only) l s i o s' i' fin -> ~ decided i -> s.(exit) = false ->
  (bisf_count s < bisf_count s')%N \/ o = literal l.
Proof.
  intros H. induction H as [t s i|t b l s i HE|t b l s i o s' i' fin HE HM HR IH|t b l s i o s' i' fin HE HM HD HR IH|t b l s i o1 s1 i1 o s' i' fin HE HM HD H1 HR IH]; intros ND NE.
  - right. cbn. rewrite app_nil_r. reflexivity.
  - congruence.
  - destruct (IH ND NE) as [IH2|IH2]; [left; exact IH2|right]. rewrite IH2. reflexivity.
  - contradiction.
  - left. clear IH. apply eval_bif_count in H1 as [H1 _]. apply evaluates_later in HR as (_ & HR & _). lia.
Qed.
Lemma literal_shorter l : (forall b, In (SBlock b) l -> b <> []) -> has_block l -> length (literal l) < length (concat (map segment_text l)).
Proof.
  intros HB [t Ht]. revert HB Ht.
  assert (forall l, length (literal l) <= length (concat (map segment_text l))) as HLe.
  { intro k. induction k as [|[x|x] k IH]; [cbn; lia| |]; cbn [literal flat_map map concat segment_text]; change (flat_map _ k) with (literal k); rewrite !app_length; cbn [length]; lia. }
  induction l as [|[x|x] l IH]; intros HB Ht; [destruct Ht| |]; cbn [literal flat_map map concat segment_text]; change (flat_map _ l) with (literal l); rewrite !app_length; cbn [length].
  - destruct Ht as [Ht|Ht]; [discriminate|]. specialize (IH (fun b Hb => HB b (or_intror Hb)) Ht). lia.
  - specialize (HLe l). assert (x <> []) as Hx by (apply HB; left; reflexivity). destruct x; [congruence|]. cbn [length]. lia.
Qed.
Lemma trim_shorter o : trim o = o \/ length (trim o) < length o.
Proof.
  destruct (trim_trimmed o) as [(p & q & E & _) _]. destruct (list_eq_dec ascii_dec (trim o) o) as [H|H]; [left; exact H|right].
  assert (length o = length p + (length (trim o) + length q)) as EL by (rewrite E at 1; rewrite !app_length; lia).
  destruct p as [|c p]; [|cbn in EL; lia]. destruct q as [|c q]; [|cbn in EL; lia].
  exfalso. apply H. rewrite E at 2. cbn. rewrite app_nil_r. reflexivity.
Qed.
Lemma evaluates_only run t s i o s' i' fin : evaluates run [SText t] s i o s' i' fin -> o = t /\ s' = s /\ i' = i /\ fin = true.
Proof. inversion 1; subst; auto. Qed.
Lemma evaluates_stopped run t b l s i o s' i' fin : evaluates run (SText t :: SBlock b :: l) s i o s' i' fin -> exit s = true -> o = [] /\ fin = false.
Proof. inversion 1; subst; intro E; try congruence. auto. Qed.
(** a pass either starts a bif, or shortens the content, or changes nothing *)
Lemma pass_progress env s i o o' s' i' : last_coalesce_out i = false -> block_count i = 0%N -> occurs (B "{:!cache;") o ->
  top_parse env s i o (B "!cache") = BOk o' s' i' ->
  (bisf_count s < bisf_count s')%N \/ length o' < length o \/ (o' = o /\ s' = s /\ unclosed_cache o).
Proof.
  intros HI HN HO H. unfold top_parse in H. set (ci := iset_block_count (block_count i + 1) i) in *.
  destruct (parse env s ci o (B "!cache")) as [o1 s1 i1|q|] eqn:EP; [|discriminate|discriminate].
  assert (o1 = o' /\ s' = drop_block s1 i1) as [-> ->] by (split; congruence). clear H.
  assert (bisf_count (drop_block s1 i1) = bisf_count s1) as -> by (destruct (drop_store s1 i1) as [x ->]; reflexivity).
  assert (0 < length o) as HO0 by (destruct HO as (u & v & ->); rewrite !app_length; cbn; lia).
  destruct (extract_blocks o) as [bl|p] eqn:EB.
  2:{ right. left. unfold parse, parse_fuel, block_parse in EP. rewrite EB in EP. assert (o' = []) as -> by congruence. exact HO0. }
  apply (parse_evaluates env s ci o (B "!cache") bl o' s1 i1 EB) in EP as (w & fin & HE & ->).
  destruct bl as [|b bl].
  - cbn [segments skipn] in HE. apply evaluates_only in HE as (-> & -> & -> & ->). destruct (trim_shorter o) as [ET|ET]; [|right; left; exact ET].
    right. right. rewrite ET. split; [reflexivity|]. split; [|split; [exact HO|split; [exact EB|exact ET]]].
    unfold drop_block. change (block_count ci) with (block_count i + 1)%N. rewrite HN. reflexivity.
  - destruct (exit s) eqn:EX.
    + right. left. destruct b as [a z]. cbn [segments] in HE. apply evaluates_stopped in HE as [-> ->]; [exact HO0|exact EX].
    + destruct (C46_segments o (b :: bl) EB) as (E1 & _ & E3).
      destruct (evaluates_progress _ _ _ _ _ _ _ _ _ HE) as [HC|HL]; [intros [HD _]; change (last_coalesce_out ci) with (last_coalesce_out i) in HD; congruence|exact EX|left; exact HC|].
      right. left. assert (length w < length o) as HW.
      { rewrite HL. rewrite <- E1 at 2. apply literal_shorter.
        - intros x Hx. destruct (E3 x Hx) as [u ->]. discriminate.
        - destruct b as [a z]. exists (slice a z o). cbn [segments]. right. left. reflexivity. }
      destruct fin; [|exact HW]. pose proof (trim_length w). lia.
Qed.

Lemma top_parse_facts env s i o only o' s' i' : in_budget s -> top_parse env s i o only = BOk o' s' i' -> later s s' /\ in_budget s'.
Proof.
  intros HB H. pose proof (top_parse_ok env _ _ _ (budget_frame env) s i o only HB) as G. rewrite H in G. destruct G as [G1 G2]. split; assumption.
Qed.
(** the passes end, unless they reach an unclosed "{:!cache;" *)
Lemma rounds_end env i : last_coalesce_out i = false -> block_count i = 0%N -> forall n m s o,
  N.to_nat (s.(cfg).(bisf_max) - s.(bisf_count)) <= n -> length o <= m -> in_budget s ->
  (exists fuel, cache_rounds env fuel s i o <> RLoop) \/
  (exists s' o', passes env i s o s' o' /\ unclosed_cache o').
Proof.
  intros HI HC. induction n as [n IHn] using lt_wf_ind. induction m as [m IHm] using lt_wf_ind. intros s o Hn Hm HB.
  destruct (contains CACHE_OPEN o) eqn:EC; [|left; exists 0; cbn [cache_rounds]; rewrite EC; discriminate].
  assert (occurs (B "{:!cache;") o) as HO by (apply contains_iff; exact EC).
  destruct (top_parse env s i o (B "!cache")) as [o' s' i'|q|] eqn:EP.
  2:{ left. exists 1. cbn [cache_rounds]. rewrite EC, EP. discriminate. }
  2:{ exfalso. pose proof (top_parse_ok env _ _ _ (budget_frame env) s i o (B "!cache") HB) as G. rewrite EP in G. exact G. }
  destruct (top_parse_facts _ _ _ _ _ _ _ _ HB EP) as [(L1 & L2 & _) HB'].
  assert ((exists fuel, cache_rounds env fuel s' i o' <> RLoop) \/
          (exists s2 o2, passes env i s' o' s2 o2 /\ unclosed_cache o2) \/ unclosed_cache o) as [(f & Hf)|[(s2 & o2 & H1 & H2)|HU]].
  { destruct (pass_progress _ _ _ _ _ _ _ HI HC HO EP) as [HP|[HP|(_ & _ & HP)]]; [| |right; right; exact HP].
    - unfold in_budget in HB'. rewrite L1 in HB'.
      destruct (IHn (N.to_nat (bisf_max (cfg s') - bisf_count s'))) with (m := length o') (s := s') (o := o') as [H|H];
        [rewrite L1; lia|lia|lia|unfold in_budget; rewrite L1; exact HB'|left; exact H|right; left; exact H].
    - destruct (IHm (length o') ltac:(lia) s' o') as [H|H]; [rewrite L1; lia|lia|exact HB'|left; exact H|right; left; exact H]. }
  - left. exists (S f). cbn [cache_rounds]. rewrite EC, EP. exact Hf.
  - right. exists s2, o2. split; [|exact H2]. eapply ps_more; [exact HO|exact EP|exact H1].
  - right. exists s, o. split; [apply ps_none|exact HU].
Qed.
Lemma unclosed_loops env i : block_count i = 0%N -> forall fuel s o, unclosed_cache o -> cache_rounds env fuel s i o = RLoop.
Proof.
  intros HC fuel s o (H1 & H2 & H3). apply contains_iff in H1. change (B "{:!cache;") with CACHE_OPEN in H1.
  induction fuel as [|f IH]; cbn [cache_rounds]; rewrite H1; [reflexivity|].
  unfold top_parse. set (ci := iset_block_count (block_count i + 1) i).
  assert (parse env s ci o (B "!cache") = BOk o s ci) as ->.
  { apply (parse_evaluates env s ci o (B "!cache") [] o s ci H2). exists o, true. split; [|symmetry; exact H3]. apply ev_text. }
  unfold drop_block. change (block_count ci) with (block_count i + 1)%N. rewrite HC. cbn [negb andb]. exact IH.
Qed.
Lemma passes_loop env i s o s' o' : passes env i s o s' o' -> (forall fuel, cache_rounds env fuel s' i o' = RLoop) ->
  forall fuel, cache_rounds env fuel s i o = RLoop.
Proof.
  induction 1 as [|s o o1 s1 i1 s2 o2 HO HP _ IH]; [auto|]. intros HL fuel. apply contains_iff in HO. change (B "{:!cache;") with CACHE_OPEN in HO.
  destruct fuel as [|f]; cbn [cache_rounds]; rewrite HO; [reflexivity|]. rewrite HP. apply IH. exact HL.
Qed.
Lemma init_last env t raw s i : init_render env t = IOk raw s i -> last_coalesce_out i = false.
Proof.
  unfold init_render. destruct (shared_new _ _ _) as [s0|]; [|discriminate].
  destruct (if contains (B "remove") (comments (cfg s0)) then _ else _); [|discriminate].
  pose proof (FrameProofs.create_own s0 inherit_new) as E. destruct (create_block_schema s0 inherit_new) as [s1 i1]. cbn [snd] in E. subst i1.
  destruct (put _ _ _); [|discriminate]. destruct (put _ _ _); [|discriminate]. destruct (filter_context _); [|discriminate].
  intro H. injection H as _ _ H. subst i. destruct (is_empty (t_path t)); [reflexivity|]. destruct (e_parent env (t_path t)); reflexivity.
Qed.

(** A render never ends exactly if the passes lead to a content with an unclosed "{:!cache;". *)
Lemma C27_either : forall env t, occurs (B "{:") t.(t_raw) ->
  (exists fuel, render env fuel t <> TLoop) \/
  (exists raw s i o1 s1 i1 s2 o2, init_render env t = IOk raw s i /\ top_parse env s i raw [] = BOk o1 s1 i1 /\
     passes env i s1 o1 s2 o2 /\ unclosed_cache o2).
Proof.
  intros env t HO. unfold render. assert (contains BIF_OPEN (t_raw t) = true) as -> by (apply contains_iff; exact HO). cbn [negb].
  destruct (init_render env t) as [raw s i|q] eqn:EI; [|left; exists 0; discriminate].
  assert (in_budget s) as HB by (unfold in_budget; destruct (init_new _ _ _ _ _ EI) as (-> & _); apply N.le_0_l).
  destruct (top_parse env s i raw []) as [o1 s1 i1|q|] eqn:EP; [|left; exists 0; discriminate|].
  2:{ exfalso. pose proof (top_parse_ok env _ _ _ (budget_frame env) s i raw [] HB) as G. rewrite EP in G. exact G. }
  destruct (top_parse_facts _ _ _ _ _ _ _ _ HB EP) as [_ HB1].
  pose proof (in_count _ _ _ _ _ (init_facts _ _ _ _ _ EI)) as HC.
  destruct (rounds_end env i (init_last _ _ _ _ _ EI) HC _ _ s1 o1 (le_n _) (le_n _) HB1) as [(f & Hf)|(s2 & o2 & H1 & H2)].
  - left. exists f. destruct (cache_rounds env f s1 i o1) as [o2 s2|q|]; [|discriminate|congruence].
    destruct (ends_render s2 o2); discriminate.
  - right. exists raw, s, i, o1, s1, i1, s2, o2. auto.
Qed.
Theorem C27_unclosed_never_ends : forall env t raw s i o1 s1 i1 s2 o2, occurs (B "{:") t.(t_raw) ->
  init_render env t = IOk raw s i -> top_parse env s i raw [] = BOk o1 s1 i1 ->
  passes env i s1 o1 s2 o2 -> unclosed_cache o2 -> forall fuel, render env fuel t = TLoop.
Proof.
  intros env t raw s i o1 s1 i1 s2 o2 HO EI EP HP HU fuel. unfold render.
  assert (contains BIF_OPEN (t_raw t) = true) as -> by (apply contains_iff; exact HO). cbn [negb]. rewrite EI, EP.
  rewrite (passes_loop _ _ _ _ _ _ HP); [reflexivity|]. intro f. apply unclosed_loops; [|exact HU].
  exact (in_count _ _ _ _ _ (init_facts _ _ _ _ _ EI)).
Qed.
Print Assumptions C27_unclosed_never_ends.
(** A render ends exactly if its cache passes do not lead to a cache bif that is never closed. *)
Theorem C27_ends_iff : forall env t, occurs (B "{:") t.(t_raw) ->
  ((exists fuel, render env fuel t <> TLoop) <->
   ~ exists raw s i o1 s1 i1 s2 o2, init_render env t = IOk raw s i /\ top_parse env s i raw [] = BOk o1 s1 i1 /\
     passes env i s1 o1 s2 o2 /\ unclosed_cache o2).
Proof.
  intros env t HO. split.
  - intros [fuel HF] (raw & s & i & o1 & s1 & i1 & s2 & o2 & EI & EP & HP & HU). apply HF.
    exact (C27_unclosed_never_ends env t raw s i o1 s1 i1 s2 o2 HO EI EP HP HU fuel).
  - intro HN. destruct (C27_either env t HO) as [H|H]; [exact H|destruct (HN H)].
Qed.
Print Assumptions C27_ends_iff.

(** the bound on the number of passes is irrelevant *)
Lemma rounds_more env i : forall f f' s o, f <= f' -> cache_rounds env f s i o <> RLoop -> cache_rounds env f' s i o = cache_rounds env f s i o.
Proof.
  induction f as [|f IH]; intros f' s o HL H.
  - cbn [cache_rounds] in H |- *. destruct f'; cbn [cache_rounds]; destruct (contains CACHE_OPEN o); congruence.
  - destruct f' as [|f']; [lia|]. cbn [cache_rounds] in *. destruct (contains CACHE_OPEN o); [|reflexivity].
    destruct (top_parse env s i o (B "!cache")); [|reflexivity|reflexivity]. apply IH; [lia|exact H].
Qed.
Theorem C27_bound_is_irrelevant : forall env f f' t, f <= f' -> render env f t <> TLoop -> render env f' t = render env f t.
Proof.
  intros env f f' t HL. unfold render. destruct (negb (contains BIF_OPEN (t_raw t))); [reflexivity|].
  destruct (init_render env t) as [raw s i|q]; [|reflexivity]. destruct (top_parse env s i raw []) as [o1 s1 i1|q|]; [|reflexivity|reflexivity].
  intro H. rewrite (rounds_more env i f f' s1 o1 HL); [reflexivity|]. intro E. rewrite E in H. congruence.
Qed.
Print Assumptions C27_bound_is_irrelevant.

(** The full claim is false. *)
Theorem C27_terminates_refuted : forall fuel, render env0 fuel (sample "{:!cache; hello") = TLoop.
Proof.
  destruct (init_render env0 (sample "{:!cache; hello")) as [raw s i|q] eqn:EI; [|vm_compute in EI; discriminate].
  assert (raw = B "{:!cache; hello") as ->.
  { assert (match init_render env0 (sample "{:!cache; hello") with IOk r _ _ => r = B "{:!cache; hello" | _ => False end) as H by (vm_compute; reflexivity).
    rewrite EI in H. exact H. }
  assert (unclosed_cache (B "{:!cache; hello")) as HU by (split; [|split]; [apply contains_iff|..]; vm_compute; reflexivity).
  set (ci := iset_block_count (block_count i + 1) i).
  assert (parse env0 s ci (B "{:!cache; hello") [] = BOk (B "{:!cache; hello") s ci) as EP.
  { destruct HU as (_ & H2 & H3). apply (parse_evaluates env0 s ci _ [] [] _ s ci H2). exists (B "{:!cache; hello"), true.
    split; [apply ev_text|symmetry; exact H3]. }
  eapply C27_unclosed_never_ends; [|exact EI|unfold top_parse; fold ci; rewrite EP; reflexivity|apply ps_none|exact HU].
  apply contains_iff. vm_compute. reflexivity.
Qed.
Print Assumptions C27_terminates_refuted.
Example C27_example : unclosed_cache (B "{:!cache; hello").
Proof. split; [|split]; [apply contains_iff|..]; vm_compute; reflexivity. Qed.

(** ** C23, continued: else and eval *)
Theorem C23_else : forall env s i mods body only p s1, Forall modifier mods -> ~ In "&"%char mods ->
  may_start s -> selected only i mods (B "else") ->
  prepared env (B "else") (started s) (started_in s i) only body p [] s1 ->
  i.(last_bif_out) = negb (has_mod "!" mods) ->
  eval_bif env s i (bif_text mods (B "else") body) only = finished mods [] s1 (started_in s i).
Proof.
  intros env s i mods body only p s1 HM HA HS HO HP HL. pose proof (C24_else env s i mods body only p s1 HM HA HS HO HP) as E.
  cbv zeta in E. rewrite E, HL. destruct (has_mod "!" mods); reflexivity.
Qed.
Print Assumptions C23_else.
(** the parameter part is evaluated, the code is not *)
Theorem C23_eval : forall env s i mods body only p s1 i1, Forall modifier mods -> ~ In "&"%char mods ->
  may_start s -> selected only i mods (B "eval") -> ~ occurs (B "{:flg;") (params_of body) -> has_data s ->
  eval_code env (B "eval") (has_mod "+" mods) (started s) (started_in s i) (params_of body) only = BOk p s1 i1 ->
  (p = [] <-> ~ In "!"%char mods) ->
  eval_bif env s i (bif_text mods (B "eval") body) only = finished mods [] s1 i1.
Proof.
  intros env s i mods body only p s1 i1 HM HA HS HO HF HD HE HP. rewrite (C65_eval env s i mods body only) by assumption.
  rewrite HE. cbn [and_then]. destruct (has_mod "!" mods) eqn:EG.
  - assert (In "!"%char mods) as HI by (unfold has_mod in EG; apply existsb_exists in EG as (x & Hx & Ex); apply aeqb_eq in Ex; subst x; exact Hx).
    destruct p; [tauto|]. reflexivity.
  - assert (p = []) as -> by (apply HP; intro HI; apply has_mod_true in HI; congruence). reflexivity.
Qed.
Print Assumptions C23_eval.
Example C23_else_example : output_of "{:;name:}{:else; {:exit; 404 :} :}|{:eval; {:;no:} >> {:exit; 404 :} :}|{:!eval; x >> {:exit; 404 :} :}" = B "World||".
Proof. vm_compute. reflexivity. Qed.
