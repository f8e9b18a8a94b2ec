(** * Property theorems: the Template API *)

From Verif Require Import Bytes Json Utils ConstantsGen State Engine Template FastCgi Spec BytesFacts
  EscapeProofs MergeProofs TextProofs BlockProofs TemplateProofs Samples.

(** ** C08: the evaluation of a template starts (in render and in render_once) in a state where
    data.CONTEXT is filtered; everything else in data and every other top-level key is what the
    user supplied. *)
Theorem C08_context_is_filtered : forall env t raw s i,
  init_render env t = IOk raw s i \/ init_render_once env t = IOk raw s i ->
  (forall x, string_in x (idx (idx s.(schema) (B "data")) (B "CONTEXT")) ->
     inert true x /\ forall c, In c (active true) -> ~ In c x) /\
  (forall k, key_in k (idx (idx s.(schema) (B "data")) (B "CONTEXT")) ->
     inert true k /\ forall c, In c (active true) -> ~ In c k).
Proof.
  intros env t raw s i H. assert (init_render env t = IOk raw s i) as H0 by (destruct H as [H|H]; exact H).
  apply init_facts in H0. rewrite (in_context _ _ _ _ _ H0). split.
  - intros x Hx. apply filter_keys_strings in Hx. apply filter_value_strings in Hx.
    split; [exact Hx|]. apply inert_no_active. exact Hx.
  - intros k Hk. apply filter_keys_keys in Hk. split; [exact Hk|]. apply inert_no_active. exact Hk.
Qed.
Print Assumptions C08_context_is_filtered.

(** and nothing else of the user's schema is changed *)
Theorem C08_rest_is_unchanged : forall env t raw s i, init_render env t = IOk raw s i ->
  idx (idx s.(schema) (B "data")) (B "CONTEXT")
    = filter_value_keys (filter_value (idx (idx t.(t_schema) (B "data")) (B "CONTEXT"))) /\
  (forall k, k <> B "CONTEXT" -> idx (idx s.(schema) (B "data")) k = idx (idx t.(t_schema) (B "data")) k) /\
  (forall k, k <> B "data" -> k <> B "__moveto" -> k <> B "__error" ->
     vget k s.(schema) = vget k t.(t_schema)).
Proof.
  intros env t raw s i H. apply init_facts in H.
  split; [apply (in_context _ _ _ _ _ H)|]. split; [apply (in_data _ _ _ _ _ H)|apply (in_top _ _ _ _ _ H)].
Qed.
Print Assumptions C08_rest_is_unchanged.

Example C08_example : exists raw s i, init_render env0 (sample "{:;name:}") = IOk raw s i /\
  idx (idx s.(schema) (B "data")) (B "CONTEXT") <> idx (idx sample_schema (B "data")) (B "CONTEXT") /\
  get_from_key (idx s.(schema) (B "data")) (B "CONTEXT->GET->q&lt;") = B "&lt;b&gt;&#123;:;x:&#125;".
Proof.
  destruct (init_render env0 (sample "{:;name:}")) as [raw s i|p] eqn:E; [|vm_compute in E; discriminate].
  exists raw, s, i. split; [reflexivity|].
  assert (s = fst (start_of "{:;name:}")) as -> by (unfold start_of; rewrite E; reflexivity).
  split; vm_compute; [discriminate|reflexivity].
Qed.

(** ** C18 *)
Theorem C18_unbalanced_block : forall env s i source only p,
  extract_blocks source = Unmatched p ->
  exists s', parse env s i source only = BOk [] s' i /\
    s'.(status_code) = B "500" /\ s'.(status_text) = B "Internal Server Error" /\
    s'.(status_param) = B "Unmatched block at position " ++ dec_nat p /\
    occurs_at (B ":}") source p /\
    s' = set_status s'.(status_code) s'.(status_text) s'.(status_param) s.
Proof.
  intros env s i source only p H. exists (handle_unmatched p s).
  split; [unfold parse, parse_fuel, block_parse; rewrite H; reflexivity|].
  repeat (split; [reflexivity|]). split; [apply extract_unmatched; exact H|]. reflexivity.
Qed.
Print Assumptions C18_unbalanced_block.

Theorem C18_unbalanced_render : forall env fuel t raw s i p,
  occurs (B "{:") t.(t_raw) -> init_render env t = IOk raw s i -> extract_blocks raw = Unmatched p ->
  exists t', render env fuel t = TOk (B "500 Internal Server Error") t' /\
    get_status_code t' = B "500" /\ get_status_text t' = B "Internal Server Error" /\
    get_status_param t' = B "Unmatched block at position " ++ dec_nat p.
Proof.
  intros env fuel t raw s i p HO HI HU.
  pose proof (init_facts _ _ _ _ _ HI) as F.
  destruct (C18_unbalanced_block env s (iset_block_count (i.(block_count) + 1) i) raw [] p HU)
    as (s' & HP & Hc & Ht & Hp & _ & Es).
  set (ci := iset_block_count (block_count i + 1) i) in *.
  assert (drop_block s' ci = s') as ED.
  { unfold drop_block, ci. cbn [block_count iset_block_count]. rewrite (in_count _ _ _ _ _ F). reflexivity. }
  assert (idx s'.(schema) (B "__moveto") = JObj []) as EM.
  { rewrite Es. cbn [set_status schema]. apply (in_moveto _ _ _ _ _ F). }
  assert (ends_render s' [] = Some (B "500 Internal Server Error")) as EE.
  { unfold ends_render, set_moveto. rewrite EM. cbn [moveto_all]. unfold set_status_code. rewrite Hc, Ht. reflexivity. }
  exists (mkTemplate raw t.(t_path) t.(t_schema) s' (B "500 Internal Server Error")).
  split; [|auto].
  unfold render. apply contains_iff in HO. change (B "{:") with BIF_OPEN in HO. rewrite HO. cbn [negb].
  rewrite HI. unfold top_parse. fold ci. rewrite HP, ED.
  destruct fuel; cbn [cache_rounds]; change (contains CACHE_OPEN []) with false; cbv iota; rewrite EE; reflexivity.
Qed.
Print Assumptions C18_unbalanced_render.
Example C18_example : extract_blocks (B "a {:;b:} c :} d") = Unmatched 11 /\
  output_of "a {:;b:} c :} d" = B "500 Internal Server Error".
Proof. vm_compute. auto. Qed.

(** ** C40: what render returns, from the final status *)
Theorem C40_error_status_decides : forall env fuel t o t',
  occurs (B "{:") t.(t_raw) -> render env fuel t = TOk o t' -> error_code (get_status_code t') ->
  o = get_status_code t' ++ B " " ++ get_status_text t'.
Proof.
  intros env fuel t o t' HO HR HE. apply render_inv in HR as (raw & s & i & o1 & s1 & i1 & o2 & s2 & _ & _ & _ & HR & ->); [|exact HO].
  apply ends_render_status in HR as (b & _ & ->). apply status_error. exact HE.
Qed.
Print Assumptions C40_error_status_decides.

Theorem C40_redirect_status_decides : forall env fuel t o t',
  occurs (B "{:") t.(t_raw) -> render env fuel t = TOk o t' -> In (get_status_code t') redirect_codes ->
  o = get_status_code t' ++ B " " ++ get_status_text t' ++ [ascii_of_N 10] ++ get_status_param t'.
Proof.
  intros env fuel t o t' HO HR HE. apply render_inv in HR as (raw & s & i & o1 & s1 & i1 & o2 & s2 & _ & _ & _ & HR & ->); [|exact HO].
  apply ends_render_status in HR as (b & _ & ->). apply status_redirect. exact HE.
Qed.
Print Assumptions C40_redirect_status_decides.

(** Any other three-digit code: the JavaScript redirection if there is one, otherwise the content
    (with the moved contents inserted and the markers removed). *)
Theorem C40_other_status : forall env fuel t o t',
  occurs (B "{:") t.(t_raw) -> render env fuel t = TOk o t' ->
  other_code (get_status_code t') -> ~ In (get_status_code t') redirect_codes ->
  exists raw s i o1 s1 i1 content s2 moved_content,
    init_render env t = IOk raw s i /\ top_parse env s i raw [] = BOk o1 s1 i1 /\
    cache_rounds env fuel s1 i o1 = ROk content s2 /\
    set_moveto s2 content = Some moved_content /\
    (redirect_js (t_shared t') <> [] -> o = redirect_js (t_shared t')) /\
    (redirect_js (t_shared t') = [] -> o = replacements moved_content).
Proof.
  intros env fuel t o t' HO HR H1 H2. apply render_inv in HR as (raw & s & i & o1 & s1 & i1 & o2 & s2 & E1 & E2 & E3 & HR & ->); [|exact HO].
  apply ends_render_status in HR as (b & HB & ->).
  exists raw, s, i, o1, s1, i1, o2, s2, b. cbn [t_shared]. unfold get_status_code in *. cbn [t_shared] in *.
  rewrite (status_other _ _ H1 H2).
  repeat (split; [assumption|]). split; intro N.
  - apply is_empty_false in N. rewrite N. reflexivity.
  - rewrite N. reflexivity.
Qed.
Print Assumptions C40_other_status.

Example C40_example :
  output_of "{:exit; 404 :} never" = B "404 Not Found" /\
  output_of "{:redirect; 301 >> /there :}" = B "301 Moved Permanently" ++ [ascii_of_N 10] ++ B "/there" /\
  output_of "a {:!exit; 202 :} b" = B "a  b" /\ error_code (B "404").
Proof.
  split; [vm_compute; reflexivity|]. split; [vm_compute; reflexivity|]. split; [vm_compute; reflexivity|].
  exists "4"%char, "0"%char, "4"%char. split; [reflexivity|]. split; [tauto|]. unfold is_digit_byte. cbn. lia.
Qed.

(** The codes outside three digits are compared as strings: "50000" is treated as an error. *)
Theorem C40_long_codes_refuted : ~ (forall s o, set_status_code s o = s.(status_code) ++ B " " ++ s.(status_text) ->
  error_code s.(status_code) \/ o = s.(status_code) ++ B " " ++ s.(status_text)).
Proof.
  intro H. specialize (H (set_status (B "50000") [] [] (fst (start_of "{:;x:}"))) (B "text") eq_refl).
  destruct H as [(a & b & d & E & _)|H]; discriminate.
Qed.

(** ** C43: the contents registered by moveto are inserted at their places and nothing is lost *)
Theorem C43_moveto_inserts : forall s l o, registered (idx s.(schema) (B "__moveto")) l ->
  exists o', set_moveto s o = Some o' /\ moved l o o' /\ subseq o o' /\
             length o' <= length o + list_sum (map (fun e => length (snd e)) l).
Proof.
  intros s l o H. destruct (set_moveto_moved s l o H) as (o' & E & M). exists o'.
  split; [exact E|]. split; [exact M|]. split; [eapply moved_subseq; exact M|apply moved_length; exact M].
Qed.
Print Assumptions C43_moveto_inserts.

Example C43_example :
  output_of "<body><p>x</p>{:moveto; </body >> END :}{:moveto; body >> START :}{:moveto; nav >> NO :}</body>"
  = B "<body>START<p>x</p>END</body>".
Proof. vm_compute. reflexivity. Qed.

(** ** C44 *)
Theorem C44_render_once_agrees : forall env fuel t,
  match render env fuel t, render_once env fuel t with
  | TOk o t1, TOk o' t2 => o = o' /\ get_status_code t1 = get_status_code t2 /\
      get_status_text t1 = get_status_text t2 /\ get_status_param t1 = get_status_param t2 /\
      get_has_error t1 = get_has_error t2 /\ get_error t1 = get_error t2
  | TPanic p, TPanic p' => p = p'
  | TLoop, TLoop => True
  | _, _ => False
  end.
Proof.
  intros env fuel t. destruct (contains BIF_OPEN (t_raw t)) eqn:C.
  - rewrite render_once_render by (apply contains_iff; exact C).
    destruct (render env fuel t) as [o t1|p|]; [|reflexivity|exact I]. repeat split.
  - unfold render, render_once. rewrite C. cbn [negb]. repeat split.
Qed.
Print Assumptions C44_render_once_agrees.

Theorem C44_render_keeps_schema : forall env fuel t o t', render env fuel t = TOk o t' ->
  t'.(t_schema) = t.(t_schema) /\ t'.(t_path) = t.(t_path).
Proof.
  intros env fuel t o t' H. destruct (contains BIF_OPEN (t_raw t)) eqn:C.
  - apply contains_iff in C. apply render_inv in H as (raw & s & i & o1 & s1 & i1 & o2 & s2 & _ & _ & _ & _ & ->); [|exact C].
    split; reflexivity.
  - unfold render in H. rewrite C in H. cbn [negb] in H. injection H as _ <-. split; reflexivity.
Qed.
Print Assumptions C44_render_keeps_schema.

(** What render does depends only on the source, the path, the schema and the history of the
    outside world, not on earlier renders: after any render, a new source and a merge give what
    they would have given without it. *)
Theorem C44_render_is_fresh : forall env fuel t1 t2,
  occurs (B "{:") t1.(t_raw) ->
  t1.(t_raw) = t2.(t_raw) -> t1.(t_path) = t2.(t_path) -> t1.(t_schema) = t2.(t_schema) ->
  t1.(t_shared).(strace) = t2.(t_shared).(strace) ->
  render env fuel t1 = render env fuel t2.
Proof.
  intros env fuel [r1 p1 sc1 s1 o1] [r2 p2 sc2 s2 o2]. cbn [t_raw t_path t_schema t_shared].
  intros HO -> -> -> HT. unfold render. cbn [t_raw]. apply contains_iff in HO. change (B "{:") with BIF_OPEN in HO.
  rewrite HO. cbn [negb]. unfold init_render. cbn [t_raw t_path t_schema t_shared]. rewrite HT. reflexivity.
Qed.
Print Assumptions C44_render_is_fresh.

(** Without a bif in the source the fast path leaves the status of the previous render. *)
Theorem C44_plain_source_keeps_old_status_refuted :
  ~ (forall env fuel t1 t2 o1 o2 t1' t2',
       t1.(t_raw) = t2.(t_raw) -> t1.(t_path) = t2.(t_path) -> t1.(t_schema) = t2.(t_schema) ->
       render env fuel t1 = TOk o1 t1' -> render env fuel t2 = TOk o2 t2' ->
       get_status_code t1' = get_status_code t2').
Proof.
  intro H.
  pose (t1 := match render env0 1 (sample "{:exit; 404 :}") with TOk _ t => set_src_str (B "hello") t | _ => t0 end).
  specialize (H env0 1 t1 (sample "hello") (B "hello") (B "hello") (tset_out (B "hello") t1) (tset_out (B "hello") (sample "hello"))).
  assert (get_status_code (tset_out (B "hello") t1) = get_status_code (tset_out (B "hello") (sample "hello"))) as E.
  { apply H; vm_compute; reflexivity. }
  vm_compute in E. discriminate.
Qed.

(** render_once takes the schema away: a second render aborts. *)
Theorem C44_render_after_render_once_refuted :
  ~ (forall env fuel t o t' , render_once env fuel t = TOk o t' -> exists o' t'', render env fuel (set_src_str t.(t_raw) t') = TOk o' t'').
Proof.
  intro H. destruct (render_once env0 1 (sample "{:;name:}")) as [o t'|p|] eqn:E; [|vm_compute in E; discriminate|vm_compute in E; discriminate].
  destruct (H env0 1 _ _ _ E) as (o' & t'' & E2).
  assert (t_schema t' = JNull /\ t_raw (set_src_str (t_raw (sample "{:;name:}")) t') = B "{:;name:}") as [Es Er].
  { split; [|reflexivity]. rewrite render_once_render in E by (apply contains_iff; reflexivity).
    destruct (render env0 1 (sample "{:;name:}")); [|discriminate|discriminate]. injection E as _ <-. reflexivity. }
  destruct t' as [r p sc s o1]. cbn in Es, Er. subst sc. unfold render, init_render in E2. cbn in E2. discriminate.
Qed.

Example C44_example : render env0 1 (sample "{:;name:}") <> TLoop /\ output_of "Hello {:;name:}" = B "Hello World" /\
  match render env0 1 (sample "Hello {:;name:}") with TOk _ t => get_has_error t = false | _ => False end.
Proof. split; [vm_compute; discriminate|]. split; vm_compute; reflexivity. Qed.

(** ** C45 *)
Theorem C45_plain_text_is_trimmed : forall env fuel t, ~ occurs (B "{:") t.(t_raw) ->
  exists o, render env fuel t = TOk o (tset_out o t) /\ render_once env fuel t = TOk o (tset_out o t) /\
            trimmed t.(t_raw) o.
Proof.
  intros env fuel t H. apply contains_false in H. exists (trim t.(t_raw)).
  unfold render, render_once. change BIF_OPEN with (B "{:"). rewrite H. cbn [negb].
  split; [reflexivity|]. split; [reflexivity|]. apply trim_trimmed.
Qed.
Print Assumptions C45_plain_text_is_trimmed.

Example C45_example : output_of "  plain : } text  " = B "plain : } text" /\ ~ occurs (B "{:") (B "  plain : } text  ").
Proof. split; [vm_compute; reflexivity|]. intro H. apply contains_iff in H. discriminate. Qed.
