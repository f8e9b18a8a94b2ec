(** * Property theorems: the cache on a file system, and crashes *)

From Verif Require Import TraceProofs Bytes Json Utils ConstantsGen State Engine Template Spec SpecEngine SpecDisk BytesFacts EscapeProofs TextProofs
  BlockProofs TemplateProofs InertProofs FrameProofs FrameRun EngineFrames MoreFrames EvalProofs KeepProofs HandlerProofs Samples
  PropertiesVars PropertiesCache.

(** ** C80: what was stored is served *)
Lemma spared env D time f : lives_on env D time -> forall l t, Forall (spares f) l -> D (l ++ t) f = D t f.
Proof.
  intros HL l t HF. induction HF as [|e l He _ IH]; [reflexivity|]. cbn [app]. rewrite <- IH.
  pose proof (lo_does _ _ _ HL e (l ++ t)) as H. unfold does in H. unfold spares in He.
  destruct e as [| | | | |p [r|]|p c [r|]| | | | | | |a r|a r]; try contradiction; try exact (H f).
  - destruct H as [_ H]. apply H. congruence.
  - destruct H as [_ H]. apply H. congruence.
  - destruct H as [_ H]. apply H. congruence.
Qed.
Lemma later_time env D time : lives_on env D time -> forall l t, (time t <= time (l ++ t))%N.
Proof.
  intros HL l t. induction l as [|e l IH]; [apply N.le_refl|]. cbn [app]. pose proof (lo_time _ _ _ HL e (l ++ t)). lia.
Qed.
(** A completed store leaves exactly the output in the entry. *)
Theorem C80_stored : forall env D time d f o s s', lives_on env D time -> stores env d f o s None s' ->
  exists n, D (strace s') f = Some (o, n) /\ (time (strace s) <= n)%N /\ (n <= time (strace s'))%N.
Proof.
  intros env D time d f o s s' HL HS. inversion HS as [| | |H1 H2 H3]; subst.
  pose proof (lo_does _ _ _ HL (EvWrite f o None) (EvCreate f None :: EvMkdir d None :: strace s)) as [H _].
  eexists. split; [exact H|].
  pose proof (lo_time _ _ _ HL (EvMkdir d None) (strace s)).
  pose proof (lo_time _ _ _ HL (EvCreate f None) (EvMkdir d None :: strace s)).
  pose proof (lo_time _ _ _ HL (EvWrite f o None) (EvCreate f None :: EvMkdir d None :: strace s)).
  cbn [strace add_event]. lia.
Qed.
Print Assumptions C80_stored.
(** An entry that is on the disk, and not too old, is served; nothing is evaluated. *)
Theorem C80_served : forall env D time s i mods body only a s1 expires key c n, lives_on env D time -> Forall modifier mods ->
  ~ In "&"%char mods -> ~ In "!"%char mods -> ~ In "+"%char mods ->
  may_start s -> selected only i mods (B "cache") -> ~ occurs (B "{:flg;") (params_of body) -> ~ bypassed s ->
  arguments env (B "cache") (caching (started_in s i)) only (arg_texts (params_of body)) (started s) a s1 ->
  nth_error a 1 = Some expires -> cache_key_of env s s1 (started_in s i) a expires (code_of body) key ->
  3 <= length (e_sha256 env key) ->
  let f := entry_file env s1 key expires in
  D (strace s1) f = Some (c, n) -> (n + seconds expires <= u64_max)%N ->
  (time (EvExists f true :: strace s1) <= n + seconds expires)%N ->
  eval_bif env s i (bif_text mods (B "cache") body) only =
  finished mods c (add_event (EvRead f (Some c)) (dated env s1 f)) (started_in s i).
Proof.
  intros env D time s i mods body only a s1 expires key c n HL HM HA HG HU HS HO HF HB HP HE HK HH f HD HX HT.
  assert (forall l, Forall (spares f) l -> D (l ++ strace s1) f = Some (c, n)) as HD'.
  { intros l Hl. rewrite (spared env D time f HL l (strace s1) Hl). exact HD. }
  eapply C47_hit; try eassumption.
  - eapply fr_fresh.
    + apply (lo_file _ _ _ HL _ _ _ _ HD).
    + unfold written_at. cbv zeta.
      apply (lo_file _ _ _ HL (EvNow (e_now env (EvExists f true :: strace s1)) :: EvExists f true :: strace s1) f c n).
      apply (HD' [EvNow _; EvExists f true]). repeat constructor.
    + exact HX.
    + unfold present. rewrite (lo_now _ _ _ HL). exact HT.
  - apply (lo_file _ _ _ HL (strace (dated env s1 f)) f c n). cbn [dated strace add_event].
    apply (HD' [EvMtime _ _; EvNow _; EvExists f true]). repeat constructor.
Qed.
Print Assumptions C80_served.
(** So an entry stored by one evaluation is what every later evaluation of the entry gives, until it expires, as long as neither
    another evaluation of the same entry nor a script comes between. *)
Theorem C80_history : forall env D time d f o s0 s0' s i mods body only a s1 expires key l, lives_on env D time ->
  stores env d f o s0 None s0' -> Forall modifier mods ->
  ~ In "&"%char mods -> ~ In "!"%char mods -> ~ In "+"%char mods ->
  may_start s -> selected only i mods (B "cache") -> ~ occurs (B "{:flg;") (params_of body) -> ~ bypassed s ->
  arguments env (B "cache") (caching (started_in s i)) only (arg_texts (params_of body)) (started s) a s1 ->
  nth_error a 1 = Some expires -> cache_key_of env s s1 (started_in s i) a expires (code_of body) key ->
  3 <= length (e_sha256 env key) -> f = entry_file env s1 key expires ->
  strace s1 = l ++ strace s0' -> Forall (spares f) l ->
  (time (strace s0') + seconds expires <= u64_max)%N ->
  (time (EvExists f true :: strace s1) <= time (strace s0) + seconds expires)%N ->
  eval_bif env s i (bif_text mods (B "cache") body) only =
  finished mods o (add_event (EvRead f (Some o)) (dated env s1 f)) (started_in s i).
Proof.
  intros env D time d f o s0 s0' s i mods body only a s1 expires key l HL HW HM HA HG HU HS HO HF HB HP HE HK HH -> HT HQ HX HN.
  destruct (C80_stored _ _ _ _ _ _ _ _ HL HW) as (n & Hn & L1 & L2).
  eapply (C80_served env D time s i mods body only a s1 expires key o n); try eassumption.
  - rewrite HT, (spared env D time _ HL l _ HQ). exact Hn.
  - lia.
  - lia.
Qed.
Print Assumptions C80_history.

(** ** An environment that lives on a disk *)
Definition store_file (p : bytes) (f : bytes * N) (d : disk) : disk := fun q => if beq q p then Some f else d q.
Fixpoint disk_from (n0 : N) (d0 : disk) (t : trace) : disk :=
  match t with
  | [] => d0
  | e :: t => match e with
              | EvCreate p None => store_file p ([], (n0 + N.of_nat (length t))%N) (disk_from n0 d0 t)
              | EvWrite p c None => store_file p (c, (n0 + N.of_nat (length t))%N) (disk_from n0 d0 t)
              | EvWrite p c (Some _) => store_file p ([], (n0 + N.of_nat (length t))%N) (disk_from n0 d0 t)
              | _ => disk_from n0 d0 t
              end
  end.
Definition env_from (n0 : N) (d0 : disk) : Env :=
  mkEnv (fun s => s) (fun s => B "abc" ++ s) (fun s => s) (fun _ => inl (JObj [])) (fun _ => B "{}")
        (fun _ => B "{}") (fun a _ => a) (fun _ => None) (fun _ s => Some s) (B "/cwd") (B "/tmp")
        (fun t p => match disk_from n0 d0 t p with Some _ => true | None => false end) (fun _ _ => false) (fun _ _ => None)
        (fun t p => option_map fst (disk_from n0 d0 t p)) (fun _ _ => B "no file")
        (fun _ _ => None) (fun _ _ => None) (fun _ _ _ => None) (fun t p => option_map snd (disk_from n0 d0 t p)) (fun _ _ => None)
        (fun t => (n0 + N.of_nat (length t))%N) (fun _ => B "now") (fun _ lo _ => lo) (fun _ => B "0123456789abcdef")
        (fun _ _ => inl (JObj [])) (fun _ _ => inl (JObj [])).
(** the clock starts at 0 *)
Notation disk_at := (disk_from 0).
Notation env_on := (env_from 0).
Lemma store_here p f d : store_file p f d p = Some f.
Proof. unfold store_file. rewrite beq_refl. reflexivity. Qed.
Lemma store_other p f d : same_but p d (store_file p f d).
Proof. intros q H. unfold store_file. destruct (beq_spec q p); [contradiction|reflexivity]. Qed.
Lemma env_from_lives n0 d0 : lives_on (env_from n0 d0) (disk_from n0 d0) (fun t => (n0 + N.of_nat (length t))%N).
Proof.
  split.
  - intros e t. destruct e as [| | | | |p [r|]|p c [r|]| | | | | | | |]; cbn [does disk_from]; try exact I; try reflexivity;
      (split; [|apply store_other]); rewrite store_here; try reflexivity.
    exists []. split; [exists c; reflexivity|reflexivity].
  - intros e t. cbn [length]. lia.
  - reflexivity.
  - intros t p c n H. cbn [env_from e_exists e_read e_mtime]. rewrite H. auto.
Qed.
Definition entry_here : bytes := B "/tmp/neutral-cache/abc/abcen60{}{:;name:}-60".
Example C80_example :
  output_in (env_on (fun _ => None)) "{:cache; /60/ >> {:;name:} :}-{:code; {:param; name >> changed :} {:cache; /60/ >> {:;name:} :} :}" = B "World-World" /\
  trace_in (env_on (fun _ => None)) "{:cache; /60/ >> {:;name:} :}{:cache; /60/ >> {:;name:} :}" =
    [EvExists entry_here false; EvMkdir (B "/tmp/neutral-cache/abc") None; EvCreate entry_here None; EvWrite entry_here (B "World") None;
     EvExists entry_here true; EvNow 5; EvMtime entry_here (Some 3%N); EvRead entry_here (Some (B "World"))].
Proof. split; vm_compute; reflexivity. Qed.

(** ** C81: a crash while an entry is stored *)
Lemma begins_refl c : begins c c.
Proof. exists []. symmetry. apply app_nil_r. Qed.
Lemma begins_nil c : begins [] c.
Proof. exists c. reflexivity. Qed.
(** the interaction touches the content of [f] only by creating the file or writing something of [w] to it *)
Definition writes_only (f : bytes) (w : bytes -> Prop) (e : event) : Prop :=
  match e with
  | EvWrite p c _ => p = f -> w c
  | EvPython _ _ | EvPhp _ _ => False
  | _ => True
  end.
Definition old_or_begun (f : bytes) (w : bytes -> Prop) (d d' : disk) : Prop :=
  d' f = d f \/ exists c' n, d' f = Some (c', n) /\ (c' = [] \/ exists c, w c /\ begins c' c).
Lemma between env D time f w : lives_on env D time -> forall l t, Forall (writes_only f w) l -> old_or_begun f w (D t) (D (l ++ t)).
Proof.
  intros HL l t HF. induction HF as [|e l He _ IH]; [left; reflexivity|]. cbn [app].
  pose proof (lo_does _ _ _ HL e (l ++ t)) as H. unfold does in H. unfold writes_only in He.
  assert (D (e :: l ++ t) f = D (l ++ t) f -> old_or_begun f w (D t) (D (e :: l ++ t))) as SM.
  { intro E. unfold old_or_begun. rewrite E. exact IH. }
  destruct e as [| | | | |p [r|]|p c [r|]| | | | | | |a r|a r]; try contradiction; try (apply SM; exact (H f)).
  - destruct H as [H1 H2]. destruct (list_eq_dec Ascii.ascii_dec p f) as [->|NE]; [|apply SM, H2; congruence].
    right. eauto.
  - destruct H as [(c' & H0 & H1) H2]. destruct (list_eq_dec Ascii.ascii_dec p f) as [->|NE]; [|apply SM, H2; congruence].
    right. eauto 8.
  - destruct H as [H1 H2]. destruct (list_eq_dec Ascii.ascii_dec p f) as [->|NE]; [|apply SM, H2; congruence].
    right. do 2 eexists. split; [exact H1|]. right. exists c. split; [auto|apply begins_refl].
Qed.
(** Wherever the machine stops in a render (without scripts), every file is as before, empty, or has a beginning of
    something the render writes to it. *)
Theorem C81_anywhere : forall env D time (f : bytes) (w : bytes -> Prop) new t0 t d', lives_on env D time -> Forall (writes_only f w) new ->
  (exists l, t = l ++ t0) -> left_on D time (new ++ t0) t d' ->
  d' f = D t0 f \/ exists c' n, d' f = Some (c', n) /\ (c' = [] \/ exists c, w c /\ begins c' c).
Proof.
  intros env D time f w new t0 t d' HL HF [l0 ->] [l HT HE|l p c r c' HT HB HE HE2].
  - rewrite app_assoc in HT. apply app_inv_tail in HT as ->. apply Forall_app in HF as [_ HF]. rewrite HE. apply (between env D time f w HL l0 t0 HF).
  - change (EvWrite p c r :: l0 ++ t0) with ((EvWrite p c r :: l0) ++ t0) in HT.
    rewrite app_assoc in HT. apply app_inv_tail in HT as ->. apply Forall_app in HF as [_ HF].
    inversion HF as [|e l1 He HF' E1]; subst. cbn [writes_only] in He.
    destruct (list_eq_dec Ascii.ascii_dec p f) as [->|NE].
    + right. do 2 eexists. split; [exact HE|]. eauto.
    + rewrite HE2 by congruence. apply (between env D time f w HL l0 t0 HF').
Qed.
Print Assumptions C81_anywhere.
(** Wherever the machine stops while an entry is stored, the disk has the entry of before or a beginning of the new one. *)
Theorem C81_left : forall env D time d f o s e s' t d', lives_on env D time -> stores env d f o s e s' ->
  (exists l, t = l ++ strace s) -> left_on D time (strace s') t d' ->
  d' f = D (strace s) f \/ exists c n, begins c o /\ d' f = Some (c, n).
Proof.
  intros env D time d f o s e s' t d' HL HS Ht HF.
  assert (exists new, strace s' = new ++ strace s /\ Forall (writes_only f (fun c => c = o)) new) as (new & E & HN).
  { destruct HS; cbn [strace add_event].
    - exists [EvMkdir d (Some e)]. split; [reflexivity|repeat constructor].
    - exists [EvCreate f (Some e); EvMkdir d None]. split; [reflexivity|repeat constructor].
    - exists [EvWrite f o (Some e); EvCreate f None; EvMkdir d None]. split; [reflexivity|repeat constructor].
    - exists [EvWrite f o None; EvCreate f None; EvMkdir d None]. split; [reflexivity|repeat constructor]. }
  rewrite E in HF.
  destruct (C81_anywhere env D time f (fun c => c = o) new (strace s) t d' HL HN Ht HF) as [H|(c' & n & H & [->|(c & -> & Hc)])].
  - left. exact H.
  - right. exists [], n. split; [apply begins_nil|exact H].
  - right. exists c', n. split; [exact Hc|exact H].
Qed.
Print Assumptions C81_left.
(** After the restart a fresh process finds the disk that was left.  Until the entry expires it serves what is there: the entry of
    before the crash, or a beginning of the one that was being written.  (Missing from "as if there had been no crash": the
    beginning may be a proper one, C81_undisturbed_refuted.) *)
Theorem C81_served_partial : forall env D time d o s0 e s0' t d' env2 D2 time2 s i mods body only a s1 expires key c n,
  lives_on env D time -> lives_on env2 D2 time2 -> (forall q, D2 [] q = d' q) -> Forall modifier mods ->
  ~ In "&"%char mods -> ~ In "!"%char mods -> ~ In "+"%char mods ->
  may_start s -> selected only i mods (B "cache") -> ~ occurs (B "{:flg;") (params_of body) -> ~ bypassed s ->
  arguments env2 (B "cache") (caching (started_in s i)) only (arg_texts (params_of body)) (started s) a s1 ->
  nth_error a 1 = Some expires -> cache_key_of env2 s s1 (started_in s i) a expires (code_of body) key ->
  3 <= length (e_sha256 env2 key) ->
  let f := entry_file env2 s1 key expires in
  stores env d f o s0 e s0' -> (exists l, t = l ++ strace s0) -> left_on D time (strace s0') t d' ->
  Forall (spares f) (strace s1) -> d' f = Some (c, n) ->
  (n + seconds expires <= u64_max)%N -> (time2 (EvExists f true :: strace s1) <= n + seconds expires)%N ->
  eval_bif env2 s i (bif_text mods (B "cache") body) only =
  finished mods c (add_event (EvRead f (Some c)) (dated env2 s1 f)) (started_in s i) /\
  (begins c o \/ D (strace s0) f = Some (c, n)).
Proof.
  intros env D time d o s0 e s0' t d' env2 D2 time2 s i mods body only a s1 expires key c n HL HL2 HD HM HA HG HU HS HO HF HB HP HE HK HH f
    HW Ht HC HQ Hd HX HN. split.
  - eapply (C80_served env2 D2 time2); try eassumption.
    fold f. rewrite <- (app_nil_r (strace s1)), (spared env2 D2 time2 f HL2 (strace s1) [] HQ), HD. exact Hd.
  - destruct (C81_left _ _ _ _ _ _ _ _ _ _ _ HL HW Ht HC) as [H|(c' & n' & Hb & H)].
    + right. congruence.
    + left. rewrite Hd in H. injection H as -> _. exact Hb.
Qed.
Print Assumptions C81_served_partial.
Definition greeting : string := "{:cache; /60/ >> {:;name:} :}".
(** The machine stops after the entry was created and before it is written: the next process, an instant later, outputs nothing
    where an undisturbed one outputs the name. *)
Theorem C81_undisturbed_refuted : exists env D time env2 D2 time2 t d',
  lives_on env D time /\ left_on D time (rev (trace_in env greeting)) t d' /\ lives_on env2 D2 time2 /\ (forall q, D2 [] q = d' q) /\
  (time t <= time2 [])%N /\ output_in env greeting = B "World" /\ output_in env2 greeting = [].
Proof.
  set (d0 := fun _ : bytes => @None (bytes * N)).
  set (t := [EvCreate entry_here None; EvMkdir (B "/tmp/neutral-cache/abc") None; EvExists entry_here false]).
  set (d' := store_file entry_here ([], 2%N) d0).
  exists (env_on d0), (disk_at d0), (fun t => (0 + N.of_nat (length t))%N), (env_from 3 d'), (disk_from 3 d'), (fun t => (3 + N.of_nat (length t))%N), t, d'.
  split; [apply env_from_lives|]. split.
  { apply lf_between with (l := [EvWrite entry_here (B "World") None]); [vm_compute; reflexivity|reflexivity]. }
  split; [apply env_from_lives|]. split; [reflexivity|]. split; [vm_compute; discriminate|].
  split; vm_compute; reflexivity.
Qed.
Print Assumptions C81_undisturbed_refuted.
(** The conditions of C81_served_partial are met: the same crash. *)
Example C81_example :
  let d' := store_file entry_here ([], 2%N) (fun _ => None) in
  trace_in (env_from 3 d') greeting = [EvExists entry_here true; EvNow 4; EvMtime entry_here (Some 2%N); EvRead entry_here (Some [])] /\
  output_in (env_from 100 d') greeting = B "World" /\
  output_in (env_from 3 (store_file entry_here (B "Wor", 2%N) (fun _ => None))) greeting = B "Wor".
Proof. repeat split; vm_compute; reflexivity. Qed.

(** ** C48: nested caches *)
Definition named (nm src : string) : Template :=
  match merge_schema_value (JObj [(B "data", JObj [(B "name", JStr (B nm))])]) (sample src) with TOk _ t => t | _ => sample src end.
Definition inner_cache : string := "{:cache; /30/ >> {:;name:} :}".
Definition outer_cache : string := "{:cache; /20/ >> {:cache; /30/ >> {:;name:} :} :}".
Definition inner_entry : bytes := B "/tmp/neutral-cache/abc/abcen30{}{:;name:}-30".
Definition traced (env : Env) (t : Template) : trace := match render env 5 t with TOk _ t' => strace (t_shared t') | _ => [] end.
Lemma rendered env t o : match render env 5 t with TOk o' _ => Some o' | _ => None end = Some o ->
  exists t', render env 5 t = TOk o t' /\ traced env t = strace (t_shared t').
Proof. unfold traced. destruct (render env 5 t) as [o' t'| |]; intro H; try discriminate. assert (o' = o) as -> by congruence. eauto. Qed.
(** The content of a nested cache can be shown long after its own seconds: the outer entry keeps it for its own time.  Three processes on one
    disk: the first stores both entries, the second finds the outer one expired and the inner one fresh, the third still shows the first
    name when the inner entry has expired and the inner cache alone shows the new name.  (doc/bif-cache.md: "the second every 300 seconds".) *)
Theorem C48_nested_refuted : exists env1 D1 time1 env2 D2 time2 env3 D3 time3 t1 t2 t3 m,
  lives_on env1 D1 time1 /\ lives_on env2 D2 time2 /\ lives_on env3 D3 time3 /\
  (exists t, render env1 5 (named "old" outer_cache) = TOk (B "old") t /\ t1 = strace (t_shared t)) /\
  (forall q, D2 [] q = D1 t1 q) /\ (time1 t1 <= time2 [])%N /\
  (exists t, render env2 5 (named "new" outer_cache) = TOk (B "old") t /\ t2 = strace (t_shared t)) /\
  (forall q, D3 [] q = D2 t2 q) /\ (time2 t2 <= time3 [])%N /\
  D3 [] inner_entry = Some (B "old", m) /\ (m + 30 < time3 [])%N /\
  (exists t, render env3 5 (named "new" outer_cache) = TOk (B "old") t /\ t3 = strace (t_shared t)) /\
  exists t, render env3 5 (named "new" inner_cache) = TOk (B "new") t.
Proof.
  set (d0 := fun _ : bytes => @None (bytes * N)).
  set (t1 := traced (env_from 0 d0) (named "old" outer_cache)).
  set (d1 := disk_from 0 d0 t1).
  set (t2 := traced (env_from 28 d1) (named "new" outer_cache)).
  set (d2 := disk_from 28 d1 t2).
  set (t3 := traced (env_from 45 d2) (named "new" outer_cache)).
  exists (env_from 0 d0), (disk_from 0 d0), (fun t => (0 + N.of_nat (length t))%N), (env_from 28 d1), (disk_from 28 d1), (fun t => (28 + N.of_nat (length t))%N),
    (env_from 45 d2), (disk_from 45 d2), (fun t => (45 + N.of_nat (length t))%N), t1, t2, t3, 4%N.
  split; [apply env_from_lives|]. split; [apply env_from_lives|]. split; [apply env_from_lives|].
  pose proof rendered as R.
  split; [apply R; vm_compute; reflexivity|]. split; [reflexivity|]. split; [vm_compute; discriminate|].
  split; [apply R; vm_compute; reflexivity|]. split; [reflexivity|]. split; [vm_compute; discriminate|].
  split; [vm_compute; reflexivity|]. split; [vm_compute; reflexivity|]. split; [apply R; vm_compute; reflexivity|].
  destruct (R (env_from 45 d2) (named "new" inner_cache) (B "new")) as (t & H & _); [vm_compute; reflexivity|]. exists t. exact H.
Qed.
Print Assumptions C48_nested_refuted.
