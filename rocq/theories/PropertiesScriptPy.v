(** * Property theorems: Python objects from the template to the callback and back (C106) *)

From Verif Require Import Bytes Json Utils JsonText ConstantsGen State Engine Template Spec SpecEngine BytesFacts HandlerProofs PropertiesObj SpecReplay
  PropertiesReplay PyExec SpecPy PropertiesPy Samples.

(** the process after the interactions [t] (newest first): one interpreter makes all the Python calls of all renders *)
Fixpoint process_after (y : PyExec.Python) (p0 : Process) (t : trace) : Process :=
  match t with
  | [] => p0
  | EvPython x _ :: t => fst (exec_py y x (process_after y p0 t))
  | _ :: t => process_after y p0 t
  end.
(** the scripts of the world [env] are run by the interpreter [y] in a process that was [p0] at first *)
Definition runs_in (env : Env) (y : PyExec.Python) (p0 : Process) : Prop :=
  forall t x, env.(e_python) t x = snd (exec_py y x (process_after y p0 t)).

(** Every script that a render calls is called in the process that all the earlier calls, of this and of earlier renders, have left, and
    the template gets the result of that call. *)
Theorem C106_one_process : forall env y p0 fuel t o t', runs_in env y p0 -> render env fuel t = TOk o t' ->
  exists new, t'.(t_shared).(strace) = new ++ t.(t_shared).(strace) /\
  forall later x r before, new = later ++ EvPython x r :: before ->
    let h := before ++ t.(t_shared).(strace) in
    exec_py y x (process_after y p0 h) = (process_after y p0 (EvPython x r :: h), r).
Proof.
  intros env y p0 fuel t o t' HR H. destruct (C92_recorded _ _ _ _ _ H) as (new & E & RP). exists new. split; [exact E|].
  intros later x r before EN h. specialize (RP _ _ _ EN). cbn [answers] in RP. fold h in RP. rewrite HR in RP. cbn [process_after].
  rewrite <- RP. apply surjective_pairing.
Qed.
Print Assumptions C106_one_process.

(** these calls are a life of the process, so that C82, C83 and C84 hold of them *)
Theorem C106_life : forall y p0 t, exists l, life y p0 l (process_after y p0 t) /\
  rev (map (fun c => snd (fst c)) l) = flat_map (fun e => match e with EvPython x _ => [x] | _ => [] end) t.
Proof.
  intros y p0 t.
  assert (forall p l q a, life y p l q -> life y p (l ++ [(q, a, fst (exec_py y a q))]) (fst (exec_py y a q))) as SN.
  { induction 1 as [p|p b p1 l p2 HC HL IH]; cbn [app]; [|apply (li_call _ _ _ _ _ _ HC IH)].
    eapply li_call; [reflexivity|apply li_none]. }
  induction t as [|e t (l & HL & EL)]; [exists []; split; [constructor|reflexivity]|].
  destruct e; cbn [process_after flat_map app]; try (exists l; split; assumption).
  eexists. split; [apply SN; exact HL|]. rewrite map_app, rev_app_distr. cbn [map fst snd rev app]. rewrite EL. reflexivity.
Qed.
Print Assumptions C106_life.

(** the function [cb] of every module that was loaded from [f] returns, for these parameters, an object whose JSON text is that of [v] *)
Definition returns (y : PyExec.Python) (f cb : bytes) (params v : json) : Prop :=
  forall t it m, m.(m_file) = f -> exists o it' txt, y.(y_call) t it m cb params = (it', inl o) /\
    y.(y_dumps) o = inl txt /\ y.(y_from_str) txt = inl v.

(** What the callback returns is what the block of the object sees. *)
Theorem C106_python : forall env y p0 s i mods body only file raw s1 m m' s2 x s3 f cb ps sc da l res d t, Forall modifier mods ->
  ~ In "&"%char mods -> ~ In "!"%char mods -> may_start s -> selected only i mods (B "obj") ->
  let i1 := started_in s i in
  (* the object *)
  description env (started s) i1 only (params_of (obj_body body)) file raw s1 ->
  env.(e_from_str) (trim raw) = inl (JObj m) -> asks_for env (JObj m) SpecEngine.Python ->
  members env file i1 only false m s1 m' s2 -> calls env s2 i1 SpecEngine.Python (JObj m') x s3 ->
  (* the call: a function is run, and returns *)
  runs_in env y p0 ->
  let p := process_after y p0 s3.(strace) in
  new_acts p (fst (exec_py y x p)) l -> In (PCall f cb ps sc da) l -> returns y f x.(x_callback) x.(x_params) res ->
  tame y (fun n => n = B "json") ->
  data_part env res d -> template_part (JObj m') t ->
  eval_bif env s i (bif_text mods (B "obj") body) only =
  and_then (eval_in env (B "obj") file (has_mod "+" mods) (add_event (EvPython x (inl res)) s3) i1 (d ++ t ++ code_of (obj_body body)) only) (finished mods).
Proof.
  intros env y p0 s i mods body only file raw s1 m m' s2 x s3 f cb ps sc da l res d t HM HA HG HS HO i1 HDe HJ HEn HMe HCa HR p HN HI HRe HTa HDa HT.
  assert (answer env SpecEngine.Python s3 x = inl res) as AN.
  { cbn [answer]. rewrite HR. fold p. destruct (exec_py y x p) as [p' r] eqn:E. cbn [fst snd] in *.
    destruct (C82_call _ _ _ _ _ E) as (l0 & F0 & [(e & -> & N0)|(f' & l2 & F2 & N2 & it & mo & it' & rs & EM & EC & EG & EJ)]).
    - exfalso. unfold new_acts in *. rewrite N0 in HN. apply app_inv_tail in HN as <-. rewrite Forall_forall in F0. exact (F0 _ HI).
    - assert (f' = f) as ->.
      { unfold new_acts in *. rewrite N2 in HN. apply app_inv_tail in HN as <-. apply in_app_or in HI as [HI|[HI|HI]].
        - rewrite Forall_forall in F2. destruct (F2 _ HI).
        - congruence.
        - rewrite Forall_forall in F0. destruct (F0 _ HI). }
      destruct (HRe (PCall f (x_callback x) (x_params x) (x_schema x) (x_schema_data x) :: l0 ++ r_acts p) it mo EM) as (o & it2 & txt & E1 & E3 & E4). destruct (EJ HTa) as (g & m2 & E2 & _).
      rewrite EC in E1. assert (it' = it2 /\ rs = inl o) as [-> ->] by (split; congruence). inversion EG; subst; congruence. }
  rewrite (C78_call env s i mods body only file raw s1 m SpecEngine.Python m' s2 x s3 res d t HM HA HG HS HO HDe HJ HEn HMe HCa AN HDa HT).
  fold i1. unfold after_call. rewrite AN. reflexivity.
Qed.
Print Assumptions C106_python.

(** An interpreter with the scripts /a/s.py, /b/s.py and /b/u.py, whose functions main return {"data": {"from": the file they are in}},
    and a machine that runs it. *)
Definition y1 : PyExec.Python :=
  mkPython y0.(y_parent) y0.(y_stem) y0.(y_exists) y0.(y_info) y0.(y_start) y0.(y_find) y0.(y_body) y0.(y_has)
           json (fun _ it m _ _ => (it, inl (JObj [(B "data", JObj [(B "from", JStr m.(m_file))])])))
           (fun v => inl (print_json v)) (fun t => match read_json (fun _ => None) t with Some v => inl v | None => inr [] end).
Definition env_py : Env :=
  mkEnv (fun s => s) (fun s => B "abc" ++ s) (fun s => s)
        (fun t => match read_json (fun _ => None) t with Some v => inl v | None => inr (B "not JSON") end)
        print_json (fun _ => []) (fun a _ => a) (fun _ => None) (fun _ s => Some s) (B "/cwd") (B "/tmp")
        (fun _ _ => true) (fun _ _ => false) (fun _ p => Some p) (fun _ _ => None) (fun _ _ => B "no file")
        (fun _ _ => None) (fun _ _ => None) (fun _ _ _ => None) (fun _ _ => None) (fun _ _ => None)
        (fun _ => 100%N) (fun _ => B "now") (fun _ lo _ => lo) (fun _ => B "0123456789abcdef")
        (fun t x => snd (exec_py y1 x (process_after y1 p0 t))) (fun _ _ => inr (B "no php")).
Example C106_python_example : runs_in env_py y1 p0 /\
  output_in env_py "{:obj; {""file"":""/a/s.py""} >> [{:;local::from:}] :}{:obj; {""file"":""/b/u.py""} >> [{:;local::from:}] :}" = B "[/a/s.py][/b/u.py]" /\
  output_in env_py "{:obj; {""file"":""/a/s.py"",""callback"":""none""} >> [{:;local::from:}] :}{:else;failed:}" = B "failed" /\
  (* the hypotheses of C106_python about the call *)
  tame y1 (fun n => n = B "json") /\
  (forall params, returns y1 (B "/a/s.py") (B "main") params (JObj [(B "data", JObj [(B "from", JStr (B "/a/s.py"))])])) /\
  let x := ask "/a/s.py" None None in exists l, new_acts p0 (fst (exec_py y1 x p0)) l /\ In (PCall (B "/a/s.py") (B "main") (JObj []) None None) l.
Proof.
  split; [intros t x; reflexivity|]. split; [vm_compute; reflexivity|]. split; [vm_compute; reflexivity|].
  split; [split; intros; split; cbn; auto; intros; reflexivity|]. split.
  - intros params t it m E. cbn [y1 y_call y_dumps y_from_str y_obj]. rewrite E. do 3 eexists. split; [reflexivity|]. split; [reflexivity|]. vm_compute. reflexivity.
  - exists (r_acts (fst (exec_py y1 (ask "/a/s.py" None None) p0))). split; [symmetry; apply app_nil_r|]. vm_compute. auto.
Qed.
(** What the block of an object sees is not always what the file that it names returns: of two scripts of the same name the first one answers
    for both. *)
Theorem C106_other_file_refuted : exists env y p0, runs_in env y p0 /\
  (forall it name f, f = B "/a/s.py" \/ f = B "/b/s.py" -> exists o, y.(y_call) [] it (mkMod f []) name JNull = (it, inl o) /\
     y.(y_dumps) o = inl (B "{""data"":{""from"":""" ++ f ++ B """}}")) /\
  output_in env "{:obj; {""file"":""/a/s.py""} >> [{:;local::from:}] :}{:obj; {""file"":""/b/s.py""} >> [{:;local::from:}] :}" = B "[/a/s.py][/a/s.py]".
Proof.
  exists env_py, y1, p0. split; [intros t x; reflexivity|]. split; [|vm_compute; reflexivity].
  intros it name f [->| ->]; eexists; (split; [reflexivity|vm_compute; reflexivity]).
Qed.
Print Assumptions C106_other_file_refuted.
