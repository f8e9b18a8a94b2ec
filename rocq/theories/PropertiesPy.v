(** * Property theorems: calls of Python scripts over the life of a process *)

From Verif Require Import Bytes Json State Spec BytesFacts FastCgi PyExec SpecPy JsonText.

Lemma alookup_remove_same {A} k (l : list (bytes * A)) : alookup k (aremove k l) = None.
Proof. induction l as [|[k' v] l IH]; [reflexivity|]. cbn [aremove]. destruct (beq k k') eqn:E; [exact IH|]. cbn [alookup]. rewrite E. exact IH. Qed.
Lemma alookup_remove_other {A} k k' (l : list (bytes * A)) : k <> k' -> alookup k' (aremove k l) = alookup k' l.
Proof.
  intro N. induction l as [|[k0 v] l IH]; [reflexivity|]. cbn [aremove alookup]. destruct (beq_spec k k0) as [->|].
  - destruct (beq_spec k' k0) as [->|]; [contradiction|exact IH].
  - cbn [alookup]. rewrite IH. reflexivity.
Qed.
Lemma alookup_put_same {A} k (v : A) l : alookup k (aput k v l) = Some v.
Proof. unfold aput. cbn [alookup]. rewrite beq_refl. reflexivity. Qed.
Lemma alookup_put_other {A} k k' (v : A) l : k <> k' -> alookup k' (aput k v l) = alookup k' l.
Proof. intro N. unfold aput. cbn [alookup]. destruct (beq_spec k' k) as [->|]; [contradiction|]. apply alookup_remove_other. exact N. Qed.

(** ** The actions of each part *)
Definition quiet {A} (m : Y A) : Prop := forall st st' r, m st = (st', r) -> exists l, snd st' = l ++ snd st /\ Forall is_load l.
Lemma quiet_ret {A} (a : A) : quiet (yret a).
Proof. intros st st' r E. injection E as <- <-. exists []. split; [reflexivity|constructor]. Qed.
Lemma quiet_fail {A} e : quiet (@yfail A e).
Proof. intros st st' r E. injection E as <- <-. exists []. split; [reflexivity|constructor]. Qed.
Lemma quiet_bind {A C} (m : Y A) (f : A -> Y C) : quiet m -> (forall a, quiet (f a)) -> quiet (ybind m f).
Proof.
  intros Hm Hf st st' r E. unfold ybind in E. destruct (m st) as [st1 [a|e]] eqn:E1.
  - destruct (Hm _ _ _ E1) as (l1 & H1 & F1). destruct (Hf _ _ _ _ E) as (l2 & H2 & F2).
    exists (l2 ++ l1). rewrite H2, H1, app_assoc. split; [reflexivity|]. apply Forall_app. auto.
  - injection E as <- <-. exact (Hm _ _ _ E1).
Qed.
Lemma quiet_import y n : quiet (import y n).
Proof.
  intros [it t] st' r E. unfold import in E.
  assert (forall t', t' = t -> exists l, t' = l ++ t /\ Forall is_load l) as H0 by (intros t' ->; exists []; split; [reflexivity|constructor]).
  assert (forall f t', t' = PLoad n f :: t -> exists l, t' = l ++ t /\ Forall is_load l) as H1.
  { intros f t' ->. exists [PLoad n f]. split; [reflexivity|]. repeat constructor. }
  destruct (alookup n (i_mods it)); [injection E as <- <-; apply H0; reflexivity|].
  destruct (find_in y t (i_path it) n) as [f|]; [|injection E as <- <-; apply H0; reflexivity].
  destruct (y_body y _ _ n f) as [it2 [e|]]; [injection E as <- <-; eapply H1; reflexivity|].
  destruct (alookup n (i_mods it2)); injection E as <- <-; eapply H1; reflexivity.
Qed.
Lemma quiet_prepare y v : quiet (prepare_python_params y v).
Proof. apply quiet_bind; [apply quiet_import|]. intros _. apply quiet_ret. Qed.
Lemma quiet_path y f : quiet (setup_python_path y f).
Proof. intros [it t] st' r E. injection E as <- <-. exists []. split; [reflexivity|constructor]. Qed.
Lemma quiet_attrs n m a : quiet (with_attrs n m a).
Proof. intros [it t] st' r E. injection E as <- <-. exists []. split; [reflexivity|constructor]. Qed.
Lemma quiet_name y f : quiet (extract_module_name y f).
Proof. unfold extract_module_name. destruct (y_stem y f); [apply quiet_ret|apply quiet_fail]. Qed.
Lemma quiet_hand y n m at_ v : quiet (hand_over y n m at_ v).
Proof.
  apply quiet_bind.
  - destruct (alookup at_ (m_attrs m)); [apply quiet_attrs|apply quiet_ret].
  - intro m1. destruct v as [v|]; [|apply quiet_ret]. apply quiet_bind; [apply quiet_prepare|]. intro v'. apply quiet_attrs.
Qed.
Lemma prepare_value y v st st' v' : prepare_python_params y v st = (st', inl v') -> v' = v.
Proof. unfold prepare_python_params, ybind, yret. destruct (import y (B "json") st) as [st1 [m|e]]; congruence. Qed.
(** what the module has after [hand_over] *)
Lemma hand_attrs y n m at_ v st st' m' : hand_over y n m at_ v st = (st', inl m') ->
  m_file m' = m_file m /\ alookup at_ (m_attrs m') = v /\ forall k, at_ <> k -> alookup k (m_attrs m') = alookup k (m_attrs m).
Proof.
  unfold hand_over, ybind. intro E.
  assert (exists st1 m1, (match alookup at_ (m_attrs m) with Some _ => with_attrs n m (aremove at_ (m_attrs m)) | None => yret m end) st = (st1, inl m1) /\
    m_file m1 = m_file m /\ alookup at_ (m_attrs m1) = None /\ forall k, at_ <> k -> alookup k (m_attrs m1) = alookup k (m_attrs m)) as (st1 & m1 & E1 & F1 & L1 & O1).
  { destruct (alookup at_ (m_attrs m)) eqn:EA.
    - destruct st as [it t]. do 2 eexists. split; [reflexivity|]. cbn [m_file m_attrs]. split; [reflexivity|].
      split; [apply alookup_remove_same|]. intros k N. apply alookup_remove_other. exact N.
    - do 2 eexists. split; [reflexivity|]. auto. }
  rewrite E1 in E. destruct v as [v|].
  - destruct (prepare_python_params y v st1) as [[it2 t2] [v'|e]] eqn:E2; [|discriminate]. apply prepare_value in E2 as ->.
    injection E as <- <-. cbn [m_file m_attrs]. split; [exact F1|]. split; [apply alookup_put_same|].
    intros k N. rewrite alookup_put_other by exact N. apply O1. exact N.
  - injection E as <- <-. auto.
Qed.
(** the module json stays loaded, and sys.path as it is *)
Definition jsn (n : bytes) : Prop := n = B "json".
Definition has (path : list bytes) (it : Interp) : Prop := i_path it = path /\ exists j, loaded_from it (B "json") j.
Lemma has_undisturbed path it it' : has path it -> undisturbed jsn it it' -> has path it'.
Proof. intros [H1 (j & H2)] [U1 U2]. split; [congruence|]. exists j. apply (U2 (B "json") j eq_refl). exact H2. Qed.
Lemma has_put path it n m : has path it -> has path (mkInterp (i_path it) (aput n m (i_mods it))).
Proof.
  intros [H1 (j & m0 & H2 & H3)]. split; [exact H1|]. destruct (beq_spec n (B "json")) as [->|N].
  - exists (m_file m), m. split; [apply alookup_put_same|reflexivity].
  - exists j, m0. split; [|exact H3]. cbn [i_mods]. rewrite alookup_put_other by exact N. exact H2.
Qed.
Lemma has_import y (HT : tame y jsn) path n it t st' r : has path it -> import y n (it, t) = (st', r) -> has path (fst st').
Proof.
  intros F E. unfold import in E. destruct (alookup n (i_mods it)) as [m|] eqn:EL; [injection E as <- _; exact F|].
  destruct (find_in y t (i_path it) n) as [f|]; [|injection E as <- _; exact F].
  pose proof (has_put path it n (mkMod f []) F) as F1.
  pose proof (has_undisturbed _ _ _ F1 (ta_body _ _ HT (PLoad n f :: t) (mkInterp (i_path it) (aput n (mkMod f []) (i_mods it))) n f)) as F2.
  destruct (y_body y (PLoad n f :: t) (mkInterp (i_path it) (aput n (mkMod f []) (i_mods it))) n f) as [it2 [e|]]; cbn [fst] in F2.
  - injection E as <- _. destruct F2 as [P (j & m & Hm & Hj)]. split; [exact P|]. exists j, m. split; [|exact Hj]. cbn [fst i_mods].
    rewrite alookup_remove_other; [exact Hm|]. intros ->. destruct F as [_ (j0 & m0 & H0 & _)]. congruence.
  - destruct (alookup n (i_mods it2)); injection E as <- _; exact F2.
Qed.
Lemma has_hand y (HT : tame y jsn) path n m at_ v it t st' r : has path it -> hand_over y n m at_ v (it, t) = (st', r) -> has path (fst st').
Proof.
  intros F E. unfold hand_over, ybind in E.
  assert (exists it1 m1, (match alookup at_ (m_attrs m) with Some _ => with_attrs n m (aremove at_ (m_attrs m)) | None => yret m end) (it, t) =
    ((it1, t), inl m1) /\ has path it1) as (it1 & m1 & E1 & F1).
  { destruct (alookup at_ (m_attrs m)); do 2 eexists; (split; [reflexivity|]); [|exact F]. apply has_put, F. }
  rewrite E1 in E. destruct v as [v|]; [|injection E as <- _; exact F1].
  unfold prepare_python_params, ybind in E. destruct (import y (B "json") (it1, t)) as [[it2 t2] r2] eqn:E2.
  apply (has_import y HT path) in E2; [|exact F1]. cbn [fst] in E2. destruct r2; injection E as <- _; [|exact E2]. apply has_put, E2.
Qed.
(** what a call does *)
Definition wrap (cb : bytes) (r : json + bytes) : json + bytes := match r with inl v => inl v | inr e => inr (call_error cb e) end.
Inductive outcome (y : Python) (a : exec_args) (J : Prop) (file : bytes -> Prop) (t t' : list pyact) (r : json + bytes) : Prop :=
| oc_none e l : r = inr e -> t' = l ++ t -> Forall is_load l -> outcome y a J file t t' r
| oc_call f l l2 it m it' res : file f -> Forall is_load l -> Forall is_load l2 ->
    t' = l2 ++ PCall f a.(x_callback) a.(x_params) a.(x_schema) a.(x_schema_data) :: l ++ t ->
    m.(m_file) = f -> y.(y_call) (PCall f a.(x_callback) a.(x_params) a.(x_schema) a.(x_schema_data) :: l ++ t) it m a.(x_callback) a.(x_params) = (it', res) ->
    gives_back y a.(x_callback) it' res (wrap a.(x_callback) r) -> (J -> exists g, loaded_from it' (B "json") g) -> outcome y a J file t t' r.
Lemma outcome_later y a J file t t0 t1 r l : Forall is_load l -> t0 = l ++ t -> outcome y a J file t0 t1 r -> outcome y a J file t t1 r.
Proof.
  intros HF -> [e l1 -> -> F1|f l1 l2 it m it' res Hf F1 F2 -> Hm HC HG HJ].
  - eapply oc_none; [reflexivity|apply app_assoc|]. apply Forall_app. auto.
  - rewrite app_assoc in HC. eapply oc_call; [exact Hf| |exact F2|rewrite app_assoc; reflexivity|exact Hm|exact HC|exact HG|exact HJ]. apply Forall_app. auto.
Qed.
Lemma outcome_any y a J (file file' : bytes -> Prop) t t' r : (forall f, file f -> file' f) -> outcome y a J file t t' r -> outcome y a J file' t t' r.
Proof.
  intros H [e l Hr Ht HF|f l l2 it m it' res Hf F1 F2 Ht Hm HC HG HJ]; [eapply oc_none; eassumption|exact (oc_call _ _ _ _ _ _ _ f l l2 it m it' res (H _ Hf) F1 F2 Ht Hm HC HG HJ)].
Qed.
Lemma convert_back y cb o it t st' r : convert_result y o (it, t) = (st', r) ->
  (exists l, snd st' = l ++ t /\ Forall is_load l) /\ gives_back y cb it (inl o) (wrap cb r).
Proof.
  intro E. unfold convert_result, ybind in E. destruct (import y (B "json") (it, t)) as [[it2 t2] r2] eqn:E2.
  destruct (quiet_import _ _ _ _ _ E2) as (l & T & F). cbn [snd] in T. destruct r2 as [m|e].
  - destruct (y_dumps y o) as [txt|e] eqn:ED.
    + destruct (y_from_str y txt) as [v|e] eqn:EF; injection E as <- <-; (split; [exists l; auto|]).
      * eapply gb_value; eassumption.
      * eapply gb_not_json; eassumption.
    + injection E as <- <-. split; [exists l; auto|]. apply gb_no_text. exact ED.
  - injection E as <- <-. split; [exists l; auto|]. apply gb_no_module. intros m H. unfold import in E2. rewrite H in E2. discriminate.
Qed.
Lemma outcome_call y a (J : Prop) m st st' r : (J -> tame y jsn /\ exists path, has path (fst st)) ->
  alookup (B "__NEUTRAL_SCHEMA__") (m_attrs m) = x_schema a -> alookup (B "__NEUTRAL_SCHEMA_DATA__") (m_attrs m) = x_schema_data a ->
  call_function y m (x_callback a) (x_params a) st = (st', r) -> outcome y a J (fun f => f = m_file m) (snd st) (snd st') r.
Proof.
  intros HJ H1 H2. destruct st as [it t]. cbn [fst] in HJ. unfold call_function. destruct (y_has y m (x_callback a)).
  - rewrite H1, H2. destruct (y_call y _ it m (x_callback a) (x_params a)) as [it2 r2] eqn:EC. intro E.
    assert (J -> exists g, loaded_from it2 (B "json") g) as HJ2.
    { intro K. destruct (HJ K) as (HT & path & HH). pose proof (ta_call _ _ HT (PCall (m_file m) (x_callback a) (x_params a) (x_schema a) (x_schema_data a) :: t) it m (x_callback a) (x_params a)) as U. rewrite EC in U.
      exact (proj2 (has_undisturbed _ _ _ HH U)). }
    destruct r2 as [o|e].
    + destruct (convert_back y (x_callback a) _ _ _ _ _ E) as ((l2 & T & F) & G).
      eapply oc_call with (l := []) (l2 := l2); [reflexivity|constructor|exact F|exact T|reflexivity|exact EC|exact G|exact HJ2].
    + injection E as <- <-. eapply oc_call with (l := []) (l2 := []); [reflexivity|constructor|constructor|reflexivity|reflexivity|exact EC|apply gb_raised|exact HJ2].
  - intro E. injection E as <- <-. eapply oc_none with (l := []); [reflexivity|reflexivity|constructor].
Qed.
(** the part after the import of the module [m] *)
Definition serve (y : Python) (a : exec_args) (name : bytes) (m : pymod) : Y json :=
  ybind (hand_over y name m (B "__NEUTRAL_SCHEMA__") a.(x_schema)) (fun m =>
  ybind (hand_over y name m (B "__NEUTRAL_SCHEMA_DATA__") a.(x_schema_data)) (fun m => call_function y m a.(x_callback) a.(x_params))).
Lemma outcome_serve y a (J : Prop) name m st st' r : (J -> tame y jsn /\ exists path, has path (fst st)) -> serve y a name m st = (st', r) -> outcome y a J (fun f => f = m_file m) (snd st) (snd st') r.
Proof.
  unfold serve, ybind. intros HJ E.
  destruct (hand_over y name m (B "__NEUTRAL_SCHEMA__") (x_schema a) st) as [st1 r1] eqn:E1.
  destruct (quiet_hand _ _ _ _ _ _ _ _ E1) as (l1 & T1 & F1).
  destruct r1 as [m1|e]; [|injection E as <- <-; eapply oc_none; [reflexivity|exact T1|exact F1]].
  destruct (hand_attrs _ _ _ _ _ _ _ _ E1) as (A1 & A2 & A3).
  destruct (hand_over y name m1 (B "__NEUTRAL_SCHEMA_DATA__") (x_schema_data a) st1) as [st2 r2] eqn:E2.
  destruct (quiet_hand _ _ _ _ _ _ _ _ E2) as (l2 & T2 & F2). apply (outcome_later _ _ _ _ _ _ _ _ _ F1 T1).
  destruct r2 as [m2|e]; [|injection E as <- <-; eapply oc_none; [reflexivity|exact T2|exact F2]].
  destruct (hand_attrs _ _ _ _ _ _ _ _ E2) as (C1 & C2 & C3). apply (outcome_later _ _ _ _ _ _ _ _ _ F2 T2).
  rewrite <- A1, <- C1. eapply outcome_call; [| |exact C2|exact E].
  { intro K. destruct (HJ K) as (HT & path & HH). split; [exact HT|]. exists path. destruct st as [it t], st1 as [it1 t1].
    exact (has_hand y HT path _ _ _ _ _ _ _ _ (has_hand y HT path _ _ _ _ _ _ _ _ HH E1) E2). }
  rewrite C3 by discriminate. exact A2.
Qed.
Lemma attach_unfold y a st : attach y a st =
  ybind (prepare_python_params y (x_params a)) (fun params => ybind (setup_python_path y (x_file a)) (fun _ =>
  ybind (extract_module_name y (x_file a)) (fun name => ybind (import y name) (fun m =>
  ybind (hand_over y name m (B "__NEUTRAL_SCHEMA__") a.(x_schema)) (fun m =>
  ybind (hand_over y name m (B "__NEUTRAL_SCHEMA_DATA__") a.(x_schema_data)) (fun m => call_function y m a.(x_callback) params)))))) st.
Proof. reflexivity. Qed.
Lemma prepare_has y v st st' v' : prepare_python_params y v st = (st', inl v') -> exists path, has path (fst st').
Proof.
  unfold prepare_python_params, ybind. destruct st as [it t]. destruct (import y (B "json") (it, t)) as [st1 r1] eqn:E. intro H.
  destruct r1 as [m|]; [|discriminate]. injection H as <- _. exists (i_path (fst st1)). split; [reflexivity|]. unfold import in E.
  destruct (alookup (B "json") (i_mods it)) as [m0|] eqn:EL; [injection E as <- _; exists (m_file m0), m0; auto|].
  destruct (find_in y t (i_path it) (B "json")) as [f|]; [|discriminate].
  destruct (y_body y _ _ (B "json") f) as [it2 [e|]]; [discriminate|]. destruct (alookup (B "json") (i_mods it2)) as [m0|] eqn:E2; [|discriminate].
  injection E as <- _. exists (m_file m0), m0. auto.
Qed.
Lemma outcome_attach y a st st' r : attach y a st = (st', r) -> outcome y a (tame y jsn) (fun _ => True) (snd st) (snd st') r.
Proof.
  rewrite attach_unfold. unfold ybind at 1. intro E.
  destruct (prepare_python_params y (x_params a) st) as [st1 r1] eqn:E1. destruct (quiet_prepare _ _ _ _ _ E1) as (l1 & T1 & F1).
  destruct r1 as [v|e]; [|injection E as <- <-; eapply oc_none; [reflexivity|exact T1|exact F1]].
  pose proof (prepare_has _ _ _ _ _ E1) as J1. apply prepare_value in E1 as ->. apply (outcome_later _ _ _ _ _ _ _ _ _ F1 T1). clear T1 F1.
  unfold ybind at 1 in E. destruct (setup_python_path y (x_file a) st1) as [st2 r2] eqn:E2. destruct (quiet_path _ _ _ _ _ E2) as (l2 & T2 & F2).
  destruct r2 as [u|e]; [|injection E as <- <-; eapply oc_none; [reflexivity|exact T2|exact F2]].
  apply (outcome_later _ _ _ _ _ _ _ _ _ F2 T2). clear T2 F2.
  unfold ybind at 1 in E. destruct (extract_module_name y (x_file a) st2) as [st3 r3] eqn:E3. destruct (quiet_name _ _ _ _ _ E3) as (l3 & T3 & F3).
  destruct r3 as [n|e]; [|injection E as <- <-; eapply oc_none; [reflexivity|exact T3|exact F3]].
  apply (outcome_later _ _ _ _ _ _ _ _ _ F3 T3). clear T3 F3.
  unfold ybind at 1 in E. destruct (import y n st3) as [st4 r4] eqn:E4. destruct (quiet_import _ _ _ _ _ E4) as (l4 & T4 & F4).
  destruct r4 as [m|e]; [|injection E as <- <-; eapply oc_none; [reflexivity|exact T4|exact F4]].
  apply (outcome_later _ _ _ _ _ _ _ _ _ F4 T4). clear T4 F4.
  apply (outcome_any _ _ _ (fun f => f = m_file m)); [trivial|].
  assert (exists path, has path (fst st3)) as J3.
  { destruct st1 as [it1 t1]. unfold setup_python_path in E2. injection E2 as <- _. unfold extract_module_name in E3.
    destruct J1 as (path & H1 & H2). destruct (y_stem y (x_file a)); injection E3 as <- _; (eexists; split; [reflexivity|exact H2]). }
  refine (outcome_serve y a _ n m st4 st' r _ E). intro HT. split; [exact HT|]. destruct J3 as (path & HH). exists path. destruct st3 as [it3 t3].
  exact (has_import y HT path _ _ _ _ _ HH E4).
Qed.

(** ** C82: what a script sees *)
(** Whatever was called before in the process: a call runs module bodies and then at most one function, with the parameters of
    this call, and with the schema and schema data of this call exactly if they are handed over in this call.  The result of the call is
    what this function gives back; the module json is there for it unless scripts remove it. *)
Theorem C82_call : forall y a p p' r, exec_py y a p = (p', r) -> exists l, Forall is_load l /\
  ((exists e, r = inr e /\ new_acts p p' l) \/
   exists f l2, let call := PCall f a.(x_callback) a.(x_params) a.(x_schema) a.(x_schema_data) in
     Forall is_load l2 /\ new_acts p p' (l2 ++ call :: l) /\
     exists it m it' res, m.(m_file) = f /\ y.(y_call) (call :: l ++ p.(r_acts)) it m a.(x_callback) a.(x_params) = (it', res) /\
       gives_back y a.(x_callback) it' res r /\
       (tame y (fun n => n = B "json") -> exists g, loaded_from it' (B "json") g)).
Proof.
  intros y a p p' r E. unfold exec_py in E.
  destruct (match x_venv a with Some v => setup_venv y v (r_vars p) | None => (r_vars p, None) end) as [vars [e|]].
  - injection E as <- <-. exists []. split; [constructor|]. left. exists e. split; reflexivity.
  - destruct (attach y a _) as [[it t] r1] eqn:EA. injection E as <- <-. apply outcome_attach in EA. cbn [snd] in EA.
    destruct EA as [e l -> Ht HF|f l l2 it1 m it' res Hf F1 F2 Ht Hm HC HG HJ].
    + exists l. split; [exact HF|]. left. eexists. split; [reflexivity|exact Ht].
    + exists l. split; [exact F1|]. right. exists f, l2. cbv zeta. split; [exact F2|]. split; [unfold new_acts; rewrite <- app_assoc; exact Ht|].
      exists it1, m, it', res. split; [exact Hm|]. split; [exact HC|]. split; [exact HG|exact HJ].
Qed.
Print Assumptions C82_call.

(** ** C83: which code is run *)
Lemma import_loaded y n m it t : alookup n (i_mods it) = Some m -> import y n (it, t) = ((it, t), inl m).
Proof. intro H. unfold import. rewrite H. reflexivity. Qed.
Lemma find_first y t n f l : first_found y t n f l -> find_in y t l n = Some f.
Proof. induction 1 as [d l H|d l H _ IH]; cbn [find_in]; rewrite H; [reflexivity|exact IH]. Qed.
(** the beginning of a call in a process where json has been loaded before *)
Lemma attach_start y a it t name : (exists g, loaded_from it (B "json") g) -> y_stem y (x_file a) = Some name ->
  attach y a (it, t) = ybind (import y name) (fun m => serve y a name m) (mkInterp (i_path it ++ [script_dir y (x_file a)]) (i_mods it), t).
Proof.
  intros (g & m & Hm & _) HS. rewrite attach_unfold. unfold ybind at 1, prepare_python_params, ybind at 1. rewrite (import_loaded _ _ _ _ _ Hm).
  unfold yret. unfold ybind at 1. unfold setup_python_path. unfold ybind at 1. unfold extract_module_name. rewrite HS. reflexivity.
Qed.
(** the call in a started interpreter *)
Lemma exec_started y a p it p' r : r_py p = Some it -> exec_py y a p = (p', r) ->
  r_acts p' = r_acts p /\ r_py p' = Some it \/
  exists it' r1, attach y a (it, r_acts p) = ((it', r_acts p'), r1) /\ r_py p' = Some it' /\ r = match r1 with inl v => inl v | inr e =>
      inr (B "Error executing callback function '" ++ x_callback a ++ B "': " ++ e) end.
Proof.
  intros HP E. unfold exec_py in E. rewrite HP in E.
  destruct (match x_venv a with Some v => setup_venv y v (r_vars p) | None => (r_vars p, None) end) as [vars [e|]].
  - injection E as <- _. left. split; reflexivity.
  - right. destruct (attach y a (it, r_acts p)) as [[it' t'] r1]. injection E as <- <-. exists it', r1. auto.
Qed.
Lemma outcome_file y a J file t t' r l f cb ps s d : outcome y a J file t t' r -> t' = l ++ t -> In (PCall f cb ps s d) l -> file f.
Proof.
  intros [e l1 _ -> HF|f1 l1 l2 it m it' res Hf HF HF2 -> _ _ _ _] E HI.
  - apply app_inv_tail in E as <-. rewrite Forall_forall in HF. destruct (HF _ HI).
  - set (c := PCall f1 _ _ _ _) in E. rewrite (app_assoc l2 (c :: l1) t : l2 ++ c :: l1 ++ t = _) in E.
    apply app_inv_tail in E as <-. apply in_app_or in HI as [HI|[E|HI]].
    + rewrite Forall_forall in HF2. destruct (HF2 _ HI).
    + injection E as <- _ _ _ _. exact Hf.
    + rewrite Forall_forall in HF. destruct (HF _ HI).
Qed.
(** A module of that name was loaded before: its code is run, whatever file the template names. *)
Theorem C83_loaded : forall y a p it name f p' r l g cb ps s d, p.(r_py) = Some it -> (exists j, loaded_from it (B "json") j) ->
  y.(y_stem) a.(x_file) = Some name -> loaded_from it name f ->
  exec_py y a p = (p', r) -> new_acts p p' l -> In (PCall g cb ps s d) l -> g = f.
Proof.
  intros y a p it name f p' r l g cb ps s d HP HJ HS (m & Hm & <-) E HN HI.
  destruct (exec_started y a p it p' r HP E) as [[HA _]|(it' & r1 & HA & _)].
  - unfold new_acts in HN. rewrite HA in HN. apply (app_inv_tail _ [] l) in HN as <-. destruct HI.
  - rewrite (attach_start y a it _ name HJ HS) in HA. unfold ybind at 1 in HA. rewrite (import_loaded y name m) in HA by exact Hm.
    apply (outcome_serve _ _ False) in HA; [|intros []]. cbn [snd] in HA. apply (outcome_file _ _ _ _ _ _ _ _ _ _ _ _ _ HA HN HI).
Qed.
Print Assumptions C83_loaded.
(** No module of that name was loaded before: it is taken from the first entry of sys.path that has one, the script's own directory being
    the last entry. *)
Theorem C83_fresh : forall y a p it name f p' r l g cb ps s d, p.(r_py) = Some it -> (exists j, loaded_from it (B "json") j) ->
  y.(y_stem) a.(x_file) = Some name -> (forall f, ~ loaded_from it name f) ->
  first_found y (p.(r_acts)) name f (it.(i_path) ++ [script_dir y a.(x_file)]) ->
  (forall t it1, loaded_from it1 name f -> loaded_from (fst (y.(y_body) t it1 name f)) name f) ->
  exec_py y a p = (p', r) -> new_acts p p' l -> In (PCall g cb ps s d) l -> g = f.
Proof.
  intros y a p it name f p' r l g cb ps s d HP HJ HS HU HF HB E HN HI.
  destruct (exec_started y a p it p' r HP E) as [[HA _]|(it' & r1 & HA & _)].
  - unfold new_acts in HN. rewrite HA in HN. apply (app_inv_tail _ [] l) in HN as <-. destruct HI.
  - rewrite (attach_start y a it _ name HJ HS) in HA. unfold ybind at 1, import in HA. cbn [i_path i_mods] in HA.
    assert (alookup name (i_mods it) = None) as HL.
    { destruct (alookup name (i_mods it)) as [m|] eqn:EL; [|reflexivity]. destruct (HU (m_file m)). exists m. auto. }
    rewrite HL, (find_first _ _ _ _ _ HF) in HA.
    set (it1 := mkInterp (i_path it ++ [script_dir y (x_file a)]) (aput name (mkMod f []) (i_mods it))) in *.
    specialize (HB (PLoad name f :: r_acts p) it1).
    assert (loaded_from it1 name f) as HL1 by (exists (mkMod f []); split; [apply alookup_put_same|reflexivity]).
    specialize (HB HL1). destruct (y_body y (PLoad name f :: r_acts p) it1 name f) as [it2 [e|]]; cbn [fst] in HB.
    + injection HA as _ HA _. unfold new_acts in HN. rewrite <- HA in HN. change (PLoad name f :: r_acts p) with ([PLoad name f] ++ r_acts p) in HN.
      apply app_inv_tail in HN as <-. destruct HI as [HI|[]]. discriminate.
    + destruct HB as (m & Hm & Hf). rewrite Hm in HA. apply (outcome_serve _ _ False) in HA; [|intros []]. cbn [snd] in HA.
      rewrite <- Hf. apply (outcome_later _ _ _ _ (r_acts p) _ _ _ [PLoad name f]) in HA; [|repeat constructor|reflexivity].
      exact (outcome_file _ _ _ _ _ _ _ _ _ _ _ _ _ HA HN HI).
Qed.
Print Assumptions C83_fresh.

(** ** A whole life of a process *)
Section Life.
Variables (y : Python) (names path : bytes -> Prop) (calls : list exec_args).
Hypothesis HT : tame y names.
Hypothesis HC : no_clash y names path calls.
Let dir_ok (d : bytes) : Prop := path d \/ exists b, In b calls /\ d = script_dir y b.(x_file).
Let good (n f : bytes) : Prop := names n -> forall a, In a calls -> y.(y_stem) a.(x_file) = Some n -> f = a.(x_file).
Let fine (it : Interp) : Prop := (forall d, In d it.(i_path) -> dir_ok d) /\ forall n f, loaded_from it n f -> good n f.
Lemma fine_undisturbed it it' : fine it -> undisturbed names it it' -> fine it'.
Proof.
  intros [F1 F2] [U1 U2]. split; [rewrite U1; exact F1|]. intros n f H HN. apply (F2 n f); [|exact HN]. apply (U2 n f HN). exact H.
Qed.
Lemma fine_remove it n : fine it -> fine (mkInterp (i_path it) (aremove n (i_mods it))).
Proof.
  intros [F1 F2]. split; [exact F1|]. intros n' f (m & H & Hf). apply F2. cbn [i_mods] in H.
  destruct (beq_spec n n') as [->|N]; [rewrite alookup_remove_same in H; discriminate|]. rewrite alookup_remove_other in H by exact N. exists m. auto.
Qed.
Lemma fine_put it n m : fine it -> good n (m_file m) -> fine (mkInterp (i_path it) (aput n m (i_mods it))).
Proof.
  intros [F1 F2] G. split; [exact F1|]. intros n' f (m' & H & Hf). cbn [i_mods] in H.
  destruct (beq_spec n n') as [->|N]; [rewrite alookup_put_same in H; injection H as <-; subst; exact G|].
  rewrite alookup_put_other in H by exact N. apply F2. exists m'. auto.
Qed.
Lemma find_good t l n f : (forall d, In d l -> dir_ok d) -> find_in y t l n = Some f -> good n f.
Proof.
  induction l as [|d l IH]; intros HD; cbn [find_in]; [discriminate|]. destruct (y_find y t d n) as [g|] eqn:E.
  - intro H. injection H as ->. intros HN a HI HS. apply (nc_own _ _ _ _ HC a n d t f HI HS (HD d (or_introl eq_refl)) E).
  - apply IH. intros d' H. apply HD. right. exact H.
Qed.
Lemma fine_import n it t st' r : fine it -> import y n (it, t) = (st', r) -> fine (fst st') /\ forall m, r = inl m -> good n (m_file m).
Proof.
  intros F E. unfold import in E. destruct (alookup n (i_mods it)) as [m|] eqn:EL.
  - injection E as <- <-. split; [exact F|]. intros m0 H. injection H as <-. apply F. exists m. auto.
  - destruct (find_in y t (i_path it) n) as [f|] eqn:EF; [|injection E as <- <-; split; [exact F|discriminate]].
    assert (good n f) as G by (eapply find_good; [apply F|exact EF]).
    pose proof (ta_body _ _ HT (PLoad n f :: t) (mkInterp (i_path it) (aput n (mkMod f []) (i_mods it))) n f) as U.
    assert (fine (mkInterp (i_path it) (aput n (mkMod f []) (i_mods it)))) as F1 by (apply fine_put; assumption).
    pose proof (fine_undisturbed _ _ F1 U) as F2. clear U F1.
    destruct (y_body y (PLoad n f :: t) (mkInterp (i_path it) (aput n (mkMod f []) (i_mods it))) n f) as [it2 [e|]]; cbn [fst] in F2.
    + injection E as <- <-. split; [apply fine_remove; exact F2|discriminate].
    + destruct (alookup n (i_mods it2)) as [m|] eqn:EM; injection E as <- <-; (split; [exact F2|]); [|discriminate].
      intros m0 H. injection H as <-. apply F2. exists m. auto.
Qed.
Lemma fine_prepare v it t st' r : fine it -> prepare_python_params y v (it, t) = (st', r) -> fine (fst st').
Proof.
  intros F E. unfold prepare_python_params, ybind in E. destruct (import y (B "json") (it, t)) as [st1 r1] eqn:E1.
  apply fine_import in E1; [|exact F]. destruct E1 as [F1 _]. destruct r1; injection E as <- _; exact F1.
Qed.
Lemma fine_hand n m at_ v it t st' r : fine it -> good n (m_file m) -> hand_over y n m at_ v (it, t) = (st', r) -> fine (fst st').
Proof.
  intros F G E. unfold hand_over, ybind in E.
  assert (exists it1 m1, (match alookup at_ (m_attrs m) with Some _ => with_attrs n m (aremove at_ (m_attrs m)) | None => yret m end) (it, t) =
    ((it1, t), inl m1) /\ m_file m1 = m_file m /\ fine it1) as (it1 & m1 & E1 & G1 & F1).
  { destruct (alookup at_ (m_attrs m)); do 2 eexists; (split; [reflexivity|]); (split; [reflexivity|]); [|exact F]. apply fine_put; assumption. }
  rewrite E1 in E. destruct v as [v|]; [|injection E as <- _; exact F1].
  destruct (prepare_python_params y v (it1, t)) as [[it2 t2] r2] eqn:E2. apply fine_prepare in E2; [|exact F1]. cbn [fst] in E2.
  destruct r2 as [v'|e]; injection E as <- _; [|exact E2]. cbn [fst]. apply fine_put; [exact E2|]. cbn [m_file]. rewrite G1. exact G.
Qed.
Lemma fine_serve a n m it t st' r : fine it -> good n (m_file m) -> serve y a n m (it, t) = (st', r) -> fine (fst st').
Proof.
  intros F G E. unfold serve, ybind in E.
  destruct (hand_over y n m (B "__NEUTRAL_SCHEMA__") (x_schema a) (it, t)) as [[it1 t1] r1] eqn:E1.
  pose proof (fine_hand _ _ _ _ _ _ _ _ F G E1) as F1. cbn [fst] in F1.
  destruct r1 as [m1|e]; [|injection E as <- _; exact F1]. destruct (hand_attrs _ _ _ _ _ _ _ _ E1) as (A1 & _ & _). rewrite <- A1 in G.
  destruct (hand_over y n m1 (B "__NEUTRAL_SCHEMA_DATA__") (x_schema_data a) (it1, t1)) as [[it2 t2] r2] eqn:E2.
  pose proof (fine_hand _ _ _ _ _ _ _ _ F1 G E2) as F2. cbn [fst] in F2.
  destruct r2 as [m2|e]; [|injection E as <- _; exact F2]. unfold call_function in E.
  destruct (y_has y m2 (x_callback a)); [|injection E as <- _; exact F2].
  match type of E with context [y_call y ?t0 it2 m2 ?c ?ps] => pose proof (ta_call _ _ HT t0 it2 m2 c ps) as U; destruct (y_call y t0 it2 m2 c ps) as [it3 r3] end.
  pose proof (fine_undisturbed _ _ F2 U) as F3. cbn [fst] in F3. destruct r3 as [o|e]; [|injection E as <- _; exact F3].
  unfold convert_result, ybind in E. destruct (import y (B "json") _) as [[it4 t4] r4] eqn:E4. apply fine_import in E4; [|exact F3]. destruct E4 as [F4 _].
  cbn [fst] in F4. destruct r4; [destruct (y_dumps y o) as [txt|]; [destruct (y_from_str y txt)|]|]; injection E as <- _; exact F4.
Qed.
Lemma fine_attach a it t st' r : fine it -> In a calls -> attach y a (it, t) = (st', r) ->
  fine (fst st') /\ outcome y a False (fun f => f = a.(x_file)) t (snd st') r.
Proof.
  intros F HI E. rewrite attach_unfold in E. unfold ybind at 1 in E.
  destruct (prepare_python_params y (x_params a) (it, t)) as [[it1 t1] r1] eqn:E1.
  pose proof (quiet_prepare _ _ _ _ _ E1) as (l1 & T1 & L1). pose proof (fine_prepare _ _ _ _ _ F E1) as F1. cbn [fst snd] in *.
  destruct r1 as [v|e]; [|injection E as <- <-; split; [exact F1|]; eapply oc_none; [reflexivity|exact T1|exact L1]].
  apply prepare_value in E1 as ->. unfold ybind at 1, setup_python_path in E. fold (script_dir y (x_file a)) in E.
  set (it2 := mkInterp (i_path it1 ++ [script_dir y (x_file a)]) (i_mods it1)) in *.
  assert (fine it2) as F2.
  { destruct F1 as [P1 P2]. split; [|exact P2]. intros d HD. cbn [it2 i_path] in HD. apply in_app_or in HD as [HD|[<-|[]]]; [apply P1; exact HD|].
    right. exists a. auto. }
  unfold ybind at 1 in E. destruct (nc_name _ _ _ _ HC a HI) as (n & HS & HN). unfold extract_module_name at 1 in E. rewrite HS in E. cbn [yret] in E.
  unfold yret in E. unfold ybind at 1 in E.
  destruct (import y n (it2, t1)) as [[it3 t3] r3] eqn:E3. pose proof (quiet_import _ _ _ _ _ E3) as (l3 & T3 & L3).
  apply fine_import in E3; [|exact F2]. destruct E3 as [F3 G3]. cbn [fst snd] in *.
  destruct r3 as [m|e].
  - specialize (G3 m eq_refl). change (serve y a n m (it3, t3) = (st', r)) in E. split; [exact (fine_serve a n m it3 t3 st' r F3 G3 E)|].
    apply (outcome_serve _ _ False) in E; [|intros []]. cbn [snd] in E. apply (outcome_later _ _ _ _ _ _ _ _ _ L1 T1). apply (outcome_later _ _ _ _ _ _ _ _ _ L3 T3).
    eapply outcome_any; [|exact E]. intros f ->. exact (G3 HN a HI HS).
  - injection E as <- <-. split; [exact F3|]. apply (outcome_later _ _ _ _ _ _ _ _ _ L1 T1). eapply oc_none; [reflexivity|exact T3|exact L3].
Qed.
Lemma untouched_fine it : untouched names path it -> fine it.
Proof. intros [U1 U2]. split; [intros d H; left; apply U1, H|]. intros n f H HN. destruct (U2 n f HN H). Qed.
Hypothesis HS : forall vars, untouched names path (y_start y vars).
Lemma life_fine p l p' : life y p l p' -> (forall p1 a p2, In (p1, a, p2) l -> In a calls) ->
  (forall it, r_py p = Some it -> fine it) ->
  forall p1 a p2, In (p1, a, p2) l -> forall t g cb ps s d, new_acts p1 p2 t -> In (PCall g cb ps s d) t -> g = x_file a.
Proof.
  induction 1 as [p|p a0 p1 l p2 HE HL IH]; intros HI HF p3 a p4; [intros []|].
  assert ((forall it, r_py p1 = Some it -> fine it) /\
    forall t g cb ps s d, new_acts p p1 t -> In (PCall g cb ps s d) t -> g = x_file a0) as [F1 O1].
  { assert (In a0 calls) as HA by (eapply HI; left; reflexivity). unfold called in HE. destruct (exec_py y a0 p) as [q r] eqn:E. cbn [fst] in HE. subst q.
    unfold exec_py in E.
    destruct (match x_venv a0 with Some v => setup_venv y v (r_vars p) | None => (r_vars p, None) end) as [vars [e|]].
    - injection E as <- _. split; [exact HF|]. intros t g cb ps s d HN HP. apply (app_inv_tail _ [] t) in HN as <-. destruct HP.
    - assert (fine (match r_py p with Some it => it | None => y_start y vars end)) as F0.
      { destruct (r_py p) as [it|]; [apply HF; reflexivity|apply untouched_fine, HS]. }
      destruct (attach y a0 _) as [[it' t'] r1] eqn:EA. apply fine_attach in EA; [|exact F0|exact HA]. destruct EA as [F1 O1]. cbn [fst snd] in *.
      injection E as <- _. split; [intros it H; injection H as <-; exact F1|].
      intros t g cb ps s d HN HP. exact (outcome_file _ _ _ _ _ _ _ _ _ _ _ _ _ O1 HN HP). }
  intros [E|HIN].
  - injection E as <- <- <-. exact O1.
  - apply (IH (fun p a q H => HI p a q (or_intror H)) F1 p3 a p4 HIN).
Qed.
End Life.
(** In every life of a process whose scripts do not tamper with the interpreter and do not hide each other, every call runs the
    function of the file that the template names. *)
Theorem C83_history_partial : forall y names path p l p', tame y names -> no_clash y names path (map (fun c => snd (fst c)) l) ->
  (forall vars, untouched names path (y.(y_start) vars)) -> (forall it, p.(r_py) = Some it -> untouched names path it) -> life y p l p' ->
  forall p1 a p2 t g cb ps s d, In (p1, a, p2) l -> new_acts p1 p2 t -> In (PCall g cb ps s d) t -> g = a.(x_file).
Proof.
  intros y names path p l p' HT HC HS HU HL p1 a p2 t g cb ps s d HI.
  eapply (life_fine y names path (map (fun c => snd (fst c)) l) HT HC HS p l p' HL).
  - intros q1 b q2 H. apply (in_map (fun c => snd (fst c))) in H. exact H.
  - intros it H. eapply untouched_fine. apply HU, H.
  - exact HI.
Qed.
Print Assumptions C83_history_partial.

(** ** An interpreter for the examples: json in /lib, the scripts /a/s.py, /b/s.py and /b/u.py; a function answers with the file it is
    in and the schema data it sees *)
Definition py_files : list (bytes * bytes * bytes) :=
  [(B "/lib", B "json", B "/lib/json.py"); (B "/a", B "s", B "/a/s.py"); (B "/b", B "s", B "/b/s.py"); (B "/b", B "u", B "/b/u.py")].
Definition py_at (k : bytes * bytes * bytes -> option bytes) : option bytes :=
  fold_right (fun e r => match k e with Some v => Some v | None => r end) None py_files.
Definition y0 : Python :=
  mkPython (fun f => py_at (fun '(d, n, f') => if beq f f' then Some d else None))
           (fun f => py_at (fun '(d, n, f') => if beq f f' then Some n else None))
           (fun p => beq p (B "/v") || beq p (B "/w") || beq p (B "/v/bin/python") || beq p (B "/w/bin/python"))
           (fun e => inl (Some (e ++ [LF] ++ B "/packages" ++ [LF])))
           (fun vars => mkInterp (B "/lib" :: match alookup (B "PYTHONPATH") vars with Some _ => [B "/packages"] | None => [] end) [])
           (fun _ d n => py_at (fun '(d', n', f) => if beq d d' && beq n n' then Some f else None))
           (fun _ it _ _ => (it, None)) (fun _ cb => beq cb (B "main"))
           json (fun _ it m _ _ => (it, inl (JArr [JStr m.(m_file); match alookup (B "__NEUTRAL_SCHEMA_DATA__") m.(m_attrs) with Some v => v | None => JNull end])))
           (fun v => inl (print_json v)) (fun t => match read_json (fun _ => None) t with Some v => inl v | None => inr [] end).
Definition ask (file : string) (data : option json) (venv : option bytes) : exec_args :=
  mkExec (B file) (JObj []) (B "main") None data venv None.
Definition p0 : Process := mkProcess [] None [].
Fixpoint session (y : Python) (p : Process) (l : list exec_args) : Process * list (json + bytes) :=
  match l with
  | [] => (p, [])
  | a :: l => let '(p, r) := exec_py y a p in let '(p, rs) := session y p l in (p, r :: rs)
  end.
Example C82_example :
  snd (session y0 p0 [ask "/a/s.py" (Some (JStr (B "x"))) None; ask "/a/s.py" None None; ask "/a/s.py" (Some (JStr (B "z"))) None]) =
    [inl (JArr [JStr (B "/a/s.py"); JStr (B "x")]); inl (JArr [JStr (B "/a/s.py"); JNull]); inl (JArr [JStr (B "/a/s.py"); JStr (B "z")])].
Proof. vm_compute. reflexivity. Qed.
(** A function that returns float('nan'): json.dumps writes NaN, which is not JSON; the call is an error. *)
Example C82_example_nan :
  let y := mkPython y0.(y_parent) y0.(y_stem) y0.(y_exists) y0.(y_info) y0.(y_start) y0.(y_find) y0.(y_body) y0.(y_has)
             unit (fun _ it _ _ _ => (it, inl tt)) (fun _ => inl (B "NaN")) (fun t => match read_json (fun _ => None) t with Some v => inl v | None => inr (B "expected value") end) in
  snd (exec_py y (ask "/a/s.py" None None) p0) = inr (B "Error executing callback function 'main': ValueError: Error parsing JSON: expected value").
Proof. vm_compute. reflexivity. Qed.
(** Two scripts with the same name in two directories: the second one is never run. *)
Theorem C83_named_file_refuted : exists y p1 a p2 f, p1.(r_py) = None /\ y.(y_find) p1.(r_acts) (script_dir y a.(x_file)) (B "s") = Some a.(x_file) /\
  exists b p3 t, called y b p1 p2 /\ called y a p2 p3 /\ new_acts p2 p3 t /\
    In (PCall f a.(x_callback) a.(x_params) a.(x_schema) a.(x_schema_data)) t /\ f <> a.(x_file).
Proof.
  exists y0, p0, (ask "/b/s.py" None None), (fst (exec_py y0 (ask "/a/s.py" None None) p0)), (B "/a/s.py").
  split; [reflexivity|]. split; [vm_compute; reflexivity|].
  exists (ask "/a/s.py" None None), (fst (exec_py y0 (ask "/b/s.py" None None) (fst (exec_py y0 (ask "/a/s.py" None None) p0)))),
    [PCall (B "/a/s.py") (B "main") (JObj []) None None].
  split; [reflexivity|]. split; [reflexivity|]. split; [vm_compute; reflexivity|]. split; [left; reflexivity|discriminate].
Qed.
Print Assumptions C83_named_file_refuted.
Example C83_example :
  snd (session y0 p0 [ask "/a/s.py" None None; ask "/b/u.py" None None; ask "/a/s.py" None None; ask "/b/s.py" None None]) =
    [inl (JArr [JStr (B "/a/s.py"); JNull]); inl (JArr [JStr (B "/b/u.py"); JNull]); inl (JArr [JStr (B "/a/s.py"); JNull]); inl (JArr [JStr (B "/a/s.py"); JNull])] /\
  tame y0 (fun n => n = B "s" \/ n = B "u") /\ (forall vars, untouched (fun n => n = B "s" \/ n = B "u") (fun d => d <> B "/a" /\ d <> B "/b") (y_start y0 vars)) /\
  no_clash y0 (fun n => n = B "s" \/ n = B "u") (fun d => d <> B "/a" /\ d <> B "/b") [ask "/b/s.py" None None; ask "/b/u.py" None None; ask "/b/s.py" (Some JNull) None].
Proof.
  split; [vm_compute; reflexivity|]. split; [split; intros; (split; [reflexivity|]); intros; reflexivity|]. split.
  - intros vars. split.
    + intros d H. cbn [y0 y_start i_path] in H. destruct (alookup (B "PYTHONPATH") vars); [destruct H as [<-|[<-|[]]]|destruct H as [<-|[]]]; split; discriminate.
    + intros n f _ (m & H & _). discriminate.
  - split.
    + intros a [<-|[<-|[<-|[]]]]; eexists; (split; [vm_compute; reflexivity|]); auto.
    + intros a n d t g HI HS HD.
      assert (d <> B "/a") as HD'. { destruct HD as [[H _]|(b & [<-|[<-|[<-|[]]]] & ->)]; [exact H|vm_compute; discriminate..]. }
      cbn [y0 y_find]. unfold py_at, py_files. cbn [fold_right]. destruct (beq_spec d (B "/lib")) as [->|_].
      * cbn [andb]. destruct (beq_spec n (B "json")) as [->|_]; [|cbn; discriminate]. destruct HI as [<-|[<-|[<-|[]]]]; vm_compute in HS; discriminate.
      * destruct (beq_spec d (B "/a")) as [->|_]; [contradiction|]. cbn [andb]. destruct (beq_spec d (B "/b")) as [->|_]; cbn [andb]; [|discriminate].
        destruct HI as [<-|[<-|[<-|[]]]]; vm_compute in HS; injection HS as <-; vm_compute; congruence.
Qed.

(** ** C84: virtual environments *)
Lemma setup_ok y v vars : venv_ok y v -> exists vars', setup_venv y v vars = (vars', None).
Proof.
  intros (H1 & H2 & H3). unfold setup_venv. rewrite H1, H2. cbn [negb]. destruct (y_info y (v ++ B "/bin/python")) as [[o|]|e]; [|eauto|].
  - destruct (split _ _) as [|h [|q l]]; eauto.
  - destruct (H3 e eq_refl).
Qed.
(** Once the interpreter runs, the venv of a call changes nothing that the script can observe: the same modules are loaded, the same
    function is called, with the same answer. *)
Theorem C84_later_venv : forall y a v p it p1 r1, p.(r_py) = Some it -> venv_ok y v -> exec_py y (with_venv (Some v) a) p = (p1, r1) ->
  exists p2, exec_py y (with_venv None a) p = (p2, r1) /\ p2.(r_py) = p1.(r_py) /\ p2.(r_acts) = p1.(r_acts).
Proof.
  intros y a v p it p1 r1 HP HV E. unfold exec_py in *. cbn [with_venv x_venv] in *. destruct (setup_ok y v (r_vars p) HV) as [vars HS].
  rewrite HS in E. rewrite HP in *.
  replace (attach y (with_venv (Some v) a)) with (attach y (with_venv None a)) in E by reflexivity.
  destruct (attach y (with_venv None a) (it, r_acts p)) as [[it' t'] r']. injection E as <- <-.
  eexists. split; [reflexivity|]. split; reflexivity.
Qed.
Print Assumptions C84_later_venv.
(** The first call of a process starts the interpreter with the variables of its venv. *)
Theorem C84_first_venv : forall y a v p p' r home path rest, p.(r_py) = None -> venv_ok y v -> a.(x_venv) = Some v ->
  (exists out, y.(y_info) (v ++ B "/bin/python") = inl (Some out) /\ split [LF] (trim out) = home :: path :: rest) ->
  exec_py y a p = (p', r) -> variable p' (B "VIRTUAL_ENV") = Some v /\ variable p' (B "PYTHON_EXECUTABLE") = Some (v ++ B "/bin/python") /\
  variable p' (B "PYTHONHOME") = Some home /\ variable p' (B "PYTHONPATH") = Some path /\
  exec_py y (with_venv None a) (mkProcess p'.(r_vars) (Some (y.(y_start) p'.(r_vars))) p.(r_acts)) = (p', r).
Proof.
  intros y a v p p' r home path rest HP (H1 & H2 & H3) HV (out & HO & HL) E. unfold exec_py in E. rewrite HV, HP in E.
  unfold setup_venv in E. rewrite H1, H2, HO in E. cbn [negb] in E. change (B (String "010"%char "")) with [LF] in E. rewrite HL in E.
  set (vars := aput (B "PYTHONPATH") path _) in E. destruct (attach y a (y_start y vars, r_acts p)) as [[it' t'] r0] eqn:EA.
  injection E as <- <-. unfold variable. cbn [r_vars r_acts r_py].
  repeat match goal with |- _ /\ _ => split end.
  - unfold vars. rewrite !alookup_put_other by discriminate. apply alookup_put_same.
  - unfold vars. rewrite !alookup_put_other by discriminate. apply alookup_put_same.
  - unfold vars. rewrite !alookup_put_other by discriminate. apply alookup_put_same.
  - apply alookup_put_same.
  - unfold exec_py. cbn [with_venv x_venv r_py r_vars r_acts]. change (attach y (with_venv None a)) with (attach y a). rewrite EA. reflexivity.
Qed.
Print Assumptions C84_first_venv.
(** A venv that is not there is an error, and nothing else happens. *)
Theorem C84_missing_venv : forall y a v p, a.(x_venv) = Some v -> y.(y_exists) v = false \/ y.(y_exists) (v ++ B "/bin/python") = false ->
  exists e, exec_py y a p = (p, inr e) /\
    (y.(y_exists) v = false /\ e = B "Venv path '" ++ v ++ B "' does not exist" \/
     y.(y_exists) v = true /\ e = B "Python executable not found: " ++ v ++ B "/bin/python").
Proof.
  intros y a v p HV H. unfold exec_py, setup_venv. rewrite HV. destruct (y_exists y v) eqn:E1; cbn [negb].
  - destruct H as [H|H]; [discriminate|]. rewrite H. cbn [negb]. destruct p. eexists. split; [reflexivity|]. right. auto.
  - destruct p. eexists. split; [reflexivity|]. left. auto.
Qed.
Print Assumptions C84_missing_venv.
(** Every failure of a script is reported with the name of its callback. *)
Theorem C84_messages : forall y a p p' e, a.(x_venv) = None -> exec_py y a p = (p', inr e) ->
  exists why, e = B "Error executing callback function '" ++ a.(x_callback) ++ B "': " ++ why.
Proof.
  intros y a p p' e HV E. unfold exec_py in E. rewrite HV in E. destruct (attach y a _) as [[it' t'] [v|why]]; [discriminate|].
  injection E as _ <-. exists why. reflexivity.
Qed.
Print Assumptions C84_messages.
(** A file from whose path no module name can be taken: nothing is loaded or called. *)
Theorem C84_no_name : forall y a p it, a.(x_venv) = None -> p.(r_py) = Some it -> (exists g, loaded_from it (B "json") g) ->
  y.(y_stem) a.(x_file) = None ->
  exists p', exec_py y a p = (p', inr (B "Error executing callback function '" ++ a.(x_callback) ++ B "': ValueError: Could not extract module name from file path")) /\
    new_acts p p' [].
Proof.
  intros y a p it HV HP (g & m & Hm & _) HS. unfold exec_py. rewrite HV, HP.
  assert (attach y a (it, r_acts p) = ((mkInterp (i_path it ++ [script_dir y (x_file a)]) (i_mods it), r_acts p),
    inr (B "ValueError: Could not extract module name from file path"))) as ->.
  { rewrite attach_unfold. unfold ybind at 1, prepare_python_params, ybind at 1. rewrite (import_loaded _ _ _ _ _ Hm).
    unfold yret. unfold ybind at 1. unfold setup_python_path. unfold ybind at 1. unfold extract_module_name. rewrite HS. reflexivity. }
  eexists. split; [reflexivity|]. reflexivity.
Qed.
Print Assumptions C84_no_name.
Example C84_example :
  snd (session y0 p0 [ask "/a/s.py" None (Some (B "/nowhere"))]) = [inr (B "Venv path '/nowhere' does not exist")] /\
  option_map i_path (r_py (fst (session y0 p0 [ask "/a/s.py" None (Some (B "/v")); ask "/b/u.py" None (Some (B "/w"))]))) =
    Some [B "/lib"; B "/packages"; B "/a"; B "/b"] /\
  variable (fst (session y0 p0 [ask "/a/s.py" None (Some (B "/v")); ask "/b/u.py" None (Some (B "/w"))])) (B "VIRTUAL_ENV") = Some (B "/w").
Proof. repeat split; vm_compute; reflexivity. Qed.
(** sys.path grows with every call, by the directory of the script, even if it is there already, and also if the call fails: nothing is
    ever removed. *)
Section Grows.
Variable y : Python.
Hypothesis HT : tame y jsn.
Lemma has_attach path a it t st' r : has path it -> attach y a (it, t) = (st', r) -> has (path ++ [script_dir y (x_file a)]) (fst st').
Proof.
  intros F E. rewrite attach_unfold in E. unfold ybind at 1, prepare_python_params, ybind at 1 in E.
  destruct F as [FP (j & m & Hm & Hj)]. rewrite (import_loaded _ _ _ _ _ Hm) in E. unfold yret in E.
  unfold ybind at 1, setup_python_path in E. fold (script_dir y (x_file a)) in E.
  set (it2 := mkInterp (i_path it ++ [script_dir y (x_file a)]) (i_mods it)) in *.
  assert (has (path ++ [script_dir y (x_file a)]) it2) as F2. { split; [cbn; congruence|]. exists j, m. auto. }
  unfold ybind at 1, extract_module_name in E. destruct (y_stem y (x_file a)) as [n|]; [|injection E as <- _; exact F2]. unfold yret in E.
  unfold ybind at 1 in E. destruct (import y n (it2, t)) as [[it3 t3] r3] eqn:E3. apply (has_import y HT (path ++ [script_dir y (x_file a)])) in E3; [|exact F2].
  cbn [fst] in E3. destruct r3 as [m3|e]; [|injection E as <- _; exact E3].
  unfold ybind at 1 in E. destruct (hand_over y n m3 _ (x_schema a) (it3, t3)) as [[it4 t4] r4] eqn:E4. apply (has_hand y HT _ _ _ _ _ _ _ _ _ E3) in E4.
  cbn [fst] in E4. destruct r4 as [m4|e]; [|injection E as <- _; exact E4].
  unfold ybind at 1 in E. destruct (hand_over y n m4 _ (x_schema_data a) (it4, t4)) as [[it5 t5] r5] eqn:E5. apply (has_hand y HT _ _ _ _ _ _ _ _ _ E4) in E5.
  cbn [fst] in E5. destruct r5 as [m5|e]; [|injection E as <- _; exact E5].
  unfold call_function in E. destruct (y_has y m5 (x_callback a)); [|injection E as <- _; exact E5].
  match type of E with context [y_call y ?t0 it5 m5 ?c ?ps] => pose proof (ta_call _ _ HT t0 it5 m5 c ps) as U; destruct (y_call y t0 it5 m5 c ps) as [it6 r6] end.
  pose proof (has_undisturbed _ _ _ E5 U) as E6. cbn [fst] in E6. destruct r6 as [o|e]; [|injection E as <- _; exact E6].
  unfold convert_result, ybind in E. destruct (import y (B "json") _) as [[it7 t7] r7] eqn:E7.
  apply (has_import y HT (path ++ [script_dir y (x_file a)])) in E7; [|exact E6].
  cbn [fst] in E7. destruct r7; [destruct (y_dumps y o) as [txt|]; [destruct (y_from_str y txt)|]|]; injection E as <- _; exact E7.
Qed.
End Grows.
Theorem C84_path_grows : forall y p it l p', tame y (fun n => n = B "json") -> p.(r_py) = Some it -> (exists j, loaded_from it (B "json") j) ->
  (forall p1 a p2, In (p1, a, p2) l -> a.(x_venv) = None) -> life y p l p' ->
  exists it', p'.(r_py) = Some it' /\ it'.(i_path) = it.(i_path) ++ map (fun c => script_dir y (x_file (snd (fst c)))) l.
Proof.
  intros y p it l p' HT HP HJ HV HL. revert it HP HJ HV. induction HL as [p|p a p1 l p2 HE HL IH]; intros it HP HJ HV.
  - exists it. split; [exact HP|]. symmetry. apply app_nil_r.
  - assert (exists it1, r_py p1 = Some it1 /\ i_path it1 = i_path it ++ [script_dir y (x_file a)] /\ exists j, loaded_from it1 (B "json") j) as (it1 & Q1 & Q2 & Q3).
    { unfold called, exec_py in HE. rewrite HP, (HV p a p1 (or_introl eq_refl)) in HE. destruct (attach y a (it, r_acts p)) as [[it1 t1] r1] eqn:EA.
      apply (has_attach y HT (i_path it)) in EA; [|split; [reflexivity|exact HJ]]. cbn [fst] in *. subst p1. exists it1. split; [reflexivity|]. exact EA. }
    destruct (IH it1 Q1 Q3) as (it' & R1 & R2); [intros; eapply HV; right; eassumption|].
    exists it'. split; [exact R1|]. rewrite R2, Q2, <- app_assoc. reflexivity.
Qed.
Print Assumptions C84_path_grows.
