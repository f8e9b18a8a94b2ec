(** * Variable paths, truthiness, decimal texts, replace (utils.rs 289-450 and std) *)

From Verif Require Import Bytes BytesFacts Json Utils Spec.
From Verif Require Export NumberProofs.

(** ** Specification *)

(** ** Replace *)
Lemma repl_skip pat rep k : forall s, k <= length s -> repl pat rep k s = repl pat rep 0 (skipn k s).
Proof.
  induction k as [|k IH]; intros s H; auto.
  destruct s as [|c s]; [cbn in H; lia|]. cbn in H. cbn [repl skipn]. apply IH. lia.
Qed.
Lemma repl_unfold pat rep s : pat <> [] ->
  repl pat rep 0 s = match find pat s with
                     | Some i => firstn i s ++ rep ++ repl pat rep 0 (skipn (i + length pat) s)
                     | None => s
                     end.
Proof.
  intros NE. induction s as [|c s IH].
  - destruct pat; [congruence|]. reflexivity.
  - cbn [repl find]. destruct (starts_with pat (c :: s)) eqn:E.
    + cbn [firstn app plus]. f_equal. apply starts_with_length in E.
      destruct pat as [|x pat]; [congruence|]. cbn [length] in *. cbn [skipn].
      rewrite Nat.sub_succ, Nat.sub_0_r. apply repl_skip. lia.
    + rewrite IH. destruct (find pat s); auto.
Qed.
Lemma repl_replaced_n pat rep n : pat <> [] -> forall s, length s <= n -> replaced pat rep s (repl pat rep 0 s).
Proof.
  intros NE. induction n as [|n IH]; intros s Hn.
  - destruct s; [|cbn in Hn; lia]. constructor. intros O. apply occurs_nil_inv in O. auto.
  - rewrite repl_unfold by auto. destruct (find pat s) as [i|] eqn:E.
    + pose proof (find_bound _ _ _ E) as L. pose proof (find_some _ _ _ E) as [(u & v & Es & Eu) M].
      assert (firstn i s = u) as -> by (rewrite Es, <- Eu, firstn_app, firstn_all, Nat.sub_diag; cbn; apply app_nil_r).
      assert (skipn (i + length pat) s = v) as ->.
      { rewrite Es, app_assoc. rewrite <- Eu, <- app_length. rewrite skipn_app, skipn_all, Nat.sub_diag. auto. }
      rewrite Es. constructor.
      * intros j Hj. rewrite <- Es. apply M. lia.
      * apply IH. rewrite Es, !app_length in Hn. destruct pat; [congruence|]. cbn in Hn. lia.
    + constructor. apply find_none; auto.
Qed.
Lemma replace_replaced pat rep s : pat <> [] -> replaced pat rep s (replace pat rep s).
Proof.
  intros NE. unfold replace. destruct pat; [congruence|].
  apply repl_replaced_n with (n := length s); auto.
Qed.
Lemma app_eq_len {A} (u : list A) : forall u2 x y, length u = length u2 -> u ++ x = u2 ++ y -> u = u2 /\ x = y.
Proof.
  induction u as [|a u IH]; intros [|b u2] x y L E; try discriminate; auto.
  cbn in *. inversion E; subst. destruct (IH u2 x y) as [-> ->]; auto.
Qed.
Lemma replaced_det pat rep s t1 : pat <> [] -> replaced pat rep s t1 -> forall t2, replaced pat rep s t2 -> t1 = t2.
Proof.
  intros NE H. induction H as [s N|u v v' M H IH]; intros t2 H2.
  - inversion H2; subst; auto. exfalso. apply N. exists u, v. auto.
  - inversion H2 as [s' N|u2 v2 v2' M2 R2]; subst.
    + exfalso. apply N. exists u, v. auto.
    + assert (length u = length u2) as L.
      { destruct (Nat.lt_trichotomy (length u) (length u2)) as [L|[L|L]]; auto; exfalso.
        - apply (M2 (length u)); auto. exists u, v. rewrite H0. auto.
        - apply (M (length u2)); auto. exists u2, v2. rewrite <- H0. auto. }
      symmetry in H0. destruct (app_eq_len _ _ _ _ L H0) as [<- H1].
      apply app_inv_head in H1. subst. f_equal. f_equal. auto.
Qed.
Lemma replace_no_occurs pat rep s : pat <> [] -> ~ occurs pat s -> replace pat rep s = s.
Proof.
  intros NE N. symmetry. apply (replaced_det pat rep s s NE); [constructor; auto|apply replace_replaced; auto].
Qed.

(** ** Paths *)
Lemma repl_cons_other pat rep c s : starts_with pat (c :: s) = false ->
  repl pat rep 0 (c :: s) = c :: repl pat rep 0 s.
Proof. intros H. cbn [repl]. rewrite H. auto. Qed.

Lemma split_go_ne pat k s : exists h t, split_go pat k s = h :: t.
Proof.
  revert k. induction s as [|c s IH]; intros k; cbn; eauto.
  destruct k; [|apply IH]. destruct (starts_with pat (c :: s)); eauto.
  destruct (split_go pat 0 s); eauto.
Qed.

Definition sp (s : bytes) : list bytes := split (B "/") (replace (B "->") (B "/") s).
Lemma sp_eq s : sp s = split_go (B "/") 0 (repl (B "->") (B "/") 0 s).
Proof. reflexivity. Qed.
Lemma sp_slash r : sp (c_slash :: r) = [] :: sp r.
Proof. rewrite !sp_eq. reflexivity. Qed.
Lemma sp_arrow r : sp (c_dash :: c_gt :: r) = [] :: sp r.
Proof. rewrite !sp_eq. reflexivity. Qed.
Lemma sp_other c r : aeqb c c_slash = false ->
  (match r with d :: _ => aeqb c c_dash && aeqb d c_gt | [] => false end) = false ->
  exists h t, sp r = h :: t /\ sp (c :: r) = (c :: h) :: t.
Proof.
  intros N1 N2. rewrite !sp_eq. destruct (split_go_ne (B "/") 0 (repl (B "->") (B "/") 0 r)) as (h & t & E).
  exists h, t. split; auto. rewrite repl_cons_other.
  - cbn [split_go].
    assert (starts_with (B "/") (c :: repl (B "->") (B "/") 0 r) = false) as ->.
    { cbn. change "/"%char with c_slash. apply aeqb_neq in N1.
      assert (aeqb c_slash c = false) as -> by (apply aeqb_neq; congruence). auto. }
    rewrite E. auto.
  - cbn. destruct (aeqb "-" c) eqn:Ec; auto. apply aeqb_eq in Ec; subst.
    destruct r as [|d r]; auto. cbn in N2. change (aeqb "-" c_dash) with true in N2. cbn in N2.
    assert (aeqb ">" d = false) as ->; [|auto]. apply aeqb_neq in N2. apply aeqb_neq. intros <-. apply N2. reflexivity.
Qed.

Fixpoint follow (l : list bytes) (j : json) : option json :=
  match l with
  | [] => Some j
  | k :: r => match step k j with Some j' => follow r j' | None => None end
  end.
Lemma step_steps k j v : step k j = Some v <-> steps k j v.
Proof.
  split.
  - destruct j; cbn; try discriminate.
    + destruct (parse_usize k) eqn:E; [|discriminate]. apply usize_iff in E. intros H. econstructor; eauto.
    + intros H. constructor; auto.
  - intros H; inversion H; subst; cbn; auto. rewrite (proj2 (usize_iff _ _) H0). auto.
Qed.
Lemma follow_reaches l : forall j v, follow l j = Some v <-> reaches l j v.
Proof.
  induction l as [|k l IH]; intros j v; cbn.
  - split; intros H; inversion H; subst; [constructor|auto].
  - destruct (step k j) as [j'|] eqn:E.
    + rewrite IH. split; intros H.
      * econstructor; eauto. apply step_steps; auto.
      * inversion H as [|? ? ? ? ? C R]; subst. apply step_steps in C. congruence.
    + split; [discriminate|]. intros H; inversion H as [|? ? ? ? ? C R]; subst. apply step_steps in C. congruence.
Qed.

Lemma step_nonempty_follow rpart l j :
  match step_nonempty rpart j with Some j' => follow l j' | None => None end =
  follow (filter (fun p => negb (is_empty p)) [rev rpart] ++ l) j.
Proof.
  destruct rpart as [|c r]; cbn; auto.
  destruct (rev r ++ [c]) eqn:E; [destruct (rev r); discriminate|]. cbn. auto.
Qed.

Lemma walk_follow_n n : forall s rpart j h t, length s <= n -> sp s = h :: t ->
  walk rpart s j = follow (filter (fun p => negb (is_empty p)) ((rev rpart ++ h) :: t)) j.
Proof.
  induction n as [|n IH]; intros s rpart j h t Hn E.
  - destruct s; [|cbn in Hn; lia]. cbn in E. inversion E; subst. rewrite app_nil_r.
    cbn [walk]. pose proof (step_nonempty_follow rpart [] j) as F.
    destruct (step_nonempty rpart j) eqn:ES.
    + cbn in F. rewrite app_nil_r in F. cbn. rewrite <- F. auto.
    + rewrite app_nil_r in F. exact F.
  - destruct s as [|c s].
    { cbn in E. inversion E; subst. rewrite app_nil_r.
      cbn [walk]. pose proof (step_nonempty_follow rpart [] j) as F.
      destruct (step_nonempty rpart j) eqn:ES.
      + cbn in F. rewrite app_nil_r in F. cbn. rewrite <- F. auto.
      + rewrite app_nil_r in F. exact F. }
    cbn in Hn. cbn [walk].
    assert (forall r, sp r = t -> h = [] -> length r <= n ->
      match step_nonempty rpart j with Some j' => walk [] r j' | None => None end =
      follow (filter (fun p => negb (is_empty p)) ((rev rpart ++ h) :: t)) j) as SEP.
    { intros r Er -> Lr. rewrite app_nil_r.
      change ((rev rpart) :: t) with ([rev rpart] ++ t). rewrite filter_app, <- step_nonempty_follow.
      destruct (step_nonempty rpart j) as [j'|]; auto.
      destruct (sp r) as [|h2 t2] eqn:E2.
      - rewrite sp_eq in E2. destruct (split_go_ne (B "/") 0 (repl (B "->") (B "/") 0 r)) as (? & ? & X). congruence.
      - rewrite (IH r [] j' h2 t2) by auto. cbn [rev app]. rewrite Er. auto. }
    assert (aeqb c c_slash = false ->
      (match s with d :: _ => aeqb c c_dash && aeqb d c_gt | [] => false end) = false ->
      walk (c :: rpart) s j = follow (filter (fun p => negb (is_empty p)) ((rev rpart ++ h) :: t)) j) as OTH.
    { intros N1 N2. destruct (sp_other c s N1 N2) as (h2 & t2 & E1 & E2). rewrite E2 in E. inversion E; subst.
      rewrite (IH s (c :: rpart) j h2 t) by (auto; lia). cbn [rev]. rewrite <- app_assoc. auto. }
    destruct (aeqb c c_slash) eqn:Ec.
    + apply aeqb_eq in Ec; subst. rewrite sp_slash in E. inversion E; subst. apply SEP; auto. lia.
    + destruct s as [|d r]; [apply OTH; auto|].
      destruct (aeqb c c_dash && aeqb d c_gt) eqn:E2; [|apply OTH; auto].
      apply andb_true_iff in E2 as [E2 E3]. apply aeqb_eq in E2, E3. subst.
      rewrite sp_arrow in E. inversion E; subst. apply SEP; auto. cbn in Hn. lia.
Qed.
Lemma walk_components s j : walk [] s j = follow (components s) j.
Proof.
  destruct (sp s) as [|h t] eqn:E.
  - rewrite sp_eq in E. destruct (split_go_ne (B "/") 0 (repl (B "->") (B "/") 0 s)) as (? & ? & X). congruence.
  - rewrite (walk_follow_n (length s) s [] j h t) by auto. unfold components. fold (sp s). rewrite E. auto.
Qed.

Lemma split_no_sep pat s : pat <> [] -> ~ occurs pat s -> split_go pat 0 s = [s].
Proof.
  intros NE. induction s as [|c s IH]; intros N; auto. cbn [split_go].
  assert (starts_with pat (c :: s) = false) as ->.
  { apply starts_with_false. intros [t E]. apply N. exists [], t. auto. }
  rewrite IH; auto. intros O. apply N. apply occurs_cons; auto.
Qed.
Lemma components_plain s : ~ occurs (B "->") s -> ~ occurs (B "/") s -> s <> [] -> components s = [s].
Proof.
  intros N1 N2 NE. unfold components. rewrite replace_no_occurs by (auto; discriminate).
  unfold split. rewrite split_no_sep by (auto; discriminate). destruct s; [congruence|auto].
Qed.

Lemma resolve_follow m key : key <> [] -> resolve_pointer (JObj m) key = follow (components key) (JObj m).
Proof.
  intros NE. unfold resolve_pointer.
  destruct (contains BIF_ARRAY key) eqn:E1; cbn [negb andb]; [apply walk_components|].
  destruct (contains [c_slash] key) eqn:E2; cbn [negb]; [apply walk_components|].
  apply contains_false in E1, E2. rewrite components_plain; auto. cbn. destruct (oget key m); auto.
Qed.
Lemma resolve_reaches m key v : key <> [] ->
  resolve_pointer (JObj m) key = Some v <-> reaches (components key) (JObj m) v.
Proof. intros NE. rewrite resolve_follow by auto. apply follow_reaches. Qed.
Lemma resolve_none m key : key <> [] ->
  resolve_pointer (JObj m) key = None <-> ~ exists v, reaches (components key) (JObj m) v.
Proof.
  intros NE. split.
  - intros H [v R]. apply resolve_reaches in R; auto. congruence.
  - intros N. destruct (resolve_pointer (JObj m) key) eqn:E; auto. exfalso. apply N.
    exists j. apply resolve_reaches; auto.
Qed.

(** ** Names *)
Lemma sp_app sepr b : sepr = B "/" \/ sepr = B "->" -> forall n a, length a <= n ->
  sp (a ++ sepr ++ b) = sp a ++ sp b.
Proof.
  intros Hs n; induction n as [|n IH]; intros a Hn.
  - destruct a; [|cbn in Hn; lia]. destruct Hs as [-> | ->]; [apply sp_slash|apply sp_arrow].
  - destruct a as [|c r]; [destruct Hs as [-> | ->]; [apply sp_slash|apply sp_arrow]|].
    cbn [length] in Hn. cbn [app].
    destruct (aeqb c c_slash) eqn:E1.
    { apply aeqb_eq in E1. subst c. rewrite !sp_slash. cbn [app]. f_equal. apply IH. lia. }
    destruct (match r with d :: _ => aeqb c c_dash && aeqb d c_gt | [] => false end) eqn:E2.
    { destruct r as [|d r]; [discriminate|]. apply andb_true_iff in E2 as [X Y].
      apply aeqb_eq in X. apply aeqb_eq in Y. subst. cbn [app]. rewrite !sp_arrow. cbn [app].
      f_equal. apply IH. cbn in Hn. lia. }
    destruct (sp_other c r E1 E2) as (h & t & X & Y).
    destruct (sp_other c (r ++ sepr ++ b)) as (h' & t' & X' & Y').
    { exact E1. }
    { destruct r as [|d r]; [|exact E2]. destruct Hs as [-> | ->]; cbn [app B list_ascii_of_string];
      rewrite andb_comm; reflexivity. }
    rewrite Y, Y'. rewrite IH in X' by lia. rewrite X in X'. cbn [app] in X'. inversion X'; subst. auto.
Qed.
Lemma components_app a b sepr : sepr = B "/" \/ sepr = B "->" ->
  components (a ++ sepr ++ b) = components a ++ components b.
Proof.
  intros H. unfold components. fold (sp (a ++ sepr ++ b)). fold (sp a). fold (sp b).
  rewrite (sp_app sepr b H (length a)) by lia. apply filter_app.
Qed.
Lemma name_path_components s l : name_path s l -> components s = l.
Proof.
  induction 1 as [| |a b l l' _ IH1 _ IH2|a b l l' _ IH1 _ IH2].
  - reflexivity.
  - apply components_plain; auto.
  - rewrite components_app, IH1, IH2; auto.
  - rewrite components_app, IH1, IH2; auto.
Qed.
Lemma resolve_name m name l v : name <> [] -> name_path name l ->
  resolve_pointer (JObj m) name = Some v <-> reaches l (JObj m) v.
Proof. intros H P. rewrite resolve_reaches by auto. rewrite (name_path_components _ _ P). tauto. Qed.

(** Every name has components. *)
Lemma name_path_exists_n n : forall s, length s <= n -> exists l, name_path s l.
Proof.
  induction n as [|n IH]; intros s Hn.
  - destruct s; [|cbn in Hn; lia]. eexists; constructor.
  - destruct (find (B "/") s) as [i|] eqn:E1.
    + apply find_some in E1 as [(u & v & -> & _) _]. rewrite !app_length in Hn. cbn [length B list_ascii_of_string] in Hn.
      destruct (IH u) as [l1 P1]; [lia|]. destruct (IH v) as [l2 P2]; [lia|].
      eexists. apply np_slash; eauto.
    + destruct (find (B "->") s) as [i|] eqn:E2.
      * apply find_some in E2 as [(u & v & -> & _) _]. rewrite !app_length in Hn. cbn [length B list_ascii_of_string] in Hn.
        destruct (IH u) as [l1 P1]; [lia|]. destruct (IH v) as [l2 P2]; [lia|].
        eexists. apply np_arrow; eauto.
      * destruct s as [|c s]; [eexists; constructor|].
        apply find_none in E1. apply find_none in E2. exists [c :: s]. constructor; auto. discriminate.
Qed.
Lemma name_path_exists s : exists l, name_path s l.
Proof. apply (name_path_exists_n (length s)); lia. Qed.

(** ** C21 *)
Lemma key_test m name l (t : json -> bool) (P : json -> Prop) :
  name <> [] -> name_path name l -> (forall v, t v = true <-> P v) ->
  (match resolve_pointer (JObj m) name with Some v => t v | None => false end) = true <->
  exists v, reaches l (JObj m) v /\ P v.
Proof.
  intros H NP T. destruct (resolve_pointer (JObj m) name) as [v|] eqn:E.
  - apply (resolve_name m name l v H NP) in E as R. rewrite T. split; [eauto|].
    intros (v' & R' & Pv). apply (resolve_name m name l v' H NP) in R'. congruence.
  - split; [discriminate|]. intros (v & R & _). apply (resolve_name m name l v H NP) in R. congruence.
Qed.
Lemma defined_spec m name l : name <> [] -> name_path name l ->
  is_defined_key (JObj m) name = true <-> exists v, reaches l (JObj m) v /\ v <> JNull.
Proof.
  intros H P. unfold is_defined_key. apply key_test; auto.
  intros []; cbn; split; congruence.
Qed.
Lemma array_spec m name l : name <> [] -> name_path name l ->
  is_array_key (JObj m) name = true <->
  exists v, reaches l (JObj m) v /\ ((exists x, v = JArr x) \/ is_obj v).
Proof.
  intros H P.
  assert (is_array_key (JObj m) name =
    match resolve_pointer (JObj m) name with
    | Some v => (match v with JObj _ => true | JArr _ => true | _ => false end) | None => false end) as ->.
  { unfold is_array_key. destruct (resolve_pointer (JObj m) name) as [[]|]; auto. }
  apply key_test; auto. unfold is_obj.
  intros []; split; try discriminate; try (intros [[x Hx]|[x Hx]]; discriminate); eauto.
Qed.
Lemma filled_spec m name l : name <> [] -> name_path name l ->
  is_empty_key (JObj m) name = false <-> exists v, reaches l (JObj m) v /\ ~ empty_value v.
Proof.
  intros H P.
  assert (is_empty_key (JObj m) name = negb (match resolve_pointer (JObj m) name with
    | Some v => negb (match v with JObj m => is_empty m | JArr l => is_empty l | JStr s => is_empty s
                                 | JNull => true | _ => false end)
    | None => false end)) as ->.
  { unfold is_empty_key. destruct (resolve_pointer (JObj m) name) as [[]|]; auto; cbn; rewrite ?negb_involutive; auto. }
  rewrite negb_false_iff. apply key_test; auto. unfold empty_value.
  assert (forall A (l : list A) (k : list A -> json), (k l = JNull -> False) ->
    (k l = JStr [] \/ k l = JArr [] \/ k l = JObj [] <-> l = []) ->
    negb (is_empty l) = true <-> ~ (k l = JNull \/ k l = JStr [] \/ k l = JArr [] \/ k l = JObj [])) as K.
  { intros A x k N1 N2. rewrite negb_true_iff, is_empty_false, <- N2. tauto. }
  intros [|b|n|s|a|o].
  - cbn. split; [discriminate|]. intros N. exfalso; auto.
  - cbn. split; auto. intros _ [X|[X|[X|X]]]; discriminate.
  - cbn. split; auto. intros _ [X|[X|[X|X]]]; discriminate.
  - apply (K _ s JStr); [discriminate|]. split; [intros [X|[X|X]]; congruence|intros ->; auto].
  - apply (K _ a JArr); [discriminate|]. split; [intros [X|[X|X]]; congruence|intros ->; auto].
  - apply (K _ o JObj); [discriminate|]. split; [intros [X|[X|X]]; congruence|intros ->; auto].
Qed.
Lemma bool_spec m name l : name <> [] -> name_path name l ->
  is_bool_key (JObj m) name = true <-> exists v, reaches l (JObj m) v /\ truthy v.
Proof.
  intros H P.
  assert (is_bool_key (JObj m) name = match resolve_pointer (JObj m) name with
    | Some v => (match v with JObj m => negb (is_empty m) | JArr l => negb (is_empty l)
        | JStr s => if is_empty s || beq s (B "false") then false
                    else match f64_gt0 s with Some b => b | None => true end
        | JNull => false | JNum n => num_gt0 n | JBool b => b end)
    | None => false end) as ->.
  { unfold is_bool_key. destruct (resolve_pointer (JObj m) name) as [[]|]; auto. }
  apply key_test; auto. unfold truthy, non_positive_number.
  intros [|b|[n|p|t g]|s|a|o]; [split; [discriminate|tauto]|tauto|apply N.ltb_lt|split; [discriminate|tauto]|cbn; tauto| | |].
  - destruct s as [|c s]; [cbn; split; [discriminate|intros [X _]; congruence]|].
    cbn [is_empty orb]. destruct (beq_spec (c :: s) (B "false")) as [E|E].
    + split; [discriminate|intros (_ & X & _); congruence].
    + rewrite <- float_iff. destruct (f64_gt0 (c :: s)) as [[]|]; split; auto; try discriminate.
      * intros _. repeat split; auto; congruence.
      * intros (_ & _ & X). exfalso; auto.
      * intros _. repeat split; auto; congruence.
  - destruct a; cbn; split; congruence.
  - destruct o; cbn; split; congruence.
Qed.
Lemma value_text m name l : name <> [] -> name_path name l ->
  (forall s, reaches l (JObj m) (JStr s) -> get_from_key (JObj m) name = s) /\
  (forall n, reaches l (JObj m) (JNum n) -> get_from_key (JObj m) name = num_to_string n) /\
  (forall b, reaches l (JObj m) (JBool b) -> get_from_key (JObj m) name = if b then B "true" else B "false") /\
  ((forall v, reaches l (JObj m) v -> v = JNull \/ is_obj v \/ exists x, v = JArr x) ->
     get_from_key (JObj m) name = []).
Proof.
  intros H P. unfold get_from_key.
  split; [|split; [|split]]; try (intros x R; apply (resolve_name m name l _ H P) in R; rewrite R; reflexivity).
  intros N. destruct (resolve_pointer (JObj m) name) as [v|] eqn:E; auto.
  apply (resolve_name m name l v H P) in E. destruct (N v E) as [->|[[o ->]|[x ->]]]; auto.
Qed.
Lemma truthy_decimal n : truthy (JStr (dec_N n)) <-> (0 < n)%N.
Proof.
  unfold truthy, non_positive_number. rewrite <- float_iff, f64_gt0_dec. rewrite <- N.ltb_lt. split.
  - intros (_ & _ & N). destruct (0 <? n)%N; congruence.
  - intros E. rewrite E. repeat split; try discriminate; [apply dec_ne|].
    intros F. pose proof (dec_digits n) as D. rewrite F in D. apply Forall_cons_iff in D as [[d D] _]. discriminate.
Qed.
