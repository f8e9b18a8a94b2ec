(** * Merging and updating schemas (utils.rs 38-147) *)

From Verif Require Import Bytes BytesFacts Json Utils EscapeProofs Spec.

(** ** Specification vocabulary *)

(** ** Facts about objects *)
Lemma oget_in k m v : oget k m = Some v -> In (k, v) m.
Proof.
  induction m as [|[k' v'] m IH]; cbn; [discriminate|].
  destruct (beq_spec k k') as [->|]; intros H; [inversion H; auto|right; auto].
Qed.
Lemma oget_none k m : oget k m = None <-> ~ In k (okeys m).
Proof.
  induction m as [|[k' v'] m IH]; cbn; [tauto|].
  destruct (beq_spec k k') as [->|]; [split; [discriminate|tauto]|].
  rewrite IH. split; intros H; [intros [E|E]; [congruence|tauto]|tauto].
Qed.
Lemma oget_in_nodup m k v : NoDup (okeys m) -> In (k, v) m -> oget k m = Some v.
Proof.
  induction m as [|[k' v'] m IH]; cbn; [tauto|]. intros D [E|E]; inversion D; subst.
  - inversion E; subst. rewrite beq_refl. auto.
  - destruct (beq_spec k k') as [->|]; auto. exfalso. apply H1.
    change k' with (fst (k', v)). apply in_map; auto.
Qed.
Lemma oset_same k v m : oget k m = Some v -> oset k v m = m.
Proof.
  induction m as [|[k' v'] m IH]; cbn; [discriminate|].
  destruct (beq_spec k k') as [->|]; intros H; [congruence|rewrite IH; auto].
Qed.
Lemma okeys_oset k v m :
  okeys (oset k v m) = match oget k m with Some _ => okeys m | None => okeys m ++ [k] end.
Proof.
  unfold okeys. induction m as [|[k' v'] m IH]; cbn; auto.
  destruct (beq_spec k k') as [->|]; cbn; auto. rewrite IH. destruct (oget k m); auto.
Qed.
Lemma oset_nodup k v m : NoDup (okeys m) -> NoDup (okeys (oset k v m)).
Proof.
  intros H. rewrite okeys_oset. destruct (oget k m) eqn:E; auto.
  apply oget_none in E. revert E H. generalize (okeys m). intros l E H.
  induction l as [|x l IH]; cbn; [repeat constructor; auto|].
  inversion H; subst. constructor.
  - rewrite in_app_iff. intros [A|[A|[]]]; [tauto|subst; apply E; left; auto].
  - apply IH; auto. intros A; apply E; right; auto.
Qed.
Lemma oset_wf k v m : wf_json v -> wf_json (JObj m) -> wf_json (JObj (oset k v m)).
Proof.
  intros Hv H. inversion H; subst. constructor; [apply oset_nodup; auto|].
  apply Forall_forall. intros [k' v'] I. cbn.
  apply oset_in in I as [[_ ->]|I]; auto. rewrite Forall_forall in H2. apply (H2 _ I).
Qed.

(** ** Unfolding of merge_schema on objects *)
Definition mstep (acc : obj) (kv : bytes * json) : obj :=
  let '(k, v) := kv in
  match oget k acc with
  | Some va => oset k (merge_schema va v) acc
  | None => oset k v acc
  end.

Lemma merge_obj ma mb : merge_schema (JObj ma) (JObj mb) = JObj (fold_left mstep mb ma).
Proof.
  cbn [merge_schema]. f_equal. revert ma. induction mb as [|[k v] mb IH]; intros ma; auto.
  cbn [fold_left mstep]. rewrite <- IH. auto.
Qed.
Lemma merge_nonobj a b : ~ is_obj a \/ ~ is_obj b -> merge_schema a b = b.
Proof. intros [H|H]; destruct b; cbn; auto; destruct a; auto; exfalso; apply H; eexists; eauto. Qed.

Lemma mstep_get acc k v k' :
  oget k' (mstep acc (k, v)) =
  if beq k' k then Some (match oget k acc with Some va => merge_schema va v | None => v end)
  else oget k' acc.
Proof. cbn. destruct (oget k acc); rewrite oget_oset; auto. Qed.

Lemma merge_get mb : forall ma k, NoDup (okeys mb) ->
  oget k (fold_left mstep mb ma) =
  match oget k mb with
  | Some vb => Some (match oget k ma with Some va => merge_schema va vb | None => vb end)
  | None => oget k ma
  end.
Proof.
  induction mb as [|[k0 v0] mb IH]; intros ma k D; auto. inversion D; subst.
  change (fold_left mstep ((k0, v0) :: mb) ma) with (fold_left mstep mb (mstep ma (k0, v0))).
  rewrite IH by auto. cbn [oget]. rewrite mstep_get.
  destruct (beq_spec k k0) as [->|].
  - assert (oget k0 mb = None) as -> by (apply oget_none; auto). auto.
  - auto.
Qed.

(** C12 *)
Lemma merge_second_wins p : forall a b v, wf_json b ->
  at_path p b = Some v -> ~ is_obj v -> at_path p (merge_schema a b) = Some v.
Proof.
  induction p as [|k p IH]; intros a b v W H N.
  - cbn in H. inversion H; subst. cbn. f_equal. apply merge_nonobj; auto.
  - destruct b as [| | | | |mb]; try discriminate. cbn in H.
    destruct (oget k mb) as [vb|] eqn:E; [|discriminate].
    inversion W as [| | | | |? D F]; subst.
    assert (wf_json vb) as Wv.
    { apply oget_in in E. rewrite Forall_forall in F. apply (F _ E). }
    destruct a as [| | | | |ma].
    6:{ rewrite merge_obj. cbn. rewrite merge_get, E by auto.
        destruct (oget k ma); [apply IH; auto|auto]. }
    all: rewrite merge_nonobj by (left; intros [? X]; discriminate X); cbn; rewrite E; auto.
Qed.

Lemma merge_rest_kept p : forall a b, wf_json b ->
  is_obj a -> is_obj b -> ~ touches b p -> at_path p (merge_schema a b) = at_path p a.
Proof.
  induction p as [|k p IH]; intros a b W Ia Ib N.
  - exfalso. apply N. left. exists b. auto.
  - destruct Ia as [ma ->], Ib as [mb ->]. rewrite merge_obj. cbn.
    inversion W as [| | | | |? D F]; subst. rewrite merge_get by auto.
    destruct (oget k mb) as [vb|] eqn:E; auto.
    assert (is_obj vb) as Ob.
    { destruct vb; try (exfalso; apply N; right; exists [k], p; eexists; cbn; rewrite E;
        split; [reflexivity|split; [reflexivity|intros [? X]; discriminate X]]). eexists; eauto. }
    assert (wf_json vb) as Wv.
    { apply oget_in in E. rewrite Forall_forall in F. apply (F _ E). }
    assert (~ touches vb p) as Nv.
    { intros [[v T]|(q & r & v & -> & T1 & T2)]; apply N.
      - left. exists v. cbn. rewrite E. auto.
      - right. exists (k :: q), r, v. split; auto. split; auto. cbn. rewrite E. auto. }
    destruct (oget k ma) as [va|] eqn:Ea.
    + destruct va as [| | | | |mva].
      6:{ apply IH; auto. eexists; eauto. }
      all: rewrite merge_nonobj by (left; intros [? X]; discriminate X).
      all: destruct p as [|k2 p]; [exfalso; apply Nv; left; eexists; reflexivity|].
      all: destruct (at_path (k2 :: p) vb) eqn:Ev; [exfalso; apply Nv; left; eauto|reflexivity].
    + destruct (at_path p vb) eqn:Ev; auto. exfalso. apply Nv. left. eauto.
Qed.

Lemma merge_both_objects p a b : forall va vb, wf_json b ->
  is_obj a -> is_obj b -> at_path p a = Some va -> at_path p b = Some vb -> is_obj va -> is_obj vb ->
  at_path p (merge_schema a b) = Some (merge_schema va vb).
Proof.
  revert a b. induction p as [|k p IH]; intros a b va vb W Ia Ib Ha Hb Iva Ivb.
  - cbn in *. congruence.
  - destruct Ia as [ma ->], Ib as [mb ->]. rewrite merge_obj. cbn in *.
    inversion W as [| | | | |? D F]; subst. rewrite merge_get by auto.
    destruct (oget k mb) as [wb|] eqn:E; [|discriminate].
    destruct (oget k ma) as [wa|] eqn:Ea; [|discriminate].
    assert (wf_json wb) as Wv.
    { apply oget_in in E. rewrite Forall_forall in F. apply (F _ E). }
    assert (is_obj wa) as Iwa.
    { destruct p; cbn in Ha; [inversion Ha; subst; auto|destruct wa; try discriminate; eexists; eauto]. }
    assert (is_obj wb) as Iwb.
    { destruct p; cbn in Hb; [inversion Hb; subst; auto|destruct wb; try discriminate; eexists; eauto]. }
    apply IH; auto.
Qed.

Lemma existsb_beq k l : existsb (beq k) l = true <-> In k l.
Proof.
  rewrite existsb_exists. split.
  - intros (x & I & E). apply beq_eq in E. subst; auto.
  - intros I. exists k. rewrite beq_refl. auto.
Qed.
Lemma merge_keys mb : forall ma, NoDup (okeys mb) ->
  okeys (fold_left mstep mb ma) = okeys ma ++ new_keys (okeys ma) (okeys mb).
Proof.
  induction mb as [|[k v] mb IH]; intros ma D; [cbn; rewrite app_nil_r; auto|].
  inversion D; subst.
  change (fold_left mstep ((k, v) :: mb) ma) with (fold_left mstep mb (mstep ma (k, v))).
  rewrite IH by auto.
  assert (okeys (mstep ma (k, v)) = match oget k ma with Some _ => okeys ma | None => okeys ma ++ [k] end) as ->.
  { cbn. destruct (oget k ma) eqn:E; rewrite okeys_oset, E; auto. }
  unfold new_keys. cbn [okeys map fst filter].
  destruct (oget k ma) eqn:E.
  - assert (existsb (beq k) (okeys ma) = true) as ->; auto.
    apply existsb_beq. apply oget_in in E. change k with (fst (k, j)). apply in_map; auto.
  - apply oget_none in E.
    assert (existsb (beq k) (okeys ma) = false) as ->.
    { destruct (existsb (beq k) (okeys ma)) eqn:X; auto. apply existsb_beq in X. tauto. }
    cbn [negb]. rewrite <- app_assoc. cbn [app]. do 2 f_equal.
    apply filter_ext_in. intros x I. rewrite existsb_app. cbn. rewrite orb_false_r.
    assert (beq x k = false) as ->; [|rewrite orb_false_r; auto].
    apply beq_neq. intros ->. auto.
Qed.

(** C13 *)
Lemma entry_upd_eq k occ vac m :
  entry_upd k occ vac m =
  match oget k m with Some va => oset k (occ va) m | None => oset k vac m end.
Proof.
  induction m as [|[k' v'] m IH]; cbn; auto.
  destruct (beq k k') eqn:E; auto. rewrite IH. destruct (oget k m); auto.
Qed.
Lemma merge_owned_eq : forall b a, merge_schema_owned a b = merge_schema a b.
Proof.
  induction b as [| | | | |mb IH] using json_ind'; intros a; try reflexivity.
  destruct a as [| | | | |ma]; try reflexivity. cbn [merge_schema merge_schema_owned]. f_equal.
  revert ma. induction IH as [|[k v] mb Hv Hmb IH2]; intros ma; auto.
  rewrite IH2. f_equal. rewrite entry_upd_eq. cbn in Hv. destruct (oget k ma); rewrite ?Hv; auto.
Qed.

Lemma merge_covered mb : forall ma,
  (forall k v, In (k, v) mb -> exists va, oget k ma = Some va /\ merge_schema va v = va) ->
  fold_left mstep mb ma = ma.
Proof.
  induction mb as [|[k v] mb IH]; intros ma H; auto.
  change (fold_left mstep ((k, v) :: mb) ma) with (fold_left mstep mb (mstep ma (k, v))).
  assert (mstep ma (k, v) = ma) as ->.
  { destruct (H k v) as (va & E1 & E2); [left; auto|]. cbn. rewrite E1, E2. apply oset_same; auto. }
  apply IH. intros; apply H; right; auto.
Qed.
Lemma merge_self : forall b, wf_json b -> merge_schema b b = b.
Proof.
  induction b as [| | | | |mb IH] using json_ind'; intros W; try reflexivity.
  rewrite merge_obj. f_equal. apply merge_covered. intros k v I.
  inversion W as [| | | | |? D F]; subst. exists v. split; [apply oget_in_nodup; auto|].
  rewrite Forall_forall in IH, F. apply (IH (k, v) I (F (k, v) I)).
Qed.
Lemma merge_idem : forall b, wf_json b -> forall a, merge_schema (merge_schema a b) b = merge_schema a b.
Proof.
  induction b as [| | | | |mb IH] using json_ind'; intros W a; try reflexivity.
  destruct a as [| | | | |ma].
  6:{ rewrite !merge_obj. f_equal. apply merge_covered. intros k v I.
      inversion W as [| | | | |? D F]; subst. rewrite merge_get by auto.
      rewrite (oget_in_nodup _ _ _ D I).
      eexists. split; [reflexivity|].
      rewrite Forall_forall in IH, F. specialize (F _ I). cbn in F.
      destruct (oget k ma); [apply (IH (k, v)); auto|apply merge_self; auto]. }
  all: exact (merge_self _ W).
Qed.

(** merging keeps values well formed *)
Lemma merge_wf : forall b, wf_json b -> forall a, wf_json a -> wf_json (merge_schema a b).
Proof.
  induction b as [| | | | |mb IH] using json_ind'; intros W a Wa; auto.
  destruct a as [| | | | |ma]; auto. rewrite merge_obj.
  inversion W as [| | | | |? D F]; subst. clear W D.
  revert ma Wa. induction mb as [|[k v] mb IH2]; intros ma Wa; auto.
  change (fold_left mstep ((k, v) :: mb) ma) with (fold_left mstep mb (mstep ma (k, v))).
  apply Forall_cons_iff in IH as [Hv IH]. apply Forall_cons_iff in F as [Fv F]. cbn in *.
  apply IH2; auto.
  destruct (oget k ma) eqn:E; apply oset_wf; auto.
  apply Hv; auto. inversion Wa as [| | | | |? D2 F2]; subst. apply oget_in in E.
  rewrite Forall_forall in F2. apply (F2 _ E).
Qed.

(** ** update_schema *)
Lemma modify_at_obj k f m : exists m', modify_at k f (JObj m) = JObj m' /\ okeys m' = okeys m /\
  forall k', oget k' m' = if beq k' k then option_map f (oget k m) else oget k' m.
Proof.
  cbn. destruct (oget k m) eqn:E.
  - eexists. split; [reflexivity|]. split; [rewrite okeys_oset, E; auto|].
    intros k'. rewrite oget_oset. cbn. auto.
  - exists m. repeat split; auto. intros k'. destruct (beq_spec k' k) as [->|]; auto.
Qed.

Lemma update_tail_obj m : exists m', update_tail (JObj m) = Some (JObj m') /\
  forall k, oget k m' =
    if beq k (B "version") then Some (JStr VERSION)
    else if beq k (B "data") then
      option_map (modify_at (B "CONTEXT") (modify_at (B "HEADERS") header_variants)) (oget (B "data") m)
    else oget k m.
Proof.
  unfold update_tail.
  destruct (modify_at_obj (B "data") (modify_at (B "CONTEXT") (modify_at (B "HEADERS") header_variants)) m)
    as (m' & -> & _ & G).
  unfold put, upd. eexists. split; [reflexivity|]. intros k. rewrite oget_oset, G. auto.
Qed.
Lemma update_tail_some j r : update_tail j = Some r -> is_obj j \/ j = JNull.
Proof. destruct j; unfold update_tail, put; cbn; try discriminate; auto. intros _. left. eexists; eauto. Qed.

Lemma update_tail_fields j r : update_tail j = Some r ->
  is_obj r /\ vget (B "version") r = Some (JStr VERSION) /\
  forall k, k <> B "version" -> k <> B "data" -> vget k r = vget k j.
Proof.
  intros H. destruct (update_tail_some _ _ H) as [[m ->]| ->].
  - destruct (update_tail_obj m) as (m' & E & G). rewrite E in H. inversion H; subst.
    split; [eexists; eauto|]. split; cbn [vget]; [rewrite G; auto|].
    intros k N1 N2. rewrite G. rewrite (proj2 (beq_neq _ _) N1), (proj2 (beq_neq _ _) N2). auto.
  - unfold update_tail, put, upd in H. cbn in H. inversion H; subst. split; [eexists; eauto|].
    split; auto. intros k N1 N2. apply beq_neq in N1. cbn [vget].
    change (oget k [(B "version", JStr VERSION)] = None). cbn [oget]. rewrite N1. auto.
Qed.

Lemma modify_at_get k f j v : vget k j = Some v -> vget k (modify_at k f j) = Some (f v).
Proof. destruct j; try discriminate. cbn. intros ->. cbn. rewrite oget_oset, beq_refl. auto. Qed.
Lemma at_path_cons k p j : at_path (k :: p) j = match vget k j with Some v => at_path p v | None => None end.
Proof. destruct j; auto. Qed.

Lemma update_tail_headers j r h : update_tail j = Some r ->
  at_path header_path j = Some (JObj h) ->
  at_path header_path r = Some (header_variants (JObj h)).
Proof.
  intros U H. destruct (update_tail_some _ _ U) as [[m ->]| ->]; [|discriminate].
  destruct (update_tail_obj m) as (m' & E & G). rewrite E in U. inversion U; subst. clear U E.
  unfold header_path in *. rewrite at_path_cons in *. cbn [vget] in *. rewrite G. cbn [beq].
  change (beq (B "data") (B "version")) with false. change (beq (B "data") (B "data")) with true. cbv iota.
  destruct (oget (B "data") m) as [d|] eqn:Ed; [|discriminate]. cbn [option_map].
  rewrite at_path_cons in *. destruct (vget (B "CONTEXT") d) as [c|] eqn:Ec; [|discriminate].
  rewrite (modify_at_get _ _ _ _ Ec).
  rewrite at_path_cons in *. destruct (vget (B "HEADERS") c) as [hh|] eqn:Eh; [|discriminate].
  rewrite (modify_at_get _ _ _ _ Eh). cbn in *. inversion H; subst. auto.
Qed.

Lemma header_variants_spec h : exists h', header_variants (JObj h) = JObj h' /\
  (forall s v, In s spellings -> oget s h = Some v ->
     exists w, (exists s0, In s0 spellings /\ oget s0 h = Some w) /\
               forall s', In s' spellings -> oget s' h' = Some w) /\
  (forall k, ~ In k spellings -> oget k h' = oget k h) /\
  ((forall s, In s spellings -> oget s h = None) -> h' = h).
Proof.
  cbn [header_variants].
  assert (forall A a b c v w, In c [a; b] -> A = oset a v (oset b v h) -> (oget c h = Some w \/ True) ->
    oget c A = Some v) as X.
  { intros A a b c v w [<-|[<-|[]]] -> _; rewrite !oget_oset; rewrite ?beq_refl; auto.
    destruct (beq b a); auto. }
  assert (forall k, ~ In k spellings -> beq k H_LOWER = false /\ beq k H_PASCAL = false /\ beq k H_UPPER = false) as NK.
  { intros k N. repeat split; apply beq_neq; intros ->; apply N; cbn; auto. }
  destruct (oget H_LOWER h) as [v|] eqn:E1; [|destruct (oget H_PASCAL h) as [v|] eqn:E2;
    [|destruct (oget H_UPPER h) as [v|] eqn:E3]].
  1-3: eexists; split; [reflexivity|]; split; [|split].
  - intros s w _ _. exists v. split; [exists H_LOWER; cbn; auto|].
    intros s' [<-|[<-|[<-|[]]]]; rewrite !oget_oset.
    + change (beq H_LOWER H_UPPER) with false. change (beq H_LOWER H_PASCAL) with false. auto.
    + destruct (beq H_PASCAL H_UPPER); rewrite ?beq_refl; auto.
    + rewrite beq_refl. auto.
  - intros k N. apply NK in N as (N1 & N2 & N3). rewrite !oget_oset, N2, N3. auto.
  - intros N. rewrite N in E1 by (cbn; auto). discriminate.
  - intros s w _ _. exists v. split; [exists H_PASCAL; cbn; auto|].
    intros s' [<-|[<-|[<-|[]]]]; rewrite !oget_oset.
    + destruct (beq H_LOWER H_UPPER); rewrite ?beq_refl; auto.
    + change (beq H_PASCAL H_UPPER) with false. change (beq H_PASCAL H_LOWER) with false. auto.
    + rewrite beq_refl. auto.
  - intros k N. apply NK in N as (N1 & N2 & N3). rewrite !oget_oset, N1, N3. auto.
  - intros N. rewrite (N H_PASCAL) in E2 by (cbn; auto). discriminate.
  - intros s w _ _. exists v. split; [exists H_UPPER; cbn; auto|].
    intros s' [<-|[<-|[<-|[]]]]; rewrite !oget_oset.
    + destruct (beq H_LOWER H_PASCAL); rewrite ?beq_refl; auto.
    + rewrite beq_refl. auto.
    + change (beq H_UPPER H_PASCAL) with false. change (beq H_UPPER H_LOWER) with false. auto.
  - intros k N. apply NK in N as (N1 & N2 & N3). rewrite !oget_oset, N1, N2. auto.
  - intros N. rewrite (N H_UPPER) in E3 by (cbn; auto). discriminate.
  - exists h. split; auto. split; [|split; auto].
    intros s w [<-|[<-|[<-|[]]]] E; exfalso;
    [change (oget H_LOWER h = Some w) in E|change (oget H_PASCAL h = Some w) in E|change (oget H_UPPER h = Some w) in E]; congruence.
Qed.

Lemma modify_at_nonobj k f j : ~ is_obj j -> modify_at k f j = j.
Proof. intros H. destruct j; auto. exfalso. apply H. eexists; reflexivity. Qed.
Lemma update_tail_none j : update_tail j = None <-> ~ (is_obj j \/ j = JNull).
Proof.
  split.
  - intros H [[m ->]| ->].
    + destruct (update_tail_obj m) as (m' & E & _). congruence.
    + discriminate.
  - intros N. unfold update_tail. rewrite modify_at_nonobj by tauto.
    destruct j; try reflexivity; exfalso; apply N; [right; reflexivity|left; eexists; reflexivity].
Qed.
