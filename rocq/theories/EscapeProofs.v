(** * Escaping and filtering (utils.rs 677-880) *)

From Verif Require Import Bytes BytesFacts Json Utils Spec.

(** ** Specification vocabulary *)

(** ** Proofs *)

Ltac char_cases :=
  repeat match goal with
  | |- context [aeqb ?c ?d] => destruct (aeqb c d) eqn:?
  end.

Lemma needs_escape_false b c : needs_escape b c = false -> escape_char b c = [c].
Proof.
  unfold needs_escape, escape_char. intros H.
  rewrite !orb_false_iff in H. destruct H as [[[[[[H1 H2] H3] H4] H5] H6] H7].
  rewrite H1, H2, H3, H4, H5, H6. destruct b; cbn in *; auto.
  rewrite orb_false_iff in H7. destruct H7 as [-> ->]. auto.
Qed.

Lemma escape_flat b s : escape_chars s b = flat_map (escape_char b) s.
Proof.
  unfold escape_chars. destruct (existsb (needs_escape b) s) eqn:E; cbn; auto.
  induction s as [|c s IH]; cbn in *; auto.
  rewrite orb_false_iff in E. destruct E as [E1 E2].
  rewrite (needs_escape_false _ _ E1). cbn. f_equal. auto.
Qed.

Lemma escape_char_piece b c : piece_for b c (escape_char b c).
Proof.
  unfold piece_for, escape_char.
  assert (Hc : forall d, aeqb c d = true -> c = d) by (intros d; apply aeqb_eq).
  destruct (aeqb c c_amp) eqn:E1; [apply Hc in E1; subst; left; cbn; tauto|].
  destruct (aeqb c c_lt) eqn:E2; [apply Hc in E2; subst; left; cbn; tauto|].
  destruct (aeqb c c_gt) eqn:E3; [apply Hc in E3; subst; left; cbn; tauto|].
  destruct (aeqb c c_quot) eqn:E4; [apply Hc in E4; subst; left; cbn; tauto|].
  destruct (aeqb c c_apos) eqn:E5; [apply Hc in E5; subst; left; cbn; tauto|].
  destruct (aeqb c c_slash) eqn:E6; [apply Hc in E6; subst; left; cbn; tauto|].
  apply aeqb_neq in E1, E2, E3, E4, E5, E6.
  destruct b; cbn [andb].
  - destruct (aeqb c c_lbrace) eqn:E7; [apply Hc in E7; subst; left; cbn; tauto|].
    destruct (aeqb c c_rbrace) eqn:E8; [apply Hc in E8; subst; left; cbn; tauto|].
    apply aeqb_neq in E7, E8. right. split; auto. split; [|exact E1].
    cbn. intros H; repeat destruct H as [H|H]; subst;
      first [apply E2; reflexivity | apply E3; reflexivity | apply E4; reflexivity
            | apply E5; reflexivity | apply E6; reflexivity | apply E7; reflexivity | apply E8; reflexivity | exact H].
  - right. split; auto. split; [|exact E1].
    cbn. intros H; repeat destruct H as [H|H]; subst;
      first [apply E2; reflexivity | apply E3; reflexivity | apply E4; reflexivity
            | apply E5; reflexivity | apply E6; reflexivity | exact H].
Qed.

Lemma escape_pieces b s :
  exists ps, escape_chars s b = concat ps /\ Forall2 (piece_for b) s ps.
Proof.
  rewrite escape_flat. exists (map (escape_char b) s). split.
  - rewrite flat_map_concat_map. reflexivity.
  - induction s; cbn; constructor; auto using escape_char_piece.
Qed.

Lemma inert_app b s t : inert b s -> inert b t -> inert b (s ++ t).
Proof.
  induction 1; intros; cbn; auto.
  - apply inert_plain; auto.
  - rewrite <- app_assoc. eapply inert_entity; eauto.
Qed.

Lemma escape_inert b s : inert b (escape_chars s b).
Proof.
  rewrite escape_flat. induction s as [|c s IH]; cbn; [constructor|].
  apply inert_app; auto.
  destruct (escape_char_piece b c) as [H|(E & H1 & H2)].
  - rewrite <- (app_nil_r (escape_char b c)). eapply inert_entity; eauto. constructor.
  - rewrite E. apply inert_plain; auto. constructor.
Qed.

Lemma inert_no_active b s : inert b s -> forall c, In c (active b) -> ~ In c s.
Proof.
  induction 1 as [|d r H1 H2 H IH|d e r H1 H IH]; intros c Hc; cbn.
  - tauto.
  - intros [->|H']; [auto|]. eapply IH; eauto.
  - intros Hin. apply in_app_or in Hin as [Hin|Hin]; [|eapply IH; eauto].
    assert (forallb (fun ce => forallb (fun a => negb (existsb (aeqb a) (snd ce))) (active b)) (entity_table b) = true)
      as K by (destruct b; vm_compute; reflexivity).
    rewrite forallb_forall in K. specialize (K _ H1). cbn [snd] in K.
    rewrite forallb_forall in K. specialize (K _ Hc).
    rewrite negb_true_iff in K.
    assert (existsb (aeqb c) e = true) as K2.
    { apply existsb_exists. exists c. split; auto. apply aeqb_refl. }
    congruence.
Qed.

Lemma unescape_go_escape_char b c r :
  unescape_go b None (escape_char b c ++ r) = c :: unescape_go b None r.
Proof.
  unfold escape_char.
  assert (Hc : forall d, aeqb c d = true -> c = d) by (intros d; apply aeqb_eq).
  destruct (aeqb c c_amp) eqn:E1; [apply Hc in E1; subst; destruct b; reflexivity|].
  destruct (aeqb c c_lt) eqn:E2; [apply Hc in E2; subst; destruct b; reflexivity|].
  destruct (aeqb c c_gt) eqn:E3; [apply Hc in E3; subst; destruct b; reflexivity|].
  destruct (aeqb c c_quot) eqn:E4; [apply Hc in E4; subst; destruct b; reflexivity|].
  destruct (aeqb c c_apos) eqn:E5; [apply Hc in E5; subst; destruct b; reflexivity|].
  destruct (aeqb c c_slash) eqn:E6; [apply Hc in E6; subst; destruct b; reflexivity|].
  destruct b; cbn [andb].
  - destruct (aeqb c c_lbrace) eqn:E7; [apply Hc in E7; subst; reflexivity|].
    destruct (aeqb c c_rbrace) eqn:E8; [apply Hc in E8; subst; reflexivity|].
    cbn. rewrite E1. auto.
  - cbn. rewrite E1. auto.
Qed.

Lemma unescape_go_flat b s : unescape_go b None (flat_map (escape_char b) s) = s.
Proof.
  induction s as [|c s IH]; cbn [flat_map]; auto.
  rewrite unescape_go_escape_char. congruence.
Qed.

Lemma unescape_go_no_amp b s : existsb (aeqb c_amp) s = false -> unescape_go b None s = s.
Proof.
  induction s as [|c s IH]; cbn; auto. rewrite orb_false_iff. intros [H1 H2].
  assert (aeqb c c_amp = false) as ->.
  { apply aeqb_neq. apply aeqb_neq in H1. congruence. }
  f_equal; auto.
Qed.
Lemma unescape_is_go s b : unescape_chars s b = unescape_go b None s.
Proof.
  unfold unescape_chars. destruct (existsb (aeqb c_amp) s) eqn:E; cbn; auto.
  symmetry. apply unescape_go_no_amp; auto.
Qed.

Lemma unescape_escape b s : unescape_chars (escape_chars s b) b = s.
Proof. rewrite unescape_is_go, escape_flat. apply unescape_go_flat. Qed.

Lemma refilter_idem b s : refilter b (refilter b s) = refilter b s.
Proof. unfold refilter. rewrite unescape_escape. auto. Qed.
Lemma refilter_inert b s : inert b (refilter b s).
Proof. apply escape_inert. Qed.

Lemma entity_special b e : existsb (needs_escape true) (unescape_entity b e) = true.
Proof.
  unfold unescape_entity.
  repeat match goal with |- context [if ?x then _ else _] => destruct x; [reflexivity|] end.
  reflexivity.
Qed.

Lemma unescape_special b s : existsb (aeqb c_amp) s = true ->
  existsb (needs_escape true) (unescape_go b None s) = true.
Proof.
  assert (K : forall s, (existsb (aeqb c_amp) s = true ->
                         existsb (needs_escape true) (unescape_go b None s) = true)
              /\ forall e, existsb (needs_escape true) (unescape_go b (Some e) s) = true).
  { clear s. induction s as [|c s [IH1 IH2]]; cbn; split; auto; try congruence.
    - destruct (aeqb c c_amp) eqn:E; intros H; auto.
      cbn. rewrite IH1; [apply orb_true_r|].
      rewrite orb_true_iff in H. destruct H as [H|H]; auto.
      apply aeqb_eq in H. subst. rewrite aeqb_refl in E. congruence.
    - intros e. destruct (aeqb c c_semi); auto.
      rewrite existsb_app, entity_special. auto. }
  apply K.
Qed.

Lemma filter_string_refilter s : filter_string s = refilter true s.
Proof.
  unfold filter_string, refilter.
  destruct (existsb (needs_escape true) (unescape_chars s true)) eqn:E; auto.
  rewrite unescape_is_go in *.
  destruct (existsb (aeqb c_amp) s) eqn:F.
  - rewrite (unescape_special _ _ F) in E. congruence.
  - rewrite (unescape_go_no_amp _ _ F) in *. unfold escape_chars. rewrite E. reflexivity.
Qed.
Lemma filter_string_idem s : filter_string (filter_string s) = filter_string s.
Proof. rewrite !filter_string_refilter. apply refilter_idem. Qed.

Lemma filter_value_idem j : filter_value (filter_value j) = filter_value j.
Proof.
  induction j using json_ind'; cbn; auto.
  - rewrite filter_string_idem; auto.
  - f_equal. rewrite map_map. induction H; cbn; congruence.
  - f_equal. rewrite map_map. induction H; cbn; [auto|]. f_equal; [|auto]. cbn in *. congruence.
Qed.

(** ** Strings and keys of a JSON value *)

Lemma string_in_str s t : string_in s (JStr t) -> s = t.
Proof. intros H; inversion H; auto. Qed.
Lemma string_in_arr s l : string_in s (JArr l) -> exists v, In v l /\ string_in s v.
Proof. intros H; inversion H; eauto. Qed.
Lemma string_in_obj s m : string_in s (JObj m) -> exists k v, In (k, v) m /\ string_in s v.
Proof. intros H; inversion H; eauto. Qed.
Lemma key_in_arr s l : key_in s (JArr l) -> exists v, In v l /\ key_in s v.
Proof. intros H; inversion H; eauto. Qed.
Lemma key_in_obj s m : key_in s (JObj m) ->
  (exists v, In (s, v) m) \/ exists k v, In (k, v) m /\ key_in s v.
Proof. intros H; inversion H; eauto. Qed.

Lemma filter_value_strings j s : string_in s (filter_value j) -> inert true s.
Proof.
  induction j as [ | | | t | l H | m H ] using json_ind'; cbn; intros Hs; try solve [inversion Hs].
  - apply string_in_str in Hs; subst. rewrite filter_string_refilter. apply refilter_inert.
  - apply string_in_arr in Hs as (v & Hin & Hv).
    apply in_map_iff in Hin as (v0 & <- & Hin). rewrite Forall_forall in H. eapply H; eauto.
  - apply string_in_obj in Hs as (k & v & Hin & Hv).
    apply in_map_iff in Hin as ([k0 v0] & E & Hin). inversion E; subst.
    rewrite Forall_forall in H. apply (H _ Hin). auto.
Qed.

Lemma oset_in k v m k' v' : In (k', v') (oset k v m) -> (k' = k /\ v' = v) \/ In (k', v') m.
Proof.
  induction m as [|[k1 v1] m IH]; cbn.
  - intros [E|[]]; inversion E; auto.
  - destruct (beq_spec k k1); subst; cbn.
    + intros [E|H]; [inversion E; auto|auto].
    + intros [E|H]; [inversion E; auto|]. destruct (IH H) as [?|?]; auto.
Qed.

Lemma fold_oset_in (l : obj) acc k v :
  In (k, v) (fold_left (fun acc kv => oset (filter_key (fst kv)) (snd kv) acc) l acc) ->
  In (k, v) acc \/ exists k0, In (k0, v) l /\ k = filter_key k0.
Proof.
  revert acc; induction l as [|[k1 v1] l IH]; cbn; intros acc H; auto.
  apply IH in H as [H|(k0 & H & ->)]; [|eauto].
  apply oset_in in H as [[-> ->]|H]; eauto.
Qed.

Lemma filter_keys_strings j s : string_in s (filter_value_keys j) -> string_in s j.
Proof.
  induction j as [ | | | t | l H | m H ] using json_ind'; cbn; intros Hs; auto.
  - apply string_in_arr in Hs as (v & Hin & Hv).
    apply in_map_iff in Hin as (v0 & <- & Hin).
    rewrite Forall_forall in H. eapply si_arr; eauto.
  - rewrite Forall_forall in H.
    assert (K : forall k v, In (k, v) (map (fun kv => (fst kv, filter_value_keys (snd kv))) m) ->
                string_in s v -> string_in s (JObj m)).
    { intros k v Hin Hv. apply in_map_iff in Hin as ([k0 v0] & E & Hv0). inversion E; subst.
      eapply si_obj; eauto. apply (H _ Hv0). auto. }
    destruct (negb _); apply string_in_obj in Hs as (k & v & Hin & Hv); eauto.
    apply fold_oset_in in Hin as [[]|(k0 & Hk & _)]. eauto.
Qed.

Lemma key_no_change k : key_needs_change k = false -> inert true k.
Proof.
  unfold key_needs_change. rewrite orb_false_iff. intros [_ H].
  replace k with (escape_chars k true) by (unfold escape_chars; rewrite H; reflexivity).
  apply escape_inert.
Qed.

Lemma filter_keys_keys j k : key_in k (filter_value_keys j) -> inert true k.
Proof.
  induction j as [ | | | t | l H | m H ] using json_ind'; cbn; intros Hs; try solve [inversion Hs].
  - apply key_in_arr in Hs as (v & Hin & Hv).
    apply in_map_iff in Hin as (v0 & <- & Hin).
    rewrite Forall_forall in H. eapply H; eauto.
  - rewrite Forall_forall in H.
    assert (K : forall k' v, In (k', v) (map (fun kv => (fst kv, filter_value_keys (snd kv))) m) ->
                key_in k v -> inert true k).
    { intros k' v Hin Hv. apply in_map_iff in Hin as ([k0 v0] & E & Hv0). inversion E; subst.
      apply (H _ Hv0). auto. }
    destruct (existsb (fun kv => key_needs_change (fst kv)) m) eqn:Ex; cbn in Hs;
      apply key_in_obj in Hs as [(v & Hin)|(k' & v & Hin & Hv)]; eauto.
    + apply fold_oset_in in Hin as [[]|(k0 & Hk & ->)]. apply (refilter_inert true k0).
    + apply fold_oset_in in Hin as [[]|(k0 & Hk & _)]; eauto.
    + apply in_map_iff in Hin as ([k0 v0] & E & Hv0). inversion E; subst.
      apply key_no_change. destruct (key_needs_change k) eqn:Ek; auto. exfalso.
      assert (existsb (fun kv => key_needs_change (fst kv)) m = true) as X; [|congruence].
      apply existsb_exists. exists (k, v0); auto.
Qed.

(** ** C09: what filtering the keys does to the entries *)
Lemma oget_oset k v m k' : oget k' (oset k v m) = if beq k' k then Some v else oget k' m.
Proof.
  induction m as [|[k1 v1] m IH]; cbn.
  - destruct (beq k' k); auto.
  - destruct (beq_spec k k1) as [->|N]; cbn.
    + destruct (beq_spec k' k1); auto.
    + rewrite IH. destruct (beq_spec k' k1) as [->|]; auto.
      destruct (beq_spec k1 k); auto. congruence.
Qed.

Lemma fold_oset_get (l : obj) acc k :
  oget k (fold_left (fun acc kv => oset (filter_key (fst kv)) (snd kv) acc) l acc)
  = match last_filtered k l with Some v => Some v | None => oget k acc end.
Proof.
  revert acc; induction l as [|[k1 v1] l IH]; cbn; intros acc; auto.
  rewrite IH. destruct (last_filtered k l); auto. rewrite oget_oset.
  destruct (beq k (filter_key k1)); auto.
Qed.

Lemma filter_key_unchanged k : key_needs_change k = false -> filter_key k = k.
Proof.
  unfold key_needs_change, filter_key. rewrite orb_false_iff. intros [H1 H2].
  rewrite unescape_is_go, unescape_go_no_amp by auto. unfold escape_chars. rewrite H2. auto.
Qed.

Lemma last_filtered_none k m : last_filtered k m = None <-> forall k0 v0, In (k0, v0) m -> filter_key k0 <> k.
Proof.
  induction m as [|[k1 v1] m IH]; cbn.
  - split; auto; tauto.
  - destruct (last_filtered k m) eqn:E.
    + split; [congruence|]. intros H. assert (last_filtered k m = None) as X; [|congruence].
      rewrite E. apply IH. intros; eapply H; eauto.
    + destruct (beq_spec k (filter_key k1)) as [->|N].
      * split; [congruence|]. intros H. exfalso. eapply (H k1 v1); auto.
      * split; auto. intros _ k0 v0 [X|X]; [inversion X; subst; congruence|].
        eapply IH; eauto.
Qed.
Lemma last_filtered_some k m v : last_filtered k m = Some v ->
  exists k0 m1 m2, m = m1 ++ (k0, v) :: m2 /\ filter_key k0 = k /\
                   forall k1 v1, In (k1, v1) m2 -> filter_key k1 <> k.
Proof.
  induction m as [|[k1 v1] m IH]; cbn; [congruence|].
  destruct (last_filtered k m) eqn:E.
  - intros H; inversion H; subst. destruct (IH eq_refl) as (k0 & m1 & m2 & -> & E1 & E2).
    exists k0, ((k1, v1) :: m1), m2. auto.
  - destruct (beq_spec k (filter_key k1)) as [->|N]; [|congruence].
    intros H; inversion H; subst. exists k1, [], m. split; auto. split; auto.
    apply last_filtered_none; auto.
Qed.

Lemma last_filtered_split k m v k0 m1 m2 :
  m = m1 ++ (k0, v) :: m2 -> filter_key k0 = k ->
  (forall k1 v1, In (k1, v1) m2 -> filter_key k1 <> k) -> last_filtered k m = Some v.
Proof.
  intros -> E N. induction m1 as [|[k1 v1] m1 IH]; cbn.
  - apply last_filtered_none in N. rewrite N. subst. rewrite beq_refl. auto.
  - rewrite IH. auto.
Qed.
Lemma oget_last_nodup m k : NoDup (okeys m) ->
  (forall k0 v0, In (k0, v0) m -> filter_key k0 = k0) -> oget k m = last_filtered k m.
Proof.
  induction m as [|[k1 v1] m IH]; cbn; auto. intros N H.
  inversion N as [|? ? Hni Hnd]; subst.
  rewrite (H k1 v1) by auto.
  destruct (beq_spec k k1) as [->|Ne].
  - assert (last_filtered k1 m = None) as ->.
    { apply last_filtered_none. intros k0 v0 Hin. rewrite (H k0 v0) by auto. intros ->.
      apply Hni. apply in_map_iff. exists (k1, v0); auto. }
    auto.
  - rewrite IH; [destruct (last_filtered k m); auto|exact Hnd|intros; eapply H; eauto].
Qed.

Lemma filter_keys_entries m k :
  NoDup (okeys m) ->
  vget k (filter_value_keys (JObj m)) =
  last_filtered k (map (fun kv => (fst kv, filter_value_keys (snd kv))) m).
Proof.
  intros N. cbn [filter_value_keys].
  destruct (existsb (fun kv => key_needs_change (fst kv)) m) eqn:Ex; cbn [negb vget].
  - rewrite fold_oset_get. destruct (last_filtered _ _); auto.
  - apply oget_last_nodup.
    + unfold okeys. rewrite map_map. cbn. exact N.
    + intros k0 v0 Hin. apply in_map_iff in Hin as ([k2 v2] & E & Hin). inversion E; subst.
      apply filter_key_unchanged. destruct (key_needs_change k0) eqn:Ek; auto. exfalso.
      assert (existsb (fun kv => key_needs_change (fst kv)) m = true) as X; [|congruence].
      apply existsb_exists. exists (k0, v2); auto.
Qed.

Lemma filter_keys_last_wins m k : NoDup (okeys m) ->
  (forall k0 v m1 m2, m = m1 ++ (k0, v) :: m2 -> refilter true k0 = k ->
     (forall k1 v1, In (k1, v1) m2 -> refilter true k1 <> k) ->
     vget k (filter_value_keys (JObj m)) = Some (filter_value_keys v)) /\
  ((forall k0 v, In (k0, v) m -> refilter true k0 <> k) -> vget k (filter_value_keys (JObj m)) = None).
Proof.
  intros ND. rewrite (filter_keys_entries m k ND). split.
  - intros k0 v m1 m2 -> Hk Hl. rewrite map_app. cbn [map fst snd].
    eapply last_filtered_split; [reflexivity|exact Hk|].
    intros k1 v1 Hin. apply in_map_iff in Hin as ([k2 v2] & E & Hin). inversion E; subst. apply (Hl _ _ Hin).
  - intros H. apply last_filtered_none. intros k0 v0 Hin.
    apply in_map_iff in Hin as ([k2 v2] & E & Hin). inversion E; subst. apply (H _ _ Hin).
Qed.
Lemma filter_keys_unique m k0 v : NoDup (okeys m) -> In (k0, v) m ->
  (forall k1 v1, In (k1, v1) m -> refilter true k1 = refilter true k0 -> k1 = k0) ->
  vget (refilter true k0) (filter_value_keys (JObj m)) = Some (filter_value_keys v).
Proof.
  intros ND Hin U. apply in_split in Hin as (m1 & m2 & ->).
  eapply filter_keys_last_wins; [exact ND|reflexivity|reflexivity|].
  intros k1 v1 H2 E. assert (k1 = k0) as -> by (eapply U; [|exact E]; apply in_or_app; right; right; exact H2).
  unfold okeys in ND. rewrite map_app in ND. apply NoDup_remove_2 in ND. apply ND. apply in_or_app. right.
  exact (in_map fst m2 (k0, v1) H2).
Qed.
