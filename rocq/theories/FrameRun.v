(** * Preservation by bifs, blocks and whole parses *)

From Verif Require Import Bytes Json Utils ConstantsGen State Engine Template Spec SpecEngine BytesFacts FrameProofs.

Section Run.
  Variable env : Env.
  Variable Inv : Shared -> bytes -> N -> Prop.
  Variable R : N -> Shared -> Shared -> Prop.
  Variable PP : panic -> Prop.
  Hypothesis F : frame env Inv R PP.
  Variable n : nat.
  Variable rec : Shared -> Inherit -> bytes -> list (nat * nat) -> bytes -> BRes.
  Hypothesis Hrec : ok_rec Inv R PP n rec.
  Let R_refl := f_R_refl _ _ _ _ F.
  Let R_trans := f_R_trans _ _ _ _ F.
  Let R_level := f_R_level _ _ _ _ F.
  Let R_base := f_R_base _ _ _ _ F.
  Let H_benign := f_H_benign _ _ _ _ F.
  Let H_count := f_H_count _ _ _ _ F.
  Let H_error := f_H_error _ _ _ _ F.
  Let H_data := f_H_data _ _ _ _ F.
  Let H_moveto := f_H_moveto _ _ _ _ F.
  Let H_create := f_H_create _ _ _ _ F.
  Let H_def := f_H_def _ _ _ _ F.
  Let H_snip := f_H_snip _ _ _ _ F.
  Let H_enter := f_H_enter _ _ _ _ F.
  Let H_leave := f_H_leave _ _ _ _ F.
  Let H_leave_scope := f_H_leave_scope _ _ _ _ F.
  Let H_show := f_H_show _ _ _ _ F.
  Let PP_limit := f_PP_limit _ _ _ _ F.
  Let PP_name := f_PP_name _ _ _ _ F.
  Let PP_comments := f_PP_comments _ _ _ _ F.
  Let PP_canon := f_PP_canon _ _ _ _ F.
  Let PP_objt := f_PP_objt _ _ _ _ F.
  Let PP_count := f_PP_count _ _ _ _ F.
  Let PP_expire := f_PP_expire _ _ _ _ F.
  Let PP_date := f_PP_date _ _ _ _ F.
  Let PP_hash := f_PP_hash _ _ _ _ F.
  Notation ok := (ok Inv R PP n).
  Notation okb := (okb Inv R PP).

  Lemma lookup_in nm l : lookup_handler nm l = bif_unknown \/ exists k, In (k, lookup_handler nm l) l /\ k = nm.
  Proof.
    induction l as [|[k h] r IH]; cbn [lookup_handler]; [left; reflexivity|].
    destruct (beq nm k) eqn:E; [right; exists k; split; [left; reflexivity|symmetry; apply beq_eq; exact E]|].
    destruct IH as [IH|(k' & H1 & H2)]; [left; exact IH|right; exists k'; split; [right; exact H1|exact H2]].
  Qed.

  Lemma handlers_free : Forall (fun kh => ok mFree (snd kh)) (handlers env rec).
  Proof.
    unfold handlers, bif_array, bif_bool, bif_defined, bif_filled, bif_same, bif_contains. repeat (apply Forall_cons; [cbn [snd]|]); [..|apply Forall_nil].
    - eapply ok_var; eassumption.
    - eapply ok_allow; eassumption.
    - eapply ok_cond; eassumption.
    - eapply ok_cond; eassumption.
    - eapply ok_cache; eassumption.
    - eapply ok_coalesce; eassumption.
    - eapply ok_code; eassumption.
    - eapply ok_compare; eassumption.
    - eapply ok_count; eassumption.
    - eapply ok_data; eassumption.
    - eapply ok_date; eassumption.
    - eapply ok_declare; eassumption.
    - eapply ok_cond; eassumption.
    - eapply ok_each; eassumption.
    - eapply ok_else; eassumption.
    - eapply ok_eval; eassumption.
    - eapply ok_exit; eassumption.
    - eapply ok_fetch; eassumption.
    - eapply ok_cond; eassumption.
    - eapply ok_flg; eassumption.
    - eapply ok_for; eassumption.
    - eapply ok_hash; eassumption.
    - eapply ok_include; eassumption.
    - eapply ok_join; eassumption.
    - eapply ok_lang; eassumption.
    - eapply ok_locale; eassumption.
    - eapply ok_bif_moveto; eassumption.
    - eapply ok_neutral; eassumption.
    - eapply ok_param; eassumption.
    - eapply ok_rand; eassumption.
    - eapply ok_redirect; eassumption.
    - eapply ok_replace; eassumption.
    - eapply ok_compare; eassumption.
    - eapply ok_snippet; eassumption.
    - eapply ok_snippet; eassumption.
    - eapply ok_sum; eassumption.
    - eapply ok_trans; eassumption.
    - eapply ok_obj; eassumption.
    - eapply ok_debug; eassumption.
  Qed.

  Lemma handlers_strict : Forall (fun kh => ~ In (fst kh) definers -> ok mStrict (snd kh)) (handlers env rec).
  Proof.
    unfold handlers, bif_array, bif_bool, bif_defined, bif_filled, bif_same, bif_contains. repeat (apply Forall_cons; [cbn [fst snd]; intro ND|]); [..|apply Forall_nil].
    - eapply ok_var; eassumption.
    - eapply ok_allow; eassumption.
    - eapply ok_cond; eassumption.
    - eapply ok_cond; eassumption.
    - eapply ok_cache; eassumption.
    - eapply ok_coalesce; eassumption.
    - eapply ok_code; eassumption.
    - eapply ok_compare; eassumption.
    - eapply ok_count; eassumption.
    - exfalso; apply ND; unfold definers; cbn [In]; tauto.
    - eapply ok_date; eassumption.
    - exfalso; apply ND; unfold definers; cbn [In]; tauto.
    - eapply ok_cond; eassumption.
    - eapply ok_each; eassumption.
    - eapply ok_else; eassumption.
    - eapply ok_eval; eassumption.
    - eapply ok_exit; eassumption.
    - eapply ok_fetch; eassumption.
    - eapply ok_cond; eassumption.
    - eapply ok_flg; eassumption.
    - eapply ok_for; eassumption.
    - eapply ok_hash; eassumption.
    - exfalso; apply ND; unfold definers; cbn [In]; tauto.
    - eapply ok_join; eassumption.
    - eapply ok_lang; eassumption.
    - exfalso; apply ND; unfold definers; cbn [In]; tauto.
    - eapply ok_bif_moveto; eassumption.
    - eapply ok_neutral; eassumption.
    - exfalso; apply ND; unfold definers; cbn [In]; tauto.
    - eapply ok_rand; eassumption.
    - eapply ok_redirect; eassumption.
    - eapply ok_replace; eassumption.
    - eapply ok_compare; eassumption.
    - exfalso; apply ND; unfold definers; cbn [In]; tauto.
    - exfalso; apply ND; unfold definers; cbn [In]; tauto.
    - eapply ok_sum; eassumption.
    - eapply ok_trans; eassumption.
    - eapply ok_obj; eassumption.
    - eapply ok_debug; eassumption.
  Qed.

  Lemma ok_dispatch nm : ok mFree (dispatch env rec nm).
  Proof.
    unfold dispatch. destruct (lookup_in nm (handlers env rec)) as [E|(k & H & _)];
      [rewrite E; eapply ok_unknown; eassumption|].
    exact (proj1 (Forall_forall _ _) handlers_free _ H).
  Qed.

  Lemma ok_dispatch_strict nm : ~ In nm definers -> ok mStrict (dispatch env rec nm).
  Proof.
    intro ND. unfold dispatch. destruct (lookup_in nm (handlers env rec)) as [E|(k & H & Ek)];
      [rewrite E; eapply ok_unknown; eassumption|].
    apply (proj1 (Forall_forall _ _) handlers_strict _ H). cbn [fst]. rewrite Ek. exact ND.
  Qed.

  (** [okb] with the stronger relation of a bif that neither defines nor exports anything *)
  Definition okb_at (q : mode) (s : Shared) (i : Inherit) (r : BRes) : Prop :=
    match r with
    | BOk _ s' i' => Inv s' i'.(indir) i.(block_count) /\ R (lvl q i.(block_count)) s s' /\
                     i'.(block_count) = i.(block_count) /\ (q = mStrict -> i'.(indir) = i.(indir))
    | BPanic p => PP p
    | BNoFuel => False
    end.

  Lemma inv_lvl q s d c : Inv s d c -> Inv s d (lvl q c).
  Proof. destruct q; cbn [lvl]; [apply H_enter|..]; auto. Qed.

  Lemma okb_result q st m : ok q m -> Inv st.(sh) st.(inh).(indir) st.(inh).(block_count) ->
    room n st.(sh) -> pre q st -> okb_at q st.(sh) st.(inh) (bif_result env (m st)).
  Proof.
    intros Hm HI HF HP. specialize (Hm st HI HF HP). unfold bif_result.
    destruct (m st) as [x st1|e st1|p|]; [| |exact Hm|exact Hm].
    - destruct Hm as [(I1 & R1 & B1 & S1) _]. cbn. repeat split; auto.
    - destruct Hm as (I1 & R1 & B1 & S1).
      destruct (show_error (sh st1)) eqn:E; [|exact (H_show _ _ _ I1 E)].
      set (ev := EvLocalNow _).
      destruct (H_benign _ _ _ _ (bn_event ev) I1) as [I2 _].
      destruct (H_benign _ _ _ _ (bn_event ev) (inv_lvl q _ _ _ I1)) as [_ R2].
      unfold error_line. match goal with |- context [one_line ?x] => set (l := x) end.
      destruct (H_error l _ _ _ I2) as [I3 _].
      destruct (H_error l _ _ _ (inv_lvl q _ _ _ I2)) as [_ R3].
      cbn. repeat split; auto. eapply R_trans; [exact R1|]. eapply R_trans; [exact R2|exact R3].
  Qed.

  (** is this the text of a bif that neither defines nor exports anything? *)
  Definition closed_bif (braw : bytes) : Prop :=
    forall nm rest nm' f g u p,
      split_once (B ";") (strip_prefix_suffix braw BIF_OPEN BIF_CLOSE) = Some (nm, rest) ->
      scan_modifiers nm false false false false = Some (nm', (f, g, u, p)) ->
      p = false /\ ~ In nm' definers.

  Lemma okb_parse q s i braw bonly : q = mFree \/ (q = mStrict /\ closed_bif braw) ->
    Inv s i.(indir) i.(block_count) -> room n s -> okb_at q s i (bif_parse env rec s i braw bonly).
  Proof.
    intros HQ HI HF. unfold bif_parse.
    destruct (split_once (B ";") (strip_prefix_suffix braw BIF_OPEN BIF_CLOSE)) as [[nm rest]|] eqn:ES.
    - destruct (negb (is_empty bonly) && negb (contains bonly nm) && negb (in_only i)).
      { cbn. repeat split; auto. }
      destruct (scan_modifiers nm false false false false) as [[nm' [[[f g] u] p]]|] eqn:EM; [|exact PP_name].
      set (b := bset_mods f g u p _).
      assert (okb_at q s (iset_in_only true i)
                (bif_result env (dispatch env rec nm' (mkSt s (iset_in_only true i) b)))) as H.
      { destruct HQ as [->|[-> HC]].
        - apply (okb_result mFree (mkSt s (iset_in_only true i) b)); auto; [eapply ok_dispatch; eassumption|exact I].
        - destruct (HC _ _ _ _ _ _ _ ES EM) as [-> ND].
          apply (okb_result mStrict (mkSt s (iset_in_only true i) b)); auto;
            [eapply ok_dispatch_strict; eassumption|reflexivity]. }
      exact H.
    - destruct (negb (is_empty bonly)); [cbn; repeat split; auto|].
      destruct (show_error s) eqn:E; [|eapply H_show; eassumption].
      match goal with |- context [one_line ?x] => set (l := x) end.
      destruct (H_error l _ _ _ HI) as [I3 _].
      destruct (H_error l _ _ _ (inv_lvl q _ _ _ HI)) as [_ R3].
      cbn. repeat split; auto.
  Qed.

  Lemma okb_bif q s i braw bonly : q = mFree \/ (q = mStrict /\ closed_bif braw) -> s.(exit) = false ->
    Inv s i.(indir) i.(block_count) -> room (S n) s -> okb_at q s i (bif_run env rec s i braw bonly).
  Proof.
    intros HQ HE HI HF. unfold bif_run. destruct (bisf_max (cfg s) <? bisf_count s + 1)%N eqn:E; [exact PP_limit|].
    apply N.ltb_ge in E.
    destruct (H_count s _ _ HE E HI) as [I1 _].
    destruct (H_count s _ _ HE E (inv_lvl q _ _ _ HI)) as [_ R1].
    assert (room n (set_bisf_count (bisf_count s + 1) s)) as HF' by (unfold room in *; cbn; lia).
    pose proof (okb_parse q (set_bisf_count (bisf_count s + 1) s) (iset_bif_count (bisf_count s + 1) i)
                  braw bonly HQ I1 HF') as H.
    destruct (bif_parse env rec _ _ braw bonly) as [o s' i'|p|]; [|exact H|exact H].
    cbn in H |- *. destruct H as (I2 & R2 & B2 & S2). repeat split; auto. eapply R_trans; eassumption.
  Qed.

  Lemma okb_loop source bonly bl : forall s i prev acc,
    Inv s i.(indir) i.(block_count) -> room (S n) s -> okb n s i (blocks_loop env rec s i source prev acc bl bonly).
  Proof.
    induction bl as [|[a z] r IH]; intros s i prev acc HI HF; cbn [blocks_loop].
    - cbn. repeat split; auto.
    - destruct (exit s) eqn:EX; [cbn; repeat split; auto|].
      destruct (negb _ && negb _); [|apply IH; assumption].
      pose proof (okb_bif mFree s i (slice a z source) bonly (or_introl eq_refl) EX HI HF) as H.
      destruct (bif_run env rec s i (slice a z source) bonly) as [o s' i'|p|]; [|exact H|exact H].
      cbn in H. destruct H as (I1 & R1 & B1 & _).
      assert (room (S n) s') as HF'.
      { destruct (R_base _ _ _ R1) as [E L]. unfold room in *. rewrite E. lia. }
      assert (Inv s' (indir i') (block_count i')) as I1' by (rewrite B1; exact I1).
      specialize (IH s' i' z ((acc ++ slice prev a source) ++ o) I1' HF').
      unfold okb in *. destruct (blocks_loop env rec s' i' source z _ r bonly) as [o2 s2 i2|p|]; [|exact IH|exact IH].
      rewrite B1 in IH. destruct IH as (I2 & R2 & B2). repeat split; auto. eapply R_trans; eassumption.
  Qed.
End Run.

Section Knot.
  Variable env : Env.
  Variable Inv : Shared -> bytes -> N -> Prop.
  Variable R : N -> Shared -> Shared -> Prop.
  Variable PP : panic -> Prop.
  Hypothesis F : frame env Inv R PP.

  Lemma run_blocks_ok fuel : ok_rec Inv R PP fuel (run_blocks env fuel).
  Proof.
    induction fuel as [|m IH]; intros s i source bl only HI HF.
    - exfalso. unfold room in HF. lia.
    - cbn [run_blocks]. apply (okb_loop env Inv R PP F m (run_blocks env m) IH); assumption.
  Qed.

  (** a whole parse, with the fuel of [parse] *)
  Lemma parse_ok s i source only : Inv s i.(indir) i.(block_count) ->
    okb Inv R PP 0 s i (parse env s i source only).
  Proof.
    intro HI. unfold parse, parse_fuel.
    apply (ok_block_parse env Inv R PP F (enough_fuel s) _ (run_blocks_ok (enough_fuel s)) source only); [exact HI|].
    unfold room, enough_fuel. lia.
  Qed.
End Knot.
