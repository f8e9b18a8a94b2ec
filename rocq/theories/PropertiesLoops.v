(** * Property theorems: coalesce, eval, each and for *)

From Verif Require Import Bytes Json Utils ConstantsGen State Engine Template Spec SpecEngine BytesFacts TextProofs
  WordProofs FrameProofs FrameRun EngineFrames MoreFrames EvalProofs KeepProofs HandlerProofs Samples.

(** ** C25: coalesce *)

(** The content of a coalesce is a block in which evaluation stops at the first bif that has
    produced output (C24_previous tells what [last_coalesce_out] of a block is after a bif). *)
Theorem C25_first_filled : forall env s i mods body only bl o s' i', Forall modifier mods ->
  ~ In "&"%char mods -> ~ In "!"%char mods -> may_start s -> selected only i mods (B "coalesce") ->
  extract_blocks (trim body) = Blocks bl ->
  eval_bif env s i (bif_text mods (B "coalesce") body) only = BOk o s' i' ->
  let i0 := iset_coalesce false (started_in s i) in
  let s0 := entered (has_mod "+" mods) (started s) i0 in
  exists w s2 i2 fin,
    first_filled (fun s i t => eval_bif env s i t only) (segments (trim body) 0 bl) s0 (inside (B "coalesce") i0) w s2 i2 fin /\
    o = trim ((if has_mod "^" mods then BACKSPACE else []) ++ (if fin then trim w else w)).
Proof.
  intros env s i mods body only bl o s' i' HM HA HG HS HO HE. cbv zeta.
  rewrite eval_bif_text by (assumption || plain).
  change (dispatch env ?r (B "coalesce")) with (bif_coalesce r). unfold bif_coalesce, entry.
  rewrite bind_reject by (proj; allowed). rewrite bind_modI, bind_getB. proj.
  pose proof (room_started s) as HR. unfold bind at 1.
  rewrite child_block by (exact HR || reflexivity). proj. unfold eval_block.
  set (i0 := iset_coalesce false (started_in s i)).
  assert (forall s1 o1 s2 i2, parse env s1 (inside (B "coalesce") i0) (trim body) only = BOk o1 s2 i2 ->
    exists w fin, first_filled (fun s i t => eval_bif env s i t only) (segments (trim body) 0 bl) s1 (inside (B "coalesce") i0) w s2 i2 fin /\
      o1 = if fin then trim w else w) as HP.
  { intros s1 o1 s2 i2 EP. apply (parse_evaluates env s1 _ _ only bl) in EP; [|exact HE]. destruct EP as (w & fin & EV & ->).
    exists w, fin. split; [|reflexivity]. apply coalesce_blocks in EV; [|reflexivity]. exact EV. }
  destruct (has_mod "+" mods).
  - unfold eval_scoped, entered. destruct (create_block_schema (started s) i0) as [s1 i1]. cbn [fst].
    destruct (parse env s1 (inside (B "coalesce") i0) (trim body) only) as [o1 s2 i2|q|] eqn:EP; [|discriminate|discriminate].
    cbn [onto]. unfold set_out, modB. rewrite (result_done env mods o1) by reflexivity. intro E.
    destruct (HP _ _ _ _ EP) as (w & fin & H1 & H2). exists w, s2, i2, fin. split; [exact H1|]. rewrite <- H2.
    unfold finished in E. congruence.
  - unfold eval_nested, entered.
    destruct (parse env (started s) (inside (B "coalesce") i0) (trim body) only) as [o1 s2 i2|q|] eqn:EP; [|discriminate|discriminate].
    cbn [onto]. unfold set_out, modB. rewrite (result_done env mods o1) by reflexivity. intro E.
    destruct (HP _ _ _ _ EP) as (w & fin & H1 & H2). exists w, s2, i2, fin. split; [exact H1|]. rewrite <- H2.
    unfold finished in E. congruence.
Qed.
Print Assumptions C25_first_filled.

(** the complete result: the state afterwards is that of the evaluation of the content *)
Theorem C25_result : forall env s i mods body only, Forall modifier mods ->
  ~ In "&"%char mods -> ~ In "!"%char mods -> may_start s -> selected only i mods (B "coalesce") ->
  eval_bif env s i (bif_text mods (B "coalesce") body) only =
  and_then (eval_block env (B "coalesce") (has_mod "+" mods) (started s) (iset_coalesce false (started_in s i)) (trim body) only)
    (finished mods).
Proof.
  intros env s i mods body only HM HA HG HS HO.
  rewrite eval_bif_text by (assumption || plain).
  change (dispatch env ?r (B "coalesce")) with (bif_coalesce r). unfold bif_coalesce, entry.
  rewrite bind_reject by (proj; allowed). rewrite bind_modI, bind_getB. proj.
  pose proof (room_started s) as HR. unfold bind at 1.
  rewrite child_block by (exact HR || reflexivity). proj.
  destruct (eval_block env (B "coalesce") (has_mod "+" mods) (started s) (iset_coalesce false (started_in s i)) (trim body) only)
    as [o s2 i2|q|]; [|reflexivity|reflexivity].
  cbn [onto and_then]. apply result_done; reflexivity.
Qed.
Print Assumptions C25_result.

Example C25_example :
  output_of "{:coalesce; {:;nothing:} {:;name:} {:exit; 500 :} {:;list->0:} :}|{:coalesce; {:;x:} {:;y:} :}" = B "World|" /\
  extract_blocks (trim (B " {:;nothing:} {:;name:} ")) = Blocks [(0, 12); (13, 22)].
Proof. split; vm_compute; reflexivity. Qed.

(** ** C65: eval *)
Theorem C65_eval : forall env s i mods body only, Forall modifier mods -> ~ In "&"%char mods ->
  may_start s -> selected only i mods (B "eval") -> ~ occurs (B "{:flg;") (params_of body) -> has_data s ->
  let plus := has_mod "+" mods in
  eval_bif env s i (bif_text mods (B "eval") body) only =
  and_then (eval_code env (B "eval") plus (started s) (started_in s i) (params_of body) only) (fun p s1 i1 =>
    if xorb (negb (is_empty p)) (has_mod "!" mods) then
      if contains (B "{:") (code_of body) then
        let previous := var_text s1 i1 (B "__eval__") in
        and_then (eval_block env (B "eval") plus (with_data (B "__eval__") (JStr p) s1) i1 (code_of body) only) (fun o s2 i2 =>
          finished mods o (with_data (B "__eval__") (JStr previous) s2) i2)
      else finished mods (code_of body) s1 i1
    else finished mods [] s1 i1).
Proof.
  intros env s i mods body only HM HA HS HO HF HD. cbv zeta.
  rewrite eval_bif_text by (assumption || plain).
  change (dispatch env ?r (B "eval")) with (bif_eval r). unfold bif_eval, entry.
  rewrite bind_reject by (proj; allowed).
  pose proof (room_started s) as HR.
  erewrite bind_done by (apply run_extract_raw; reflexivity).
  rewrite bind_getB. proj.
  assert (contains (B "{:flg;") (params_of body) = false) as EF
    by (destruct (contains _ _) eqn:E; [|reflexivity]; apply contains_iff in E; contradiction).
  rewrite EF. change BIF_OPEN with (B "{:"). rewrite bind_if.
  assert (HD1 : has_data (started s)) by exact HD.
  set (i0 := started_in s i) in *. set (plus := has_mod "+" mods) in *.
  set (P := fun (p : bytes) s1 i1 => _ : BRes). 
  assert (forall p s1 i1 b, room (enough_fuel s) s1 -> has_data s1 ->
    b = bset_params p (bset_code (code_of body) (bif_of mods (B "eval") body only)) ->
    bif_result env
      (bind getB (fun b =>
        if xorb (negb (is_empty b.(params))) b.(mod_negate) then
          (if contains (B "{:") b.(code) then
             restore <- get_data (B "__eval__") ;;
             set_data (B "__eval__") b.(params) ;;;
             c <- child (run_blocks env (enough_fuel s)) b.(code) b.(mod_scope) ;;
             modB (bset_code c) ;;;
             set_data (B "__eval__") restore
           else ret tt) ;;;
          b <- getB ;; set_out b.(code)
        else set_out []) (mkSt s1 i1 b)) = P p s1 i1) as HP.
  { intros p s1 i1 b HR1 HD2 ->. rewrite bind_getB. proj. unfold P.
    change (mod_negate _) with (has_mod "!" mods). fold plus.
    destruct (xorb _ _); [|apply result_done; reflexivity].
    rewrite bind_if. destruct (contains (B "{:") (code_of body)).
    - unfold get_data. rewrite bind_bind, bind_bind, bind_getS, bind_bind, bind_getI, bind_ret.
      unfold set_data at 1. rewrite bind_bind.
      erewrite bind_done by (apply run_put_data; exact HD2).
      rewrite bind_bind. unfold bind at 1.
      assert (room (enough_fuel s) (with_data (B "__eval__") (JStr p) s1)) as HR2
        by (eapply room_later; [apply with_data_later|exact HR1]).
      rewrite child_block by (exact HR2 || reflexivity). proj. fold plus.
      destruct (eval_block env (B "eval") plus (with_data (B "__eval__") (JStr p) s1) i1 (code_of body) only)
        as [o s2 i2|q|] eqn:E; [|reflexivity|reflexivity].
      cbn [onto and_then]. rewrite bind_bind, bind_modB. unfold set_data.
      assert (has_data s2) as HD3 by (apply block_facts in E as [_ E]; apply E, with_data_has; exact HD2).
      erewrite bind_done by (apply run_put_data; exact HD3). rewrite bind_getB. proj.
      apply result_done; reflexivity.
    - rewrite bind_ret, bind_getB. proj. apply result_done; reflexivity. }
  unfold eval_code at 1. destruct (contains (B "{:") (params_of body)).
  - rewrite bind_bind. unfold bind at 1. rewrite child_block by (exact HR || reflexivity). proj. fold plus. unfold eval_block.
    destruct (if plus then eval_scoped _ _ _ _ _ _ else _) as [p s1 i1|q|] eqn:E; [|reflexivity|reflexivity].
    cbn [onto and_then]. rewrite bind_modB. apply (block_facts env _ plus) in E as [E1 E2]. apply HP.
    + eapply room_later; [exact E1|exact HR].
    + apply E2. exact HD1.
    + reflexivity.
  - rewrite bind_ret. cbn [and_then]. apply HP; [exact HR|exact HD1|reflexivity].
Qed.
Print Assumptions C65_eval.

(** afterwards __eval__ has its previous text again *)
Theorem C65_restored : forall s p, has_data s ->
  data_in (with_data (B "__eval__") (JStr p) s) (B "__eval__") = JStr p /\
  forall nm, nm <> B "__eval__" -> data_in (with_data (B "__eval__") (JStr p) s) nm = data_in s nm.
Proof.
  intros s p HD. split.
  - rewrite with_data_get by exact HD. rewrite beq_refl. reflexivity.
  - intros nm HN. rewrite with_data_get by exact HD. destruct (beq nm (B "__eval__")) eqn:E; [apply beq_eq in E; contradiction|reflexivity].
Qed.
Print Assumptions C65_restored.

Example C65_example :
  output_of "{:eval; a{:;name:} >> [{:;__eval__:}{:eval; b >> {:;__eval__:} :}{:;__eval__:}] :}|{:eval; {:;no:} >> x :}|{:!eval; {:;no:} >> y :}|{:;__eval__:}"
  = B "[aWorldbaWorld]||y|" /\
  (let s := fst (start_of "") in may_start s /\ has_data s).
Proof.
  split; [vm_compute; reflexivity|]. split; [vm_compute; discriminate|]. split; vm_compute; eauto.
Qed.

(** ** C34: each *)
Lemma elements_from l : forall n, enumerate_from n l = combine (map dec_nat (seq n (length l))) l.
Proof. induction l as [|v r IH]; intro n; cbn [enumerate_from length seq map combine]; [reflexivity|]. rewrite IH. reflexivity. Qed.
Lemma elements_eq j : each_items j = elements j.
Proof. destruct j; try reflexivity. apply elements_from. Qed.

Theorem C34_each : forall env s i mods body only p s1 arr kn vn rest coll bl, Forall modifier mods ->
  ~ In "&"%char mods -> ~ In "!"%char mods -> may_start s -> selected only i mods (B "each") -> has_data s ->
  prepared env (B "each") (started s) (started_in s i) only body p [] s1 ->
  words p (arr :: kn :: vn :: rest) ->
  ~ (exists r, kn = B "local::" ++ r) -> ~ (exists r, vn = B "local::" ++ r) ->
  value_of s1 (started_in s i) arr coll -> extract_blocks (code_of body) = Blocks bl ->
  let plus := has_mod "+" mods in
  eval_bif env s i (bif_text mods (B "each") body) only =
  and_then
    (iterate (fun kv s i =>
        eval_block env (B "each") plus (with_data vn (snd kv) (with_data kn (JStr (fst kv)) s)) i (code_of body) only)
      (elements coll) [] s1 (started_in s i))
    (fun o s2 i2 => finished mods o (with_data vn (data_in s1 vn) (with_data kn (data_in s1 kn) s2)) i2).
Proof.
  intros env s i mods body only p s1 arr kn vn rest coll bl HM HA HG HS HO HD HP HW HK HV HC HE. cbv zeta. apply words_iff in HW.
  rewrite eval_bif_text by (assumption || plain).
  change (dispatch env ?r (B "each")) with (bif_each r). unfold bif_each, entry.
  rewrite bind_reject by (proj; allowed).
  pose proof (room_started s) as HR.
  erewrite bind_done by (eapply run_extract; [exact HR|reflexivity..|exact HP]).
  rewrite bind_no_flags by reflexivity.
  rewrite bind_getB. proj. rewrite HW. unfold need_arg, arg. cbn [nth_error]. rewrite !bind_ret.
  assert (starts_with LOCAL kn = false) as E1
    by (destruct (starts_with LOCAL kn) eqn:E; [apply starts_with_iff in E; contradiction|reflexivity]).
  assert (starts_with LOCAL vn = false) as E2
    by (destruct (starts_with LOCAL vn) eqn:E; [apply starts_with_iff in E; contradiction|reflexivity]).
  rewrite E1, E2. cbn [orb]. rewrite bind_getS, bind_getI. proj. rewrite HE.
  assert (HR1 : room (enough_fuel s) s1) by (eapply room_later; [eapply prepared_later; exact HP|exact HR]).
  assert (HD1 : has_data s1) by (eapply prepared_has_data; [exact HP|exact HD]).
  assert (forall r, match (match strip_prefix LOCAL arr with
                   | Some l => resolve_pointer (local_data_of s1 (started_in s i)) l
                   | None => resolve_pointer (data_of s1) arr
                   end) with Some v => v | None => JNull end = r -> coll = r) as EC.
  { intros r <-. inversion HC as [v Hv|Hv]; subst; unfold scope_of, visible in Hv; change (B "local::") with LOCAL in Hv;
      unfold local_data_of, data_of; destruct (strip_prefix LOCAL arr); rewrite Hv; reflexivity. }
  rewrite <- (EC _ eq_refl). clear EC. unfold bind at 1.
  rewrite run_each_loop by (exact HR1 || exact HD1 || reflexivity || exact HE). proj. rewrite elements_eq.
  destruct (iterate _ _ _ _ _) as [o s2 i2|q|] eqn:EI; [|reflexivity|reflexivity].
  cbn [onto and_then].
  assert (has_data s2) as HD2.
  { apply (iterate_facts env (B "each") (has_mod "+" mods) (code_of body) only
      (fun kv s => with_data vn (snd kv) (with_data kn (JStr (fst kv)) s))) in EI; [apply EI; exact HD1|..].
    - intros x y. eapply later_trans; apply with_data_later.
    - intros x y Hy. apply with_data_has, with_data_has. exact Hy. }
  erewrite bind_done by (apply run_put_data; exact HD2).
  rewrite run_put_data by (apply with_data_has; exact HD2).
  apply result_done; reflexivity.
Qed.
Print Assumptions C34_each.

(** after the loop the loop variables have their value from before; other variables are those
    the body has left *)
Theorem C34_restored : forall s1 s2 kn vn nm, has_data s2 ->
  data_in (with_data vn (data_in s1 vn) (with_data kn (data_in s1 kn) s2)) nm =
  if beq nm vn || beq nm kn then data_in s1 nm else data_in s2 nm.
Proof.
  intros s1 s2 kn vn nm HD. rewrite with_data_get by (apply with_data_has; exact HD). rewrite with_data_get by exact HD.
  destruct (beq nm vn) eqn:E; [apply beq_eq in E; subst; reflexivity|].
  destruct (beq nm kn) eqn:E2; [apply beq_eq in E2; subst; reflexivity|reflexivity].
Qed.
Print Assumptions C34_restored.

Example C34_example :
  output_of "{:each; list k name >> {:;k:}={:;name:}, :}{:;name:}{:;k:}" = B "0=a,1=b,2=c,World" /\
  elements (JArr [JStr (B "a"); JNull]) = [(B "0", JStr (B "a")); (B "1", JNull)].
Proof. split; vm_compute; reflexivity. Qed.

(** ** C35, C36: for *)
Lemma zrange_length n : forall a, length (zrange a n) = n.
Proof. induction n; intro a; cbn; [reflexivity|]. rewrite IHn. reflexivity. Qed.
Lemma zrange_nth n : forall a k, k < n -> nth_error (zrange a n) k = Some (a + Z.of_nat k)%Z.
Proof.
  induction n as [|n IH]; intros a k HK; [lia|]. destruct k as [|k]; cbn [zrange nth_error].
  - f_equal. lia.
  - rewrite IH by lia. f_equal. lia.
Qed.

Theorem C35_values : forall a b, counted a b (for_values a b).
Proof.
  intros a b. unfold for_values, counted. destruct (b <? a)%Z eqn:E.
  - apply Z.ltb_lt in E. rewrite rev_length, zrange_length. split; [lia|]. intros k HK.
    destruct (a <=? b)%Z eqn:E2; [apply Z.leb_le in E2; lia|].
    set (n := Z.to_nat (a - b + 1)) in *.
    rewrite <- (zrange_length n b) in HK.
    rewrite nth_error_nth' with (d := 0%Z) by (rewrite rev_length; exact HK).
    rewrite rev_nth by exact HK. rewrite zrange_length in *.
    pose proof (zrange_nth n b (n - S k)) as H.
    rewrite (nth_error_nth (zrange b n) (n - S k) 0%Z (H ltac:(lia))). f_equal. lia.
  - apply Z.ltb_ge in E. rewrite zrange_length. split; [lia|]. intros k HK.
    destruct (a <=? b)%Z eqn:E2; [|apply Z.leb_gt in E2; lia]. apply zrange_nth. exact HK.
Qed.
Print Assumptions C35_values.

Theorem C35_for : forall env s i mods body only p s1 v x y rest a b bl, Forall modifier mods ->
  ~ In "&"%char mods -> ~ In "!"%char mods -> may_start s -> selected only i mods (B "for") -> has_data s ->
  prepared env (B "for") (started s) (started_in s i) only body p [] s1 ->
  range_words p (v :: x :: y :: rest) ->
  int32 x a -> int32 y b -> extract_blocks (code_of body) = Blocks bl ->
  let plus := has_mod "+" mods in
  exists l, counted a b l /\
  eval_bif env s i (bif_text mods (B "for") body) only =
  and_then
    (iterate (fun z s i => eval_block env (B "for") plus (with_data v (JStr (dec_Z z)) s) i (code_of body) only)
      l [] s1 (started_in s i))
    (fun o s2 i2 => finished mods o (with_data v (JStr (var_text s1 (started_in s i) v)) s2) i2).
Proof.
  intros env s i mods body only p s1 v x y rest a b bl HM HA HG HS HO HD HP HW HX HY HE. cbv zeta. apply range_words_iff in HW. apply i32_iff in HX, HY.
  exists (for_values a b). split; [apply C35_values|].
  rewrite eval_bif_text by (assumption || plain).
  change (dispatch env ?r (B "for")) with (bif_for r). unfold bif_for, entry.
  rewrite bind_reject by (proj; allowed).
  pose proof (room_started s) as HR.
  erewrite bind_done by (eapply run_extract; [exact HR|reflexivity..|exact HP]).
  rewrite bind_no_flags by reflexivity. rewrite bind_modB.
  rewrite bind_getB. proj. rewrite HW. unfold need_arg, arg, need_i32. cbn [nth_error]. rewrite HX, HY, !bind_ret.
  rewrite HE. unfold get_data. rewrite bind_bind, bind_getS, bind_bind, bind_getI, bind_ret.
  assert (HR1 : room (enough_fuel s) s1) by (eapply room_later; [eapply prepared_later; exact HP|exact HR]).
  assert (HD1 : has_data s1) by (eapply prepared_has_data; [exact HP|exact HD]).
  unfold bind at 1.
  rewrite run_for_loop by (exact HR1 || exact HD1 || reflexivity || exact HE). proj.
  destruct (iterate _ _ _ _ _) as [o s2 i2|q|] eqn:EI; [|reflexivity|reflexivity].
  cbn [onto and_then].
  assert (has_data s2) as HD2.
  { apply (iterate_facts env (B "for") (has_mod "+" mods) (code_of body) only
      (fun z s => with_data v (JStr (dec_Z z)) s)) in EI; [apply EI; exact HD1|..].
    - intros z w. apply with_data_later.
    - intros z w Hw. apply with_data_has. exact Hw. }
  unfold set_data. rewrite run_put_data by exact HD2.
  rewrite get_data_text. apply result_done; reflexivity.
Qed.
Print Assumptions C35_for.

Example C35_example : output_of "{:for; n 9..11 >> <{:;n:}> :}|{:for; n 1..-1 >> {:;n:}; :}" = B "<9><10><11>|1;0;-1;" /\
  range_words (B "n 9..11") [B "n"; B "9"; B "11"] /\ int32 (B "-1") (-1)%Z.
Proof. split; [vm_compute; reflexivity|split; [apply range_words_iff; vm_compute; reflexivity|]]. apply i32_iff. vm_compute. reflexivity. Qed.

(** What the variable holds afterwards (if its name is not a path): the text of what it held before. *)
Theorem C36_exact : forall env s i mods body only p s1 v x y rest a b bl o s' i', Forall modifier mods ->
  ~ In "&"%char mods -> ~ In "!"%char mods -> may_start s -> selected only i mods (B "for") -> has_data s ->
  prepared env (B "for") (started s) (started_in s i) only body p [] s1 ->
  range_words p (v :: x :: y :: rest) ->
  int32 x a -> int32 y b -> extract_blocks (code_of body) = Blocks bl ->
  v <> [] -> ~ occurs (B "->") v -> ~ occurs (B "/") v -> ~ (exists r, v = B "local::" ++ r) ->
  eval_bif env s i (bif_text mods (B "for") body) only = BOk o s' i' ->
  data_in s' v = JStr match data_in s1 v with
                      | JStr t => t | JNum n => num_to_string n | JBool true => B "true" | JBool false => B "false"
                      | JNull | JArr _ | JObj _ => []
                      end.
Proof.
  intros env s i mods body only p s1 v x y rest a b bl o s' i' HM HA HG HS HO HD HP HW HX HY HE HN HN1 HN2 HN3.
  destruct (C35_for env s i mods body only p s1 v x y rest a b bl HM HA HG HS HO HD HP HW HX HY HE) as (l & _ & ->).
  destruct (iterate _ _ _ _ _) as [o2 s2 i2|q|] eqn:EI; [|discriminate|discriminate].
  cbn [and_then]. unfold finished. intro E.
  assert (has_data s1) as HD1 by (eapply prepared_has_data; [exact HP|exact HD]).
  assert (has_data s2) as HD2.
  { apply (iterate_facts env (B "for") (has_mod "+" mods) (code_of body) only
      (fun z s => with_data v (JStr (dec_Z z)) s)) in EI; [apply EI; exact HD1|..].
    - intros z w. apply with_data_later.
    - intros z w Hw. apply with_data_has. exact Hw. }
  assert (s' = with_data v (JStr (var_text s1 (started_in s i) v)) s2) as -> by congruence.
  rewrite with_data_get by exact HD2. rewrite beq_refl. f_equal.
  unfold var_text, scope_of. destruct (strip_prefix (B "local::") v) as [r|] eqn:EP.
  - exfalso. apply HN3. exists r. apply strip_prefix_some. exact EP.
  - destruct HD1 as [_ [m Em]]. unfold data_in. rewrite Em.
    unfold get_from_key. rewrite resolve_follow by exact HN. rewrite components_plain by assumption. cbn [follow Utils.step].
    unfold idx, vget. destruct (oget v m) as [[|[]| | | |]|]; reflexivity.
Qed.
Print Assumptions C36_exact.

(** So exactly the texts are restored. *)
Theorem C36_restored_iff : forall env s i mods body only p s1 v x y rest a b bl o s' i', Forall modifier mods ->
  ~ In "&"%char mods -> ~ In "!"%char mods -> may_start s -> selected only i mods (B "for") -> has_data s ->
  prepared env (B "for") (started s) (started_in s i) only body p [] s1 ->
  range_words p (v :: x :: y :: rest) ->
  int32 x a -> int32 y b -> extract_blocks (code_of body) = Blocks bl ->
  v <> [] -> ~ occurs (B "->") v -> ~ occurs (B "/") v -> ~ (exists r, v = B "local::" ++ r) ->
  eval_bif env s i (bif_text mods (B "for") body) only = BOk o s' i' ->
  (data_in s' v = data_in s1 v <-> exists t, data_in s1 v = JStr t).
Proof.
  intros env s i mods body only p s1 v x y rest a b bl o s' i' HM HA HG HS HO HD HP HW HX HY HE HN HN1 HN2 HN3 HR.
  rewrite (C36_exact _ _ _ _ _ _ _ _ _ _ _ _ _ _ _ _ _ _ HM HA HG HS HO HD HP HW HX HY HE HN HN1 HN2 HN3 HR).
  split; [intros <-; eexists; reflexivity|intros [t ->]; reflexivity].
Qed.
Print Assumptions C36_restored_iff.

(** The variable is restored if it was a string. *)
Theorem C36_strings_restored : forall env s i mods body only p s1 v x y rest a b bl t o s' i', Forall modifier mods ->
  ~ In "&"%char mods -> ~ In "!"%char mods -> may_start s -> selected only i mods (B "for") -> has_data s ->
  prepared env (B "for") (started s) (started_in s i) only body p [] s1 ->
  range_words p (v :: x :: y :: rest) ->
  int32 x a -> int32 y b -> extract_blocks (code_of body) = Blocks bl ->
  v <> [] -> ~ occurs (B "->") v -> ~ occurs (B "/") v -> ~ (exists r, v = B "local::" ++ r) ->
  data_in s1 v = JStr t ->
  eval_bif env s i (bif_text mods (B "for") body) only = BOk o s' i' -> data_in s' v = JStr t.
Proof.
  intros env s i mods body only p s1 v x y rest a b bl t o s' i' HM HA HG HS HO HD HP HW HX HY HE HN HN1 HN2 HN3 HT HR.
  rewrite (C36_exact _ _ _ _ _ _ _ _ _ _ _ _ _ _ _ _ _ _ HM HA HG HS HO HD HP HW HX HY HE HN HN1 HN2 HN3 HR), HT. reflexivity.
Qed.
Print Assumptions C36_strings_restored.

(** The full claim is false: an array or a number is replaced by a text. *)
Theorem C36_restored_refuted : exists env s i o s' i',
  eval_bif env s i (bif_text [] (B "for") (B " list 1..2 >> x ")) [] = BOk o s' i' /\
  data_in s (B "list") = JArr [JStr (B "a"); JStr (B "b"); JStr (B "c")] /\ data_in s' (B "list") = JStr [].
Proof.
  exists env0, (fst (start_of "")), (snd (start_of "")).
  destruct (eval_bif env0 (fst (start_of "")) (snd (start_of "")) (bif_text [] (B "for") (B " list 1..2 >> x ")) [])
    as [o s' i'|q|] eqn:E; [|vm_compute in E; discriminate|vm_compute in E; discriminate].
  exists o, s', i'. split; [reflexivity|]. split; [vm_compute; reflexivity|].
  assert (match eval_bif env0 (fst (start_of "")) (snd (start_of "")) (bif_text [] (B "for") (B " list 1..2 >> x ")) [] with
          | BOk _ s' _ => data_in s' (B "list") = JStr [] | _ => False end) as H by (vm_compute; reflexivity).
  rewrite E in H. exact H.
Qed.
Print Assumptions C36_restored_refuted.
Example C36_example : data_in (fst (start_of "")) (B "name") = JStr (B "World") /\
  output_of "{:for; name 1..2 >> {:;name:} :}{:;name:}" = B "12World".
Proof. split; vm_compute; reflexivity. Qed.
