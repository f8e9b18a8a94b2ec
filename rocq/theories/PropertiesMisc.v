(** * Property theorems: rand, trans, join *)

From Verif Require Import Bytes Json Utils ConstantsGen State Engine Template Spec SpecEngine BytesFacts EscapeProofs TextProofs
  BlockProofs TemplateProofs WordProofs InertProofs FrameProofs FrameRun EngineFrames MoreFrames EvalProofs KeepProofs HandlerProofs Samples
  PropertiesVars PropertiesFiles.

(** ** C51: rand *)

(** the number of digits of a decimal *)
Lemma digits_val_bounds s : forall acc n, digits_val acc s = Some n ->
  (acc * 10 ^ N.of_nat (length s) <= n /\ n < (acc + 1) * 10 ^ N.of_nat (length s))%N.
Proof.
  induction s as [|a s IH]; intros acc n H; cbn [digits_val length] in *.
  - injection H as <-. cbn. lia.
  - destruct (digit a) as [d|] eqn:E; [|discriminate]. pose proof (IH _ _ H) as HB. clear IH H. rewrite Nat2N.inj_succ, N.pow_succ_r'.
    assert (d < 10)%N as Hd.
    { unfold digit in E. destruct (_ && _) eqn:E2; [|discriminate]. injection E as <-. apply andb_prop in E2 as [E3 E4].
      apply N.leb_le in E3, E4. lia. }
    generalize dependent (10 ^ N.of_nat (length s))%N. intros t [H1 H2].
    assert (d * t <= 9 * t)%N by (apply N.mul_le_mono_r; lia). lia.
Qed.

Lemma dec_no_zero n r : (0 < n)%N -> dec_N n <> "0"%char :: r.
Proof.
  intros Hn E. pose proof (DecimalN.Unsigned.to_of (N.to_uint n)) as H. rewrite DecimalN.Unsigned.of_to in H.
  unfold dec_N, DecimalString.NilZero.string_of_uint in E.
  destruct (N.to_uint n) as [|d|d|d|d|d|d|d|d|d|d] eqn:EU;
    try (apply (f_equal (fun l => hd "0"%char l)) in E; cbn in E; discriminate).
  unfold Decimal.unorm in H. cbn [Decimal.nzhead] in H. destruct (Decimal.nzhead d) as [|d'|d'|d'|d'|d'|d'|d'|d'|d'|d'] eqn:EN; try discriminate.
    + injection H as ->. apply (f_equal N.of_uint) in EU. rewrite DecimalN.Unsigned.of_to in EU. cbn in EU. lia.
    + exact (DecimalFacts.nzhead_nonzero _ _ EN).
Qed.

Lemma dec_nine z : (100000000 <= z <= 999999999)%Z -> length (dec_Z z) = 9.
Proof.
  intros [H1 H2]. destruct z as [|p|p]; [lia| |lia]. rewrite dec_Z_pos.
  pose proof (digits_dec (N.pos p)) as HD. pose proof (digits_val_bounds _ _ _ HD) as [_ HU].
  pose proof (dec_no_zero (N.pos p)) as HZ. destruct (dec_N (N.pos p)) as [|c r]; [destruct (dec_ne (N.pos p)); cbn in HU; lia|].
  cbn [digits_val] in HD. destruct (digit c) as [d|] eqn:E; [|discriminate]. apply digits_val_bounds in HD as [HL _].
  assert (0 < d)%N as Hd.
  { destruct d; [|lia]. exfalso. unfold digit in E. destruct (_ && _) eqn:E2; [|discriminate]. apply andb_prop in E2 as [E3 E4].
    apply N.leb_le in E3, E4. injection E as E. assert (N_of_ascii c = 48)%N as E5 by lia.
    apply (HZ r); [lia|]. rewrite <- (ascii_N_embedding c), E5. reflexivity. }
  cbn [length] in *.
  assert (length r <= 8) as Hr.
  { destruct (Nat.le_gt_cases (length r) 8) as [|Hgt]; [assumption|exfalso].
    assert (10 ^ 9 <= 10 ^ N.of_nat (length r))%N as HP by (apply N.pow_le_mono_r; lia). change (10 ^ 9)%N with 1000000000%N in HP. nia. }
  assert (8 <= length r) as Hr2.
  { destruct (Nat.le_gt_cases 8 (length r)) as [|Hgt]; [assumption|exfalso].
    assert (10 ^ N.of_nat (S (length r)) <= 10 ^ 8)%N as HP by (apply N.pow_le_mono_r; lia). change (10 ^ 8)%N with 100000000%N in HP. lia. }
  lia.
Qed.

(** the text of rand, evaluated *)
Lemma rand_text env s i mods body only c s1 i1 (k : M unit) : Forall modifier mods ->
  ~ In "&"%char mods -> ~ In "!"%char mods -> ~ In "+"%char mods ->
  may_start s -> selected only i mods (B "rand") ->
  eval_text env (B "rand") (started s) (started_in s i) (trim body) only = BOk c s1 i1 ->
  (forall b, mod_upline b = has_mod "^" mods -> code b = c -> alias b = B "rand" -> raw b = bif_text mods (B "rand") body -> out b = [] ->
     (b <- getB ;;
      if is_empty b.(code) then r <- ask_rand env 100000000 999999999 ;; set_out (dec_Z r)
      else
        modB (fun b => bset_code (replace (B "..") (B " ") b.(code)) b) ;;;
        b <- getB ;;
        let parts := split_whitespace b.(code) in
        from <- need_i32 parts 0 E_ARGS ;;
        to <- need_i32 parts 1 E_ARGS ;;
        if (to <? from)%Z then err E_FROM_GT_TO
        else r <- ask_rand env from to ;; set_out (dec_Z r)) (mkSt s1 i1 b) = k (mkSt s1 i1 b)) ->
  exists b, mod_upline b = has_mod "^" mods /\ code b = c /\ alias b = B "rand" /\ raw b = bif_text mods (B "rand") body /\ out b = [] /\
    eval_bif env s i (bif_text mods (B "rand") body) only = bif_result env (k (mkSt s1 i1 b)).
Proof.
  intros HM HA HG HU HS HO HE HK. rewrite eval_bif_text by (assumption || plain).
  change (dispatch env ?r (B "rand")) with (bif_rand env r). unfold bif_rand, entry.
  rewrite bind_reject by (proj; allowed). pose proof (room_started s) as HR.
  rewrite bind_modB, bind_getB, bind_if. proj. change BIF_OPEN with (B "{:"). rewrite trim_idem, (has_mod_false _ _ HU).
  unfold eval_text in HE. destruct (contains (B "{:") (trim body)).
  - rewrite bind_bind. erewrite bind_done by (rewrite child_nested by (exact HR || reflexivity); proj; rewrite HE; reflexivity).
    rewrite bind_modB. rewrite HK by reflexivity. eexists. repeat split; reflexivity.
  - assert (c = trim body /\ s1 = started s /\ i1 = started_in s i) as (-> & -> & ->) by (repeat split; congruence).
    rewrite bind_ret. rewrite HK by reflexivity. eexists. repeat split; reflexivity.
Qed.

(** "a..b" or "a b": an integer between a and b *)
Theorem C51_range : forall env s i mods body only c s1 i1 a b x y rest, Forall modifier mods ->
  ~ In "&"%char mods -> ~ In "!"%char mods -> ~ In "+"%char mods ->
  may_start s -> selected only i mods (B "rand") -> random_in_bounds env ->
  eval_text env (B "rand") (started s) (started_in s i) (trim body) only = BOk c s1 i1 -> c <> [] ->
  range_words c (a :: b :: rest) ->
  int32 a x -> int32 b y -> (x <= y)%Z ->
  exists r, (x <= r <= y)%Z /\ int32 (dec_Z r) r /\
    eval_bif env s i (bif_text mods (B "rand") body) only = finished mods (dec_Z r) (add_event (EvRand x y r) s1) i1.
Proof.
  intros env s i mods body only c s1 i1 a b x y rest HM HA HG HU HS HO HRd HE HC HW HX HY HL. apply range_words_iff in HW. apply i32_iff in HX, HY.
  destruct (rand_text env s i mods body only c s1 i1 (b <- getB ;; modB (bset_code (replace (B "..") (B " ") b.(code))) ;;; r <- ask_rand env x y ;; set_out (dec_Z r)) HM HA HG HU HS HO HE)
    as (bb & Hu & Hc & Ha & Hr & Ho & E).
  { intros bb _ Hc _ _ _. rewrite bind_getB, Hc. assert (is_empty c = false) as -> by (destruct c; [congruence|reflexivity]).
    rewrite bind_modB, bind_getB. cbn [code bset_code]. rewrite Hc, HW. unfold need_i32. cbn [nth_error]. rewrite HX, HY, !bind_ret.
    assert ((y <? x)%Z = false) as -> by (apply Z.ltb_ge; exact HL). rewrite bind_getB, Hc, bind_modB. reflexivity. }
  rewrite E. exists (env.(e_rand) (strace s1) x y). pose proof (HRd (strace s1) x y HL) as HB. split; [exact HB|]. split.
  { apply i32_iff, parse_i32_dec. apply parse_i32_range in HX, HY. lia. }
  rewrite bind_getB, bind_modB. unfold ask_rand. rewrite bind_ask. unfold set_out. apply result_done; [exact Hu|reflexivity].
Qed.
Print Assumptions C51_range.

(** from > to *)
Theorem C51_empty_range : forall env s i mods body only c s1 i1 a b x y rest, Forall modifier mods ->
  ~ In "&"%char mods -> ~ In "!"%char mods -> ~ In "+"%char mods ->
  may_start s -> selected only i mods (B "rand") -> has_data s -> can_report s ->
  eval_text env (B "rand") (started s) (started_in s i) (trim body) only = BOk c s1 i1 -> c <> [] ->
  range_words c (a :: b :: rest) ->
  int32 a x -> int32 b y -> (y < x)%Z ->
  eval_bif env s i (bif_text mods (B "rand") body) only =
  failed env (B "from > to") (B "rand") mods (bif_text mods (B "rand") body) [] s1 i1.
Proof.
  intros env s i mods body only c s1 i1 a b x y rest HM HA HG HU HS HO HH HCan HE HC HW HX HY HL. apply range_words_iff in HW. apply i32_iff in HX, HY.
  destruct (rand_text env s i mods body only c s1 i1 (b <- getB ;; modB (bset_code (replace (B "..") (B " ") b.(code))) ;;; err E_FROM_GT_TO) HM HA HG HU HS HO HE)
    as (bb & Hu & Hc & Ha & Hr & Ho & E).
  { intros bb _ Hc _ _ _. rewrite bind_getB, Hc. assert (is_empty c = false) as -> by (destruct c; [congruence|reflexivity]).
    rewrite bind_modB, bind_getB. cbn [code bset_code]. rewrite Hc, HW. unfold need_i32. cbn [nth_error]. rewrite HX, HY, !bind_ret.
    assert ((y <? x)%Z = true) as -> by (apply Z.ltb_lt; exact HL). rewrite bind_getB, Hc, bind_modB. reflexivity. }
  rewrite E. rewrite bind_getB, bind_modB. unfold err. cbn [bf inh sh]. proj. rewrite Ha, Hr.
  apply result_fail; [|exact Hu|exact Ho].
  unfold eval_text in HE. destruct (contains (B "{:") (trim body)).
  - eapply keeps_reports; [eapply nested_keeps; [|exact HE]; exact HH|exact HCan].
  - assert (s1 = started s) as -> by congruence. exact HCan.
Qed.
Print Assumptions C51_empty_range.

(** without a range: nine digits *)
Theorem C51_nine_digits : forall env s i mods body only s1 i1, Forall modifier mods ->
  ~ In "&"%char mods -> ~ In "!"%char mods -> ~ In "+"%char mods ->
  may_start s -> selected only i mods (B "rand") -> random_in_bounds env ->
  eval_text env (B "rand") (started s) (started_in s i) (trim body) only = BOk [] s1 i1 ->
  exists r, length (dec_Z r) = 9 /\ int32 (dec_Z r) r /\
    eval_bif env s i (bif_text mods (B "rand") body) only =
    finished mods (dec_Z r) (add_event (EvRand 100000000 999999999 r) s1) i1.
Proof.
  intros env s i mods body only s1 i1 HM HA HG HU HS HO HRd HE.
  destruct (rand_text env s i mods body only [] s1 i1 (r <- ask_rand env 100000000 999999999 ;; set_out (dec_Z r)) HM HA HG HU HS HO HE)
    as (bb & Hu & Hc & Ha & Hr & Ho & E).
  { intros bb _ Hc _ _ _. rewrite bind_getB, Hc. reflexivity. }
  rewrite E. exists (env.(e_rand) (strace s1) 100000000%Z 999999999%Z).
  pose proof (HRd (strace s1) 100000000%Z 999999999%Z ltac:(lia)) as HB. split; [apply dec_nine; exact HB|]. split.
  { apply i32_iff, parse_i32_dec. unfold i32_min, i32_max. lia. }
  unfold ask_rand. rewrite bind_ask. unfold set_out. apply result_done; [exact Hu|reflexivity].
Qed.
Print Assumptions C51_nine_digits.

Example C51_example : output_of "{:rand; -3..4 :} {:rand; :} [{:rand; 4..3 :}]" = B "-3 100000000 []" /\ random_in_bounds env0.
Proof. split; [vm_compute; reflexivity|]. intros t lo hi H. cbn. lia. Qed.

(** ** C52: trans *)

Theorem C52_trans : forall env s i mods body only, Forall modifier mods -> ~ In "&"%char mods -> ~ In "+"%char mods ->
  may_start s -> selected only i mods (B "trans") ->
  eval_bif env s i (bif_text mods (B "trans") body) only =
  and_then (eval_text env (B "trans") (started s) (started_in s i) (trim body) only)
    (fun c s2 i2 => finished mods
       (if is_empty (translation s2 i2 c) then if has_mod "!" mods then [] else c else translation s2 i2 c) s2 i2).
Proof.
  intros env s i mods body only HM HA HU HS HO. rewrite eval_bif_text by (assumption || plain).
  change (dispatch env ?r (B "trans")) with (bif_trans r). unfold bif_trans, entry.
  rewrite bind_reject by (proj; allowed). pose proof (room_started s) as HR.
  rewrite bind_getB, bind_if. proj. change BIF_OPEN with (B "{:"). rewrite (has_mod_false _ _ HU). unfold eval_text.
  destruct (contains (B "{:") (trim body)).
  - rewrite bind_bind. unfold bind at 1. rewrite child_nested by (exact HR || reflexivity). proj.
    destruct (eval_nested env (B "trans") (started s) (started_in s i) (trim body) only) as [c s2 i2|q|]; [|reflexivity|reflexivity].
    cbn [onto and_then]. rewrite bind_modB, bind_getB. unfold get_trans. rewrite bind_bind, bind_getS, bind_bind, bind_getI, bind_ret.
    proj. fold (visible s2 i2). fold (translation s2 i2 c). destruct (is_empty (translation s2 i2 c)); [|unfold set_out; apply result_done; reflexivity].
    destruct (has_mod "!" mods); unfold set_out; apply result_done; reflexivity.
  - rewrite bind_ret, bind_getB. cbn [and_then]. unfold get_trans. rewrite bind_bind, bind_getS, bind_bind, bind_getI, bind_ret.
    proj. set (c := trim body). fold (visible (started s) (started_in s i)). fold (translation (started s) (started_in s i) c).
    destruct (is_empty (translation (started s) (started_in s i) c)); [|unfold set_out; apply result_done; reflexivity].
    destruct (has_mod "!" mods); unfold set_out; apply result_done; reflexivity.
Qed.
Print Assumptions C52_trans.

Example C52_example :
  output_in env1 "{:locale; /j.json :}{:trans; Hello :} {:trans; Bye :} [{:!trans; Bye :}]{:!trans; Hello :}" = B "Hi Bye []Hi".
Proof. vm_compute. reflexivity. Qed.

(** ** C58: join *)

Lemma join_joined sep l : joined sep l (join sep l).
Proof.
  induction l as [|x l IH]; [constructor|]. destruct l as [|y l]; [constructor|].
  change (join sep (x :: y :: l)) with (x ++ sep ++ join sep (y :: l)). constructor. exact IH.
Qed.
Lemma joined_det sep l o : joined sep l o -> o = join sep l.
Proof.
  induction 1 as [| |x y l o H IH]; [reflexivity|reflexivity|].
  change (join sep (x :: y :: l)) with (x ++ sep ++ join sep (y :: l)). rewrite IH. reflexivity.
Qed.

Lemma join_arrows l : forall pre, l <> [] -> Forall (fun c => ~ occurs (B "->") c) l -> ~ occurs (B "->") (pre ++ hd [] l) ->
  replaced (B "->") (B "/") (pre ++ join (B "->") l) (pre ++ join (B "/") l).
Proof.
  induction l as [|x l IH]; intros pre HN HF HP; [congruence|]. inversion HF as [|x' l' H1 H2]; subst.
  destruct l as [|y l].
  - cbn [join hd] in *. apply rp_none. exact HP.
  - change (join (B "->") (x :: y :: l)) with (x ++ B "->" ++ join (B "->") (y :: l)).
    change (join (B "/") (x :: y :: l)) with (x ++ B "/" ++ join (B "/") (y :: l)). rewrite !app_assoc.
    rewrite <- (app_assoc (pre ++ x)), <- (app_assoc (pre ++ x)). cbn [hd] in HP.
    apply rp_first.
    + intros k Hk (u & v & E & EL). subst k. set (w := pre ++ x) in *. clearbody w.
      assert (exists c z, w = u ++ c :: z) as (c & z & EW).
      { clear -E Hk. revert w E Hk. induction u as [|a u IHu]; intros w E Hk; (destruct w as [|b w]; [cbn in Hk; lia|]).
        - exists b, w. reflexivity.
        - cbn in E. injection E as <- E. cbn in Hk. destruct (IHu w E ltac:(lia)) as (c & z & ->). exists c, z. reflexivity. }
      rewrite EW in E. rewrite <- app_assoc in E. apply app_inv_head in E. destruct z as [|d z].
      * cbn in E. injection E as -> E. discriminate.
      * cbn in E. injection E as -> -> E. apply HP. exists u, z. rewrite EW. reflexivity.
    + apply (IH [] ltac:(discriminate) H2). cbn [app hd]. inversion H2; assumption.
Qed.

Lemma split_join (d : ascii) l : l <> [] -> Forall (fun c => ~ In d c) l -> split [d] (join [d] l) = l.
Proof.
  unfold split. induction l as [|x l IH]; intros HN HF; [congruence|]. inversion HF as [|x' l' H1 H2]; subst.
  destruct l as [|y l]; [apply split_go_plain; exact H1|].
  change (join [d] (x :: y :: l)) with (x ++ d :: join [d] (y :: l)). rewrite split_go_app, split_go_plain by exact H1.
  rewrite IH by (discriminate || exact H2). reflexivity.
Qed.

Lemma points_go l : Forall plain_component l -> forall d v, pointer_go l d = Some v <-> points l d v.
Proof.
  induction l as [|k r IH]; intros HF d v; cbn [pointer_go].
  - split; [intro H; injection H as <-; constructor|inversion 1; reflexivity].
  - inversion HF as [|k' r' [H1 [H2 H3]] HF2]; subst.
    assert (pointer_token k = k) as ->.
    { unfold pointer_token. assert (forall c, In c k -> c <> "~"%char) as Hc by (intros c Hc ->; contradiction).
      assert (forall p, occurs ("~"%char :: p) k -> False) as HO.
      { intros p (u & w & ->). apply H3. apply in_or_app. right. left. reflexivity. }
      rewrite (replace_no_occurs (B "~1")); [|discriminate|intro H; exact (HO _ H)].
      apply replace_no_occurs; [discriminate|intro H; exact (HO _ H)]. }
    split.
    + destruct d as [| | | |l|m]; try discriminate.
      * destruct (parse_index k) as [j|] eqn:E; [|discriminate]. destruct (nth_error l (N.to_nat j)) as [w|] eqn:E2; [|discriminate].
        intro H. apply (IH HF2) in H. unfold parse_index in E. destruct k as [|c k]; [discriminate|].
        destruct (aeqb c plus_sign) eqn:EP; [discriminate|]. cbn [orb] in E.
        destruct (aeqb c "0" && negb (is_empty k)) eqn:EZ; [discriminate|].
        apply usize_iff in E. eapply pt_index; try eassumption.
        -- intros [t Ht]. injection Ht as -> _. discriminate.
        -- apply andb_false_iff in EZ as [EZ|EZ].
           ++ right. intros [t Ht]. injection Ht as -> _. discriminate.
           ++ destruct k; [|discriminate]. destruct (aeqb c "0") eqn:E0; [left; apply aeqb_eq in E0; subst; reflexivity|].
              right. intros [t Ht]. injection Ht as -> _. discriminate.
      * destruct (oget k m) as [w|] eqn:E; [|discriminate]. intro H. apply (IH HF2) in H. econstructor; eassumption.
    + intro H. inversion H as [|k' r' m j v' E HP|k' i0 r' l j v' E N1 N2 E2 HP]; subst.
      * rewrite E. apply (IH HF2). exact HP.
      * assert (parse_index k = Some i0) as ->.
        { apply usize_iff in E. unfold parse_index. destruct k as [|c k]; [discriminate|]. 
          destruct (aeqb c plus_sign) eqn:EP; [apply aeqb_eq in EP; subst; exfalso; apply N1; eexists; reflexivity|]. cbn [orb].
          destruct (aeqb c "0") eqn:E0; [|exact E]. apply aeqb_eq in E0. subst.
          destruct N2 as [N2|N2]; [injection N2 as ->; exact E|]. exfalso. apply N2. eexists. reflexivity. }
        rewrite E2. apply (IH HF2). exact HP.
Qed.

Lemma arrow_pointer l nm d v : arrow_name l nm -> pointer (replace (B "->") (B "/") (B "/" ++ nm)) d = Some v <-> points l d v.
Proof.
  intros (HN & HF & HJ). apply joined_det in HJ. subst nm.
  assert (replace (B "->") (B "/") (B "/" ++ join (B "->") l) = B "/" ++ join (B "/") l) as ->.
  { apply (replaced_det (B "->") (B "/") (B "/" ++ join (B "->") l)); [discriminate|apply replace_replaced; discriminate|]. apply join_arrows; [exact HN| |].
    - eapply Forall_impl; [|exact HF]. intros c (H & _). exact H.
    - destruct l as [|x l]; [congruence|]. inversion HF as [|x' l' (H & _) _]; subst. cbn [hd]. intros (u & w & E).
      destruct u as [|c u]; [cbn in E; congruence|]. cbn in E. injection E as _ E. apply H. exists u, w. exact E. }
  unfold pointer. cbn [app B list_ascii_of_string]. change (aeqb "/" "/") with true. cbv iota.
  rewrite split_join; [apply points_go; exact HF|exact HN|].
  eapply Forall_impl; [|exact HF]. intros c (_ & H & _). exact H.
Qed.

Lemma join_list keys v : join_items keys v = join_texts keys v.
Proof.
  unfold join_items, join_texts. destruct v as [| | | |l|m]; try reflexivity.
  destruct keys.
  - generalize 0. induction l as [|x l IH]; intro n; [reflexivity|]. cbn [enumerate_from map fst length seq]. f_equal. apply IH.
  - apply map_ext. intros []; reflexivity.
Qed.

(** whether the keys are listed: third argument *)
Definition lists_keys (a : list bytes) : bool :=
  match nth_error a 3 with
  | Some k => negb (existsb (beq k) [[]; B "false"; B "0"])
  | None => false
  end.

Lemma join_run env s i mods body only a s1 nm sep : Forall modifier mods ->
  ~ In "&"%char mods -> ~ In "!"%char mods -> ~ In "+"%char mods ->
  may_start s -> selected only i mods (B "join") ->
  arguments env (B "join") (started_in s i) only (arg_texts (trim body)) (started s) a s1 ->
  nth_error a 1 = Some nm -> nth_error a 2 = Some sep ->
  let p := replace (B "->") (B "/") (B "/" ++ nm) in
  eval_bif env s i (bif_text mods (B "join") body) only =
  finished mods (match (if starts_with (B "/local::") p
                        then pointer (replace (B "/local::") (B "/") p) (idx (visible s1 (started_in s i)) (B "data"))
                        else pointer p (idx s1.(schema) (B "data"))) with
                 | Some v => join sep (join_texts (lists_keys a) v)
                 | None => []
                 end) s1 (started_in s i).
Proof.
  intros HM HA HG HU HS HO HAr H1 H2. cbv zeta. rewrite eval_bif_text by (assumption || plain).
  change (dispatch env ?r (B "join")) with (bif_join r). unfold bif_join, entry.
  rewrite bind_reject by (proj; allowed). pose proof (room_started s) as HR. rewrite bind_modB.
  erewrite bind_done by (apply run_args; [exact HR|reflexivity|reflexivity|exact HAr]).
  unfold need_arg, arg. rewrite H1, H2, !bind_ret. rewrite bind_getS, bind_getI.
  assert (negb (is_empty (arg_or_empty a 3) || beq (arg_or_empty a 3) (B "false") || beq (arg_or_empty a 3) (B "0")) = lists_keys a) as ->.
  { unfold arg_or_empty, lists_keys. destruct (nth_error a 3) as [k|]; [|reflexivity]. cbn [existsb].
    destruct k as [|c k]; [reflexivity|]. cbn [is_empty]. change (beq (c :: k) []) with false. rewrite orb_false_r. reflexivity. }
  unfold set_out, modB. cbv beta zeta. erewrite result_done with (mods := mods); [|reflexivity..].
  change BIF_ARRAY with (B "->"). unfold local_data_of, data_of.
  change (get_indir s1 (indir (started_in s i))) with (visible s1 (started_in s i)).
  destruct (if starts_with (B "/local::") (replace (B "->") (B "/") (B "/" ++ nm)) then _ else _) as [v|]; [rewrite join_list|]; reflexivity.
Qed.

(** The elements of the collection that the name leads to, in order, each once, with the separator
    between consecutive ones; nothing if it leads nowhere. *)
Theorem C58_join : forall env s i mods body only a s1 nm sep l, Forall modifier mods ->
  ~ In "&"%char mods -> ~ In "!"%char mods -> ~ In "+"%char mods ->
  may_start s -> selected only i mods (B "join") ->
  arguments env (B "join") (started_in s i) only (arg_texts (trim body)) (started s) a s1 ->
  nth_error a 1 = Some nm -> nth_error a 2 = Some sep ->
  arrow_name l nm -> (forall r, nm <> B "local::" ++ r) ->
  exists o, eval_bif env s i (bif_text mods (B "join") body) only = finished mods o s1 (started_in s i) /\
    (forall v, points l (idx s1.(schema) (B "data")) v -> joined sep (join_texts (lists_keys a) v) o) /\
    ((forall v, ~ points l (idx s1.(schema) (B "data")) v) -> o = []).
Proof.
  intros env s i mods body only a s1 nm sep l HM HA HG HU HS HO HAr H1 H2 HN HL.
  pose proof (join_run env s i mods body only a s1 nm sep HM HA HG HU HS HO HAr H1 H2) as E. cbv zeta in E.
  assert (starts_with (B "/local::") (replace (B "->") (B "/") (B "/" ++ nm)) = false) as EL.
  { destruct (starts_with (B "/local::") _) eqn:ES; [exfalso|reflexivity].
    assert (starts_with (B "local::") nm = true) as HT; [|apply starts_with_iff in HT as [r Hr]; exact (HL r Hr)]. clear -ES HN.
    destruct HN as (HN & HF & HJ). apply joined_det in HJ. subst nm.
    assert (replace (B "->") (B "/") (B "/" ++ join (B "->") l) = B "/" ++ join (B "/") l) as ER.
    { apply (replaced_det (B "->") (B "/") (B "/" ++ join (B "->") l)); [discriminate|apply replace_replaced; discriminate|]. apply join_arrows; [exact HN| |].
      - eapply Forall_impl; [|exact HF]. intros c (H & _). exact H.
      - destruct l as [|x l]; [congruence|]. inversion HF as [|x' l' (H & _) _]; subst. cbn [hd]. intros (u & w & E).
        destruct u as [|c u]; [cbn in E; congruence|]. cbn in E. injection E as _ E. apply H. exists u, w. exact E. }
    rewrite ER in ES. change (starts_with (B "/local::") (B "/" ++ join (B "/") l)) with (starts_with (B "local::") (join (B "/") l)) in ES.
    apply starts_with_iff in ES as [r ES]. apply starts_with_iff.
    destruct l as [|x l]; [congruence|]. destruct l as [|y l]; [exists r; exact ES|].
    change (join (B "->") (x :: y :: l)) with (x ++ B "->" ++ join (B "->") (y :: l)).
    change (join (B "/") (x :: y :: l)) with (x ++ B "/" ++ join (B "/") (y :: l)) in ES. clear HN HF ER.
    set (t := join (B "/") (y :: l)) in *. clearbody t. set (t' := join (B "->") (y :: l)). clearbody t'.
    assert (exists z, x = B "local::" ++ z) as [z ->]; [|exists (z ++ B "->" ++ t'); rewrite <- app_assoc; reflexivity].
    do 7 (destruct x as [|?c x]; [exfalso; cbn in ES; congruence|]). cbn in ES. exists x. cbn. congruence. }
  rewrite EL in E.
  destruct (pointer (replace (B "->") (B "/") (B "/" ++ nm)) (idx s1.(schema) (B "data"))) as [v|] eqn:EP.
  - eexists. split; [exact E|]. pose proof (proj1 (arrow_pointer l nm _ v HN) EP) as HP. split.
    + intros v' HV. apply (arrow_pointer l nm _ v' HN) in HV. assert (v' = v) as -> by congruence. apply join_joined.
    + intro H. exfalso. exact (H v HP).
  - eexists. split; [exact E|]. split.
    + intros v HV. apply (arrow_pointer l nm _ v HN) in HV. congruence.
    + intros _. reflexivity.
Qed.
Print Assumptions C58_join.

Lemma join_local l : Forall plain_component l -> (forall c r, In c (tl l) -> c <> B "local::" ++ r) -> ~ occurs (B "/local::") (join (B "/") l).
Proof.
  assert (forall x t, ~ In "/"%char x -> occurs (B "/local::") (x ++ t) -> occurs (B "/local::") t) as HS.
  { intros x t HN (u & w & E). revert u E. induction x as [|c x IH]; intros u E; [exists u, w; exact E|].
    destruct u as [|d u]; cbn in E.
    - exfalso. apply HN. left. congruence.
    - apply IH with u; [intro H; apply HN; right; exact H|]. cbn in E |- *. congruence. }
  induction l as [|x l IH]; intros HF HL.
  - intros (u & w & E). destruct u; discriminate.
  - inversion HF as [|x' l' H1 H2]; subst. destruct l as [|y l].
    + cbn [join]. intro H. rewrite <- (app_nil_r x) in H. apply HS in H; [|apply H1]. destruct H as (u & w & E). destruct u; discriminate.
    + change (join (B "/") (x :: y :: l)) with (x ++ B "/" ++ join (B "/") (y :: l)). intro H. apply HS in H; [|apply H1].
      destruct H as (u & w & E). destruct u as [|d u].
      * apply (f_equal (@tl ascii)) in E. change (join (B "/") (y :: l) = B "local::" ++ w) in E.
        assert (exists r, y = B "local::" ++ r) as [r Hr]; [|apply (HL y r); [left; reflexivity|exact Hr]].
        assert (plain_component y) as Hy by (inversion H2; assumption).
        assert (exists t, join (B "/") (y :: l) = y ++ t /\ (t = [] \/ exists t', t = B "/" ++ t')) as (t & Et & Ht).
        { destruct l as [|z l]; [exists []; split; [cbn; now rewrite app_nil_r|auto]|].
          exists (B "/" ++ join (B "/") (z :: l)). split; [reflexivity|eauto]. }
        rewrite Et in E. clear Et IH HL HF H1 H2.
        do 7 (destruct y as [|? y]; [exfalso; destruct Ht as [->|[t' ->]]; cbn in E; congruence|cbn in E; injection E as -> E]).
        exists y. reflexivity.
      * cbn [app B list_ascii_of_string] in E. injection E as _ E. apply IH.
        -- exact H2.
        -- intros c r Hc. apply HL. right. exact Hc.
        -- exists u, w. exact E.
Qed.

(** A name that starts with "local::" leads into the local data of the block. *)
Theorem C58_local : forall env s i mods body only a s1 nm sep l, Forall modifier mods ->
  ~ In "&"%char mods -> ~ In "!"%char mods -> ~ In "+"%char mods ->
  may_start s -> selected only i mods (B "join") ->
  arguments env (B "join") (started_in s i) only (arg_texts (trim body)) (started s) a s1 ->
  nth_error a 1 = Some (B "local::" ++ nm) -> nth_error a 2 = Some sep ->
  arrow_name l nm -> (forall c r, In c (tl l) -> c <> B "local::" ++ r) ->
  exists o, eval_bif env s i (bif_text mods (B "join") body) only = finished mods o s1 (started_in s i) /\
    (forall v, points l (idx (visible s1 (started_in s i)) (B "data")) v -> joined sep (join_texts (lists_keys a) v) o) /\
    ((forall v, ~ points l (idx (visible s1 (started_in s i)) (B "data")) v) -> o = []).
Proof.
  intros env s i mods body only a s1 nm sep l HM HA HG HU HS HO HAr H1 H2 HN HL.
  pose proof (join_run env s i mods body only a s1 _ sep HM HA HG HU HS HO HAr H1 H2) as E. cbv zeta in E.
  pose proof (arrow_pointer l nm (idx (visible s1 (started_in s i)) (B "data"))) as AP.
  destruct HN as (HN & HF & HJ). pose proof HJ as HJ'. apply joined_det in HJ'.
  assert (forall pre, ~ occurs (B "->") (pre ++ hd [] l) -> replace (B "->") (B "/") (pre ++ nm) = pre ++ join (B "/") l) as ER.
  { intros pre HP. subst nm. apply (replaced_det (B "->") (B "/") (pre ++ join (B "->") l)); [discriminate|apply replace_replaced; discriminate|].
    apply join_arrows; [exact HN| |exact HP]. eapply Forall_impl; [|exact HF]. intros c (H & _). exact H. }
  assert (~ occurs (B "->") (hd [] l)) as HH.
  { destruct l as [|x l]; [congruence|]. inversion HF as [|x' l' (H & _) _]; subst. exact H. }
  assert (forall c x, c <> "-"%char -> ~ occurs (B "->") x -> ~ occurs (B "->") (c :: x)) as HC.
  { intros c x Hc Hx (u & w & E1). destruct u as [|d u]; [cbn in E1; congruence|]. cbn in E1. injection E1 as _ E1. apply Hx. exists u, w. exact E1. }
  assert (replace (B "->") (B "/") (B "/" ++ B "local::" ++ nm) = B "/local::" ++ join (B "/") l) as E1.
  { rewrite app_assoc. rewrite ER; [reflexivity|]. cbn [app B list_ascii_of_string]. do 8 (apply HC; [discriminate|]). exact HH. }
  rewrite E1 in E.
  assert (starts_with (B "/local::") (B "/local::" ++ join (B "/") l) = true) as EL by (apply starts_with_iff; eexists; reflexivity).
  rewrite EL in E.
  assert (replace (B "/local::") (B "/") (B "/local::" ++ join (B "/") l) = replace (B "->") (B "/") (B "/" ++ nm)) as E2.
  { rewrite ER by (cbn [app B list_ascii_of_string]; apply HC; [discriminate|exact HH]).
    apply (replaced_det (B "/local::") (B "/") (B "/local::" ++ join (B "/") l)); [discriminate|apply replace_replaced; discriminate|].
    apply (rp_first (B "/local::") (B "/") [] (join (B "/") l)); [intros k Hk; inversion Hk|]. apply rp_none. apply join_local; assumption. }
  rewrite E2 in E. clear E1 E2 EL.
  destruct (pointer (replace (B "->") (B "/") (B "/" ++ nm)) (idx (visible s1 (started_in s i)) (B "data"))) as [v|] eqn:EP.
  - eexists. split; [exact E|]. pose proof (proj1 (AP v (conj HN (conj HF HJ))) eq_refl) as HP. split.
    + intros v' HV. apply (AP v' (conj HN (conj HF HJ))) in HV. assert (v' = v) as -> by congruence. apply join_joined.
    + intro H. exfalso. exact (H v HP).
  - eexists. split; [exact E|]. split.
    + intros v HV. apply (AP v (conj HN (conj HF HJ))) in HV. congruence.
    + intros _. reflexivity.
Qed.
Print Assumptions C58_local.

Example C58_example :
  output_of "{:join; |list|, | :} {:join; |list|-|true| :} {:join; |CONTEXT->GET|;| :} [{:join; |nosuch|,| :}]" = B "a, b, c 0-1-2 &lt;b&gt;&#123;:;x:&#125; []" /\
  arrow_name [B "CONTEXT"; B "GET"] (B "CONTEXT->GET").
Proof.
  split; [vm_compute; reflexivity|]. split; [discriminate|]. split.
  - repeat constructor; try (intro E; apply contains_iff in E; vm_compute in E; discriminate); cbn; intuition discriminate.
  - exact (join_joined (B "->") [B "CONTEXT"; B "GET"]).
Qed.

(** ** C104: the public text helpers *)
(** Prefix and suffix are taken away together or not at all. *)
Theorem C104_strip : forall s p q,
  (forall m, s = p ++ m ++ q -> strip_prefix_suffix s p q = m) /\
  ((forall m, s <> p ++ m ++ q) -> strip_prefix_suffix s p q = s).
Proof.
  intros s p q.
  assert (forall r, strip_prefix p s = Some r <-> s = p ++ r) as HP.
  { intro r. apply strip_prefix_some. }
  assert (forall r m, strip_suffix q r = Some m <-> r = m ++ q) as HQ.
  { intros r m. apply strip_suffix_some. }
  unfold strip_prefix_suffix. split.
  - intros m E. rewrite (proj2 (HP (m ++ q)) E). rewrite (proj2 (HQ (m ++ q) m) eq_refl). reflexivity.
  - intro N. destruct (strip_prefix p s) as [r|] eqn:E1; [|reflexivity]. destruct (strip_suffix q r) as [m|] eqn:E2; [|reflexivity].
    apply strip_prefix_some in E1. apply strip_suffix_some in E2. subst. exfalso. exact (N m eq_refl).
Qed.
Print Assumptions C104_strip.
(** The position found for a tag is the place where moveto inserts: before a closing tag, after the > of an opening one. *)
Theorem C104_tag : forall text tag,
  (forall n, find_tag_position text tag = Some n <-> exists u v, text = u ++ v /\ length u = n /\ place tag text u v) /\
  (find_tag_position text tag = None <-> forall u v, ~ place tag text u v).
Proof.
  intros text tag.
  assert (forall n, find_tag_position text tag = Some n -> exists u v, text = u ++ v /\ length u = n /\ place tag text u v) as H1.
  { intros n H. pose proof (place_position _ _ _ H) as HP. exists (firstn n text), (skipn n text). split; [symmetry; apply firstn_skipn|]. split; [|exact HP].
    apply firstn_length_le. unfold find_tag_position in H. destruct (find tag text) as [st|] eqn:F; [|discriminate]. pose proof (find_bound _ _ _ F) as FB.
    destruct (negb _); [|assert (n = st) as -> by congruence; lia]. destruct (find [c_gt] (skipn st text)) as [e|] eqn:G; [|discriminate].
    assert (n = st + e + 1) as -> by congruence. pose proof (find_bound _ _ _ G) as GB. rewrite skipn_length in GB. cbn [length] in GB. lia. }
  assert (forall u v u' v', place tag text u v -> place tag text u' v' -> u = u' /\ v = v') as HU.
  { intros u v u' v' HP HP'. inversion HP as [a b C FO E|a x w C FO E NI]; inversion HP' as [a' b' C' FO' E'|a' x' w' C' FO' E' NI']; subst; try contradiction.
    - assert (length u = length u') as L by (eapply first_unique; eassumption). apply app_eq_len; [exact L|]. congruence.
    - assert (length a = length a') as L by (eapply first_unique; eassumption).
      assert (a ++ (x ++ B ">") ++ v = a' ++ (x' ++ B ">") ++ v') as E2 by congruence. apply (app_eq_len _ _ _ _ L) in E2 as (-> & E2). rewrite <- !app_assoc in E2.
      assert (x = x') as ->.
      { clear - E2 NI NI'. change (B ">") with [">"%char] in E2. revert x' E2 NI'. induction x as [|c x IH]; intros [|c' x'] E NI'; [reflexivity| | |].
        - cbn in E. injection E as <- _. exfalso. apply NI'. left. reflexivity.
        - cbn in E. injection E as -> _. exfalso. apply NI. left. reflexivity.
        - cbn in E. injection E as -> E. f_equal. apply IH; [intro HI; apply NI; right; exact HI|exact E|intro HI; apply NI'; right; exact HI]. }
      apply app_inv_head in E2. apply app_inv_head in E2. auto. }
  split.
  - intro n. split; [apply H1|]. intros (u & v & E & L & HP). destruct (find_tag_position text tag) as [k|] eqn:F.
    + destruct (H1 k eq_refl) as (u' & v' & E' & L' & HP'). destruct (HU _ _ _ _ HP HP') as (-> & _). congruence.
    + exfalso. exact (place_none _ _ F _ _ HP).
  - split; [apply place_none|]. intro N. destruct (find_tag_position text tag) as [k|] eqn:F; [|reflexivity]. destruct (H1 k eq_refl) as (u & v & _ & _ & HP). exfalso. exact (N _ _ HP).
Qed.
Print Assumptions C104_tag.
Example C104_example : strip_prefix_suffix (B "{:a:}") (B "{:") (B ":}") = B "a" /\ strip_prefix_suffix (B "{:}") (B "{:") (B ":}") = B "{:}" /\
  strip_prefix_suffix (B "{:a") (B "{:") (B ":}") = B "{:a" /\
  find_tag_position (B "x<body a='1'>y</body>") (B "<body") = Some 13 /\ find_tag_position (B "x<body a='1'>y</body>") (B "</body") = Some 14 /\
  find_tag_position (B "x<body") (B "<body") = None /\ place (B "<body") (B "x<body a='1'>y</body>") (B "x<body a='1'>") (B "y</body>").
Proof.
  repeat split; try (vm_compute; reflexivity).
  destruct (proj1 (proj1 (C104_tag (B "x<body a='1'>y</body>") (B "<body")) 13) eq_refl) as (u & v & E & L & HP).
  assert (u = B "x<body a='1'>" /\ v = B "y</body>") as [<- <-]; [|exact HP].
  apply app_eq_len; [exact L|symmetry; exact E].
Qed.
