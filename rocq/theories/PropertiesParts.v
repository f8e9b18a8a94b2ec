(** * C85 and C86: the answer of a script as data; a source in two parts *)
From Verif Require Import TraceProofs Bytes Json Utils ConstantsGen State Engine Template Spec SpecEngine SpecParts BytesFacts EscapeProofs TextProofs
  BlockProofs TemplateProofs InertProofs FrameProofs FrameRun EngineFrames MoreFrames EvalProofs KeepProofs HandlerProofs Samples
  PropertiesVars PropertiesFiles PropertiesData PropertiesHandlers PropertiesObj.

(** ** A block at the beginning of a source *)
Definition shift (n : nat) (e : nat * nat) : nat * nat := (n + fst e, n + snd e).
Lemma scan_shift n s : forall k pos, scan_blocks k (n + pos) s = map (shift n) (scan_blocks k pos s).
Proof.
  induction s as [|c s IH]; intros k pos; [reflexivity|]. cbn [scan_blocks]. rewrite <- Nat.add_succ_r.
  destruct k as [|k]; [|apply IH]. destruct (starts_with BIF_OPEN (c :: s)); [|apply IH].
  destruct (close_body (skipn 2 (c :: s))) as [e|]; [|apply IH]. cbn [map]. unfold shift at 1. cbn [fst snd]. rewrite IH. f_equal. f_equal. lia.
Qed.
Lemma skipn_past {A} (pre s : list A) p : skipn (length pre + p) (pre ++ s) = skipn p s.
Proof. rewrite skipn_app, skipn_all2 by lia. cbn [app]. f_equal. lia. Qed.
Lemma slice_past pre s a b : slice (length pre + a) (length pre + b) (pre ++ s) = slice a b s.
Proof. unfold slice. rewrite skipn_past. f_equal. lia. Qed.
Lemma gaps_shift pre s bl : forall p, check_gaps (pre ++ s) (length pre + p) (map (shift (length pre)) bl) = option_map (Nat.add (length pre)) (check_gaps s p bl).
Proof.
  induction bl as [|[a b] bl IH]; intro p; cbn [map check_gaps shift fst snd].
  - rewrite skipn_past. destruct (find BIF_CLOSE (skipn p s)); cbn [option_map]; [|reflexivity]. f_equal. lia.
  - rewrite slice_past. destruct (find BIF_CLOSE (slice p a s)); [cbn [option_map]; f_equal; lia|]. apply IH.
Qed.
Lemma segments_shift pre s bl : forall p, segments (pre ++ s) (length pre + p) (map (shift (length pre)) bl) = segments s p bl.
Proof.
  induction bl as [|[a b] bl IH]; intro p; cbn [map segments shift fst snd].
  - rewrite skipn_past. reflexivity.
  - rewrite !slice_past, IH. reflexivity.
Qed.
Lemma extract_first body rest bl : wf_item false (TBif body) -> extract_blocks rest = Blocks bl ->
  let d := text_of (TBif body) in
  extract_blocks (d ++ rest) = Blocks ((0, length d) :: map (shift (length d)) bl).
Proof.
  intros W H d. unfold extract_blocks in *.
  assert (scan_blocks 0 0 (d ++ rest) = (0, length d) :: scan_blocks 0 (length d) rest) as E.
  { unfold d. cbn [text_of]. change (flat_map text_of body) with (texts body). rewrite <- !app_assoc.
    replace (texts body ++ B ":}" ++ rest) with ((texts body ++ B ":}") ++ rest) by (rewrite app_assoc; reflexivity).
    erewrite scan_block; [|rewrite <- app_assoc; apply close_body_bif; exact W|rewrite app_length; reflexivity].
    rewrite !app_length. reflexivity. }
  assert (scan_blocks 0 (length d) rest = map (shift (length d)) (scan_blocks 0 0 rest)) as E2 by (rewrite <- scan_shift, Nat.add_0_r; reflexivity).
  rewrite E, E2. destruct (check_gaps rest 0 (scan_blocks 0 0 rest)) eqn:EG; [discriminate|]. injection H as <-.
  pose proof (gaps_shift d rest (scan_blocks 0 0 rest) 0) as G. rewrite Nat.add_0_r, EG in G. cbn [option_map] in G.
  cbn [check_gaps]. change (slice 0 0 (d ++ rest)) with (@nil ascii). change (find BIF_CLOSE []) with (@None nat). cbv iota. rewrite G. reflexivity.
Qed.
Lemma segments_first d rest bl : segments (d ++ rest) 0 ((0, length d) :: map (shift (length d)) bl) = SText [] :: SBlock d :: segments rest 0 bl.
Proof.
  cbn [segments]. rewrite <- (segments_shift d rest bl 0), Nat.add_0_r. f_equal. f_equal.
  unfold slice. rewrite Nat.sub_0_r. cbn [skipn]. rewrite firstn_app, Nat.sub_diag, firstn_all. cbn [firstn]. rewrite app_nil_r. reflexivity.
Qed.
Lemma parse_first env s i body rest bl only o1 s1 i1 o s' i' fin : let d := text_of (TBif body) in
  wf_item false (TBif body) -> extract_blocks rest = Blocks bl -> exit s = false -> ~ decided i ->
  eval_bif env s i d only = BOk o1 s1 i1 ->
  evaluates (fun s i t => eval_bif env s i t only) (segments rest 0 bl) s1 i1 o s' i' fin ->
  parse env s i (d ++ rest) only = BOk (if fin then trim (o1 ++ o) else o1 ++ o) s' i'.
Proof.
  intros d W H HE HD H1 H2. apply (parse_evaluates env s i (d ++ rest) only _ _ s' i' (extract_first body rest bl W H)).
  exists (o1 ++ o), fin. split; [|reflexivity]. fold d. rewrite segments_first.
  change (o1 ++ o) with ([] ++ o1 ++ o). eapply ev_bif; try eassumption.
  intros [r E]. unfold d in E. cbn [text_of] in E. injection E as E. inversion W as [|? ? ? Hs _ _|]; subst. apply Hs.
  change (flat_map text_of body) with (texts body) in E. destruct (texts body) as [|c t]; [discriminate|]. injection E as -> _. exists t. reflexivity.
Qed.

(** ** The answer of a script as data *)
Lemma utf8_white c r w : white w -> w = c :: r -> c = "{"%char \/ c = "}"%char -> False.
Proof.
  intros (n & Hn & ->) E Hc. cbn in Hn.
  repeat (destruct Hn as [<-|Hn]; [vm_compute in E; injection E as <- _; destruct Hc as [Hc|Hc]; discriminate|]). destruct Hn.
Qed.
Lemma utf8_white_end c r w : white w -> w = r ++ [c] -> c = "{"%char \/ c = "}"%char -> False.
Proof.
  intros (n & Hn & ->) E Hc. apply (f_equal (fun l => last l c)) in E. rewrite last_last in E. cbn in Hn.
  repeat (destruct Hn as [<-|Hn]; [vm_compute in E; subst c; destruct Hc as [Hc|Hc]; discriminate|]). destruct Hn.
Qed.
Lemma trim_braces c m : c = "{"%char \/ c = "}"%char -> trim (c :: m ++ ["}"%char]) = c :: m ++ ["}"%char].
Proof.
  intro Hc. apply trim_id.
  - intros w r HW E. assert (exists c0 w', w = c0 :: w') as (c0 & w' & ->).
    { destruct w as [|c0 w']; [|eauto]. destruct HW as (n & Hn & E2). unfold utf8 in E2. destruct (n <? 128)%N; [discriminate|]. destruct (n <? 2048)%N; discriminate. }
    injection E as <- _. eapply utf8_white; [exact HW|reflexivity|exact Hc].
  - intros w r HW E. assert (exists c0 w', w = w' ++ [c0]) as (c0 & w' & ->).
    { destruct w as [|c0 w'] using rev_ind; [|eauto]. destruct HW as (n & Hn & E2). unfold utf8 in E2. destruct (n <? 128)%N; [discriminate|]. destruct (n <? 2048)%N; discriminate. }
    assert (c0 = "}"%char) as ->.
    { rewrite app_assoc in E. change (c :: m ++ ["}"%char]) with ((c :: m) ++ ["}"%char]) in E. apply app_inj_tail in E as [_ E]. symmetry. exact E. }
    eapply utf8_white_end; [exact HW|reflexivity|right; reflexivity].
Qed.
Lemma not_occurs_cons a b x s : x <> a -> ~ occurs [a; b] s -> ~ occurs [a; b] (x :: s).
Proof. intros N H (u & v & E). destruct u as [|y u]; cbn in E; injection E as E1 E2; [congruence|]. apply H. exists u, v. exact E2. Qed.
Definition inline_body (j : bytes) : bytes := B "{:flg; inline :}>>" ++ j.
Definition inline_items (j : bytes) : list item := [TLit (B "data;"); TBif [TLit (B "flg; inline ")]; TLit (B ">>" ++ j)].
Lemma inline_text j : text_of (TBif (inline_items j)) = bif_text [] (B "data") (inline_body j).
Proof. cbn [text_of inline_items flat_map]. unfold bif_text, inline_body. rewrite app_nil_r, <- !app_assoc. reflexivity. Qed.
Lemma lit_none t : find (B "{:") t = None -> find (B ":}") t = None -> t <> [] -> wf_item false (TLit t).
Proof. intros H1 H2 H3. constructor; [exact H3|apply find_none; exact H1|apply find_none; exact H2]. Qed.
Lemma flg_wf : wf_items false [TBif [TLit (B "flg; inline ")]].
Proof.
  apply wfs_cons; [|constructor|intros [t E]; discriminate]. apply wfi_bif.
  - apply wfs_cons; [apply lit_none; [reflexivity|reflexivity|discriminate]|constructor|intros _; exact I].
  - intros [r E]. discriminate.
  - intros [r E]. apply (f_equal (fun l => last l "x"%char)) in E. rewrite last_last in E. discriminate.
  - discriminate.
Qed.
Lemma inline_wf j : clean_json j -> wf_item false (TBif (inline_items j)).
Proof.
  intros ((m & HJ) & H1 & H2). apply wfi_bif.
  - apply wfs_cons; [apply lit_none; [reflexivity|reflexivity|discriminate]| |intros _ [t E]; discriminate].
    pose proof flg_wf as FW; inversion FW; subst. apply wfs_cons; [assumption| |intros [t E]; discriminate].
    apply wfs_cons; [|constructor|intros _; exact I]. constructor; [discriminate| |].
    + apply not_occurs_cons; [discriminate|]. apply not_occurs_cons; [discriminate|exact H1].
    + apply not_occurs_cons; [discriminate|]. apply not_occurs_cons; [discriminate|exact H2].
  - intros [r E]. discriminate.
  - intros [r E]. assert (texts (inline_items j) = (B "data;{:flg; inline :}>>{" ++ m) ++ ["}"%char]) as ET.
    { unfold texts. cbn [inline_items flat_map text_of]. rewrite HJ, !app_nil_r, <- !app_assoc. reflexivity. }
    rewrite ET in E. apply app_inj_tail in E as [_ E]. discriminate.
  - discriminate.
Qed.
Lemma inline_params j : clean_json j -> params_of (inline_body j) = B "{:flg; inline :}" /\ code_of (inline_body j) = j.
Proof.
  intros ((m & HJ) & H1 & H2).
  assert (trim (inline_body j) = inline_body j) as ET.
  { unfold inline_body. rewrite HJ. cbn [B app list_ascii_of_string].
    change (trim ("{"%char :: (B ":flg; inline :}>>{" ++ m) ++ B "}") = "{"%char :: (B ":flg; inline :}>>{" ++ m) ++ B "}").
    apply trim_braces. left. reflexivity. }
  assert (get_code_position (inline_body j) = Some 16) as EP.
  { pose proof (code_position_split [TBif [TLit (B "flg; inline ")]] j flg_wf) as H. unfold texts in H. cbn [flat_map text_of] in H.
    rewrite !app_nil_r in H. unfold inline_body. apply H.
    - constructor; [exact I|constructor].
    - intros [r E]. apply (f_equal (fun l => last l "x"%char)) in E. rewrite last_last in E. discriminate. }
  unfold params_of, code_of. rewrite ET, EP. split; [vm_compute; reflexivity|].
  change (skipn (16 + 2) (inline_body j)) with j. rewrite HJ. apply trim_braces. left. reflexivity.
Qed.
(** the flag inside the data bif *)
Lemma inline_flag env s i : exit s = false -> may_start s -> level_ok s i ->
  eval_nested env (B "data") s i (B "{:flg; inline :}") [] = BOk [] (set_sflags (B "|inline|") (started s)) i.
Proof.
  intros HE HM [HC [(k & Hk & HI) _]]. unfold eval_nested.
  destruct (C75_flags env s (inside (B "data") i) [] (B " inline ") [] (B "inline") (started s) (started_in s (inside (B "data") i))) as (fl & EF & HF).
  - constructor.
  - intros [].
  - intros [].
  - intros [].
  - intros [].
  - exact HM.
  - left. reflexivity.
  - vm_compute. reflexivity.
  - reflexivity.
  - assert (fl = B "|inline|") as ->.
    { eapply replaced_det; [|exact HF|]; [discriminate|]. apply (replace_replaced (B " ") (B "|") (B " inline ")). discriminate. }
    pose proof (parse_first env s (inside (B "data") i) [TLit (B "flg; inline ")] [] [] [] [] (set_sflags (B "|inline|") (started s))
      (iset_last false (started_in s (inside (B "data") i))) [] (set_sflags (B "|inline|") (started s)) (iset_last false (started_in s (inside (B "data") i))) true) as P.
    cbv zeta in P. rewrite app_nil_r in P. change (text_of (TBif [TLit (B "flg; inline ")])) with (B "{:flg; inline :}") in P.
    rewrite P; clear P.
    + cbn [app]. rewrite trim_nil. f_equal. unfold drop_block.
      cbn [block_count iset_last started_in iset_in_only iset_bif_count inside iset_block_count iset_alias indir].
      rewrite HI, block_ne by lia. rewrite andb_false_r. reflexivity.
    + pose proof flg_wf as FW; inversion FW; subst; assumption.
    + reflexivity.
    + exact HE.
    + intros [_ H]. discriminate.
    + change (B "{:flg; inline :}") with (bif_text [] (B "flg") (B " inline ")). rewrite EF. reflexivity.
    + constructor.
Qed.
(** the data bif itself *)
Lemma inline_data env s i j res : clean_json j -> env.(e_from_str) j = inl res -> exit s = false -> may_start (started s) -> level_ok s i -> is_obj (visible s i) ->
  exists s' i', eval_bif env s i (text_of (TBif (inline_items j))) [] = BOk (B "&#0;") s' i' /\
    merged_into (B "data") (idx res (B "data")) (visible s i) (visible s' i') /\ schema s' = schema s /\ strace s' = strace s.
Proof.
  intros HJ HF HE HM HL HV. rewrite inline_text. destruct (inline_params j HJ) as [EP EC].
  set (s1 := set_sflags (B "|inline|") (started (set_sflags [] (started s)))).
  destruct (C69_inline env s i [] (inline_body j) [] [] (B "|inline|") s1 res) as (s' & i' & E1 & E2 & E3 & E4).
  - constructor.
  - intros [].
  - intros [].
  - unfold may_start in *. cbn [started bisf_count set_bisf_count cfg] in HM. lia.
  - left. reflexivity.
  - change (B "|inline|") with (sflags s1). eapply pr_eval; rewrite EP.
    + exists [], (B "flg; inline :}"). reflexivity.
    + apply inline_flag; [exact HE|exact HM|exact HL].
  - reflexivity.
  - rewrite EC. exact HF.
  - exact HV.
  - exists s', (iset_last true i'). split; [rewrite E1; reflexivity|]. split; [exact E2|].
    destruct E3 as [x ->]. split; reflexivity.
Qed.
(** If the text of the answer contains neither "{:" nor ":}", its member "data" becomes local data, and then the template and the code
    are evaluated.  (Missing from "an answer is only ever data": other answers, C78_answer_is_data_refuted.) *)
Theorem C85_answer_is_data_partial : forall env s i mods body file raw s1 m e m' s2 x s3 res t bl, Forall modifier mods ->
  ~ In "&"%char mods -> ~ In "!"%char mods -> ~ In "+"%char mods -> may_start s ->
  let i1 := started_in s i in
  description env (started s) i1 [] (params_of (obj_body body)) file raw s1 ->
  env.(e_from_str) (trim raw) = inl (JObj m) -> asks_for env (JObj m) e ->
  members env file i1 [] false m s1 m' s2 ->
  calls env s2 i1 e (JObj m') x s3 -> answer env e s3 x = inl res ->
  ~ empty_value (idx res (B "data")) -> clean_json (env.(e_to_string) res) -> env.(e_from_str) (env.(e_to_string) res) = inl res ->
  template_part (JObj m') t -> let rest := t ++ code_of (obj_body body) in extract_blocks rest = Blocks bl ->
  let sc := after_call env e s3 x in
  exit sc = false -> may_start (started sc) -> level_ok sc i1 -> is_obj (visible sc i1) ->
  exists s4 i4, merged_into (B "data") (idx res (B "data")) (visible sc i1) (visible s4 i4) /\ s4.(schema) = sc.(schema) /\ s4.(strace) = sc.(strace) /\
  forall o s5 i5 fin, evaluates (fun s i b => eval_bif env s i b []) (segments rest 0 bl) s4 i4 o s5 i5 fin ->
    eval_bif env s i (bif_text mods (B "obj") body) [] =
    finished mods (if fin then trim (B "&#0;" ++ o) else B "&#0;" ++ o) (drop_block s5 i5) i1.
Proof.
  intros env s i mods body file raw s1 m e m' s2 x s3 res t bl HM HA HG HU HS i1 HDe HJ HEn HMe HCa HAn HNE HCl HFS HT rest HB sc HE HMs HL HV.
  set (ib := inside_file (B "obj") file [] i1).
  assert (indir ib = indir i1) as EI by (unfold ib, inside_file; destruct (is_empty file); reflexivity).
  assert (block_count ib = block_count i1 + 1)%N as EB by (unfold ib, inside_file; destruct (is_empty file); reflexivity).
  assert (level_ok sc ib) as HLb.
  { destruct HL as [L1 [(k & L2 & L3) L4]]. split; [rewrite EB; lia|]. rewrite EI, EB. split; [|exact L4]. exists k. split; [lia|exact L3]. }
  assert (visible sc ib = visible sc i1) as EV by (unfold visible; rewrite EI; reflexivity).
  destruct (inline_data env sc ib (e_to_string env res) res HCl HFS HE HMs HLb) as (s4 & i4 & E4 & M4 & S4 & T4); [rewrite EV; exact HV|].
  rewrite EV in M4. exists s4, i4. split; [exact M4|]. split; [exact S4|]. split; [exact T4|].
  intros o s5 i5 fin HEv.
  rewrite (C78_call env s i mods body [] file raw s1 m e m' s2 x s3 res (B "{:data;{:flg; inline :}>>" ++ e_to_string env res ++ B ":}") t); try assumption;
    [|left; reflexivity|apply dp_some; exact HNE].
  fold i1 sc.
  assert (B "{:data;{:flg; inline :}>>" ++ e_to_string env res ++ B ":}" = text_of (TBif (inline_items (e_to_string env res)))) as ED.
  { rewrite inline_text. unfold bif_text, inline_body. rewrite <- !app_assoc. reflexivity. }
  rewrite ED, <- app_assoc || rewrite ED. fold rest. unfold eval_in.
  assert (contains (B "{:") (text_of (TBif (inline_items (e_to_string env res))) ++ rest) = true) as ->.
  { apply contains_iff. exists [], (B "data;{:flg; inline :}>>" ++ e_to_string env res ++ B ":}" ++ rest).
    rewrite <- ED, <- !app_assoc. reflexivity. }
  rewrite (has_mod_false "+" mods HU). fold ib.
  rewrite (parse_first env sc ib (inline_items (e_to_string env res)) rest bl [] (B "&#0;") s4 i4 o s5 i5 fin (inline_wf _ HCl) HB HE); [reflexivity| |exact E4|exact HEv].
  unfold decided, ib, inside_file. intros [_ H]. destruct (is_empty file); discriminate.
Qed.
Print Assumptions C85_answer_is_data_partial.

(** the hypotheses of C85 about the answer and the state, met; and the output of the whole *)
Example C85_example :
  let res := JObj [(B "data", JObj [(B "x", JStr (B "new"))])] in
  let env := env_script (inl res) (B "{""data"":{""x"":""new""}}") in
  let s := fst (start_of "") in let i := started_in s (iset_block_count 1 (snd (start_of ""))) in
  clean_json (env.(e_to_string) res) /\ env.(e_from_str) (env.(e_to_string) res) = inl res /\ ~ empty_value (idx res (B "data")) /\
  exit s = false /\ may_start (started s) /\ level_ok s i /\ is_obj (visible s i) /\
  output_in env "{:obj; {""file"":""s.py""} >> [{:;local::x:}] :}" = B "[new]".
Proof.
  intros res env s i. split; [|split; [|split; [|split; [|split; [|split; [|split]]]]]].
  - split; [exists (B """data"":{""x"":""new""}"); reflexivity|]. split; apply find_none; reflexivity.
  - reflexivity.
  - intro H. destruct H as [H|[H|[H|H]]]; discriminate H.
  - reflexivity.
  - vm_compute. discriminate.
  - split; [vm_compute; discriminate|]. split; [exists 1%N; split; [split; vm_compute; discriminate|vm_compute; reflexivity]|vm_compute; discriminate].
  - vm_compute. eexists. reflexivity.
  - vm_compute. reflexivity.
Qed.

(** ** A source in two parts *)
Lemma as_segments_ok l : forall pre lit, segments (pre ++ lit ++ texts l) (length pre) (spans (length pre + length lit) l) = as_segments lit l.
Proof.
  induction l as [|x l IH]; intros pre lit.
  - cbn [spans segments as_segments texts flat_map]. rewrite app_nil_r, skipn_app, skipn_all, Nat.sub_diag. reflexivity.
  - rewrite texts_cons.
    assert (forall e, e = length (text_of x) ->
      segments (pre ++ lit ++ text_of x ++ texts l) (length pre) ((length pre + length lit, length pre + length lit + e) :: spans (length pre + length lit + e) l) =
      SText lit :: SBlock (text_of x) :: as_segments [] l) as X.
    { intros e ->. cbn [segments]. rewrite slice_app_mid. f_equal.
      specialize (IH (pre ++ lit ++ text_of x) []). cbn [app length] in IH. rewrite <- IH. f_equal.
      - f_equal. unfold slice. rewrite app_assoc. rewrite <- app_length. rewrite skipn_app, skipn_all, Nat.sub_diag. cbn [app skipn].
        rewrite app_length. replace (length pre + length lit + length (text_of x) - (length pre + length lit)) with (length (text_of x)) by lia.
        rewrite firstn_app, Nat.sub_diag, firstn_all. cbn [firstn]. rewrite app_nil_r. reflexivity.
      - rewrite <- !app_assoc. rewrite !app_length. f_equal; [lia|]. f_equal. lia. }
    destruct x as [t|b|b]; cbn [spans as_segments].
    + specialize (IH pre (lit ++ t)). rewrite app_length, <- app_assoc, Nat.add_assoc in IH. cbn [text_of]. exact IH.
    + apply X. reflexivity.
    + apply X. reflexivity.
Qed.
Lemma items_segments l : wf_items false l -> exists bl, extract_blocks (texts l) = Blocks bl /\ segments (texts l) 0 bl = as_segments [] l.
Proof. intro W. exists (spans 0 l). split; [apply extract_items, W|]. apply (as_segments_ok l [] []). Qed.
Lemma as_segments_text l2 : forall t lit, exists u r, as_segments (t ++ lit) l2 = SText (t ++ u) :: r /\ as_segments lit l2 = SText u :: r.
Proof.
  induction l2 as [|x l2 IH]; intros t lit; [cbn; eauto|]. destruct x as [v|b|b]; cbn [as_segments]; [|eauto..]. rewrite <- app_assoc. apply IH.
Qed.
Lemma evaluates_more run t u r s i o s' i' fin : exit s = false -> evaluates run (SText u :: r) s i o s' i' fin ->
  evaluates run (SText (t ++ u) :: r) s i (t ++ o) s' i' fin.
Proof.
  intros HE H. remember (SText u :: r) as l eqn:El. destruct H.
  - injection El as -> <-. constructor.
  - congruence.
  - injection El as -> <-. rewrite app_assoc. apply ev_comment; assumption.
  - injection El as -> <-. rewrite app_assoc. apply ev_skip; assumption.
  - injection El as -> <-. rewrite app_assoc. eapply ev_bif; eassumption.
Qed.
Lemma evaluates_parts run l2 o2 s2 i2 fin l1 : forall lit s i o1 s1 i1, evaluates run (as_segments lit l1) s i o1 s1 i1 true ->
  exit s1 = false -> evaluates run (as_segments [] l2) s1 i1 o2 s2 i2 fin -> evaluates run (as_segments lit (l1 ++ l2)) s i (o1 ++ o2) s2 i2 fin.
Proof.
  induction l1 as [|x l1 IH]; intros lit s i o1 s1 i1 H1 HE H2.
  - cbn [app]. cbn [as_segments] in H1. inversion H1; subst. destruct (as_segments_text l2 o1 []) as (u & r & E1 & E2).
    rewrite app_nil_r in E1. rewrite E1. rewrite E2 in H2. apply evaluates_more; assumption.
  - destruct x as [t|b|b]; cbn [app as_segments] in *; [eapply IH; eassumption|..];
      (inversion H1; subst; rewrite <- ?app_assoc;
       [apply ev_comment; [assumption|assumption|eapply IH; eassumption]
       |apply ev_skip; [assumption|assumption|assumption|eapply IH; eassumption]
       |eapply ev_bif; [assumption|assumption|assumption|eassumption|eapply IH; eassumption]]).
Qed.
Lemma evaluates_stops run l2 l1 : forall lit s i o1 s1 i1, evaluates run (as_segments lit l1) s i o1 s1 i1 false ->
  evaluates run (as_segments lit (l1 ++ l2)) s i o1 s1 i1 false.
Proof.
  induction l1 as [|x l1 IH]; intros lit s i o1 s1 i1 H1.
  - inversion H1.
  - destruct x as [t|b|b]; cbn [app as_segments] in *; [eapply IH; eassumption|..];
      (inversion H1; subst;
       [apply ev_stop; assumption
       |apply ev_comment; [assumption|assumption|eapply IH; eassumption]
       |apply ev_skip; [assumption|assumption|assumption|eapply IH; eassumption]
       |eapply ev_bif; [assumption|assumption|assumption|eassumption|eapply IH; eassumption]]).
Qed.
(** A source in two parts: the second part is evaluated in the state the first one leaves, and the outputs follow each other; after an
    exit in the first part the second one contributes nothing. *)
Theorem C86_parts : forall env s i only l1 l2 o1 s1 i1 o2 s2 i2 fin, wf_items false (l1 ++ l2) ->
  evaluates (fun s i b => eval_bif env s i b only) (as_segments [] l1) s i o1 s1 i1 true -> s1.(exit) = false ->
  evaluates (fun s i b => eval_bif env s i b only) (as_segments [] l2) s1 i1 o2 s2 i2 fin ->
  parse env s i (texts (l1 ++ l2)) only = BOk (if fin then trim (o1 ++ o2) else o1 ++ o2) s2 i2.
Proof.
  intros env s i only l1 l2 o1 s1 i1 o2 s2 i2 fin W H1 HE H2. destruct (items_segments _ W) as (bl & EB & ES).
  apply (parse_evaluates env s i _ only bl _ s2 i2 EB). exists (o1 ++ o2), fin. split; [|reflexivity]. rewrite ES.
  eapply evaluates_parts; eassumption.
Qed.
Print Assumptions C86_parts.
Theorem C86_stopped : forall env s i only l1 l2 o1 s1 i1, wf_items false (l1 ++ l2) ->
  evaluates (fun s i b => eval_bif env s i b only) (as_segments [] l1) s i o1 s1 i1 false ->
  parse env s i (texts (l1 ++ l2)) only = BOk o1 s1 i1.
Proof.
  intros env s i only l1 l2 o1 s1 i1 W H1. destruct (items_segments _ W) as (bl & EB & ES).
  apply (parse_evaluates env s i _ only bl _ s1 i1 EB). exists o1, false. split; [|reflexivity]. rewrite ES. apply evaluates_stops. exact H1.
Qed.
Print Assumptions C86_stopped.
(** the meaning of the parts: a part alone is evaluated like this *)
Theorem C86_part : forall env s i only l o s' i', wf_items false l ->
  (parse env s i (texts l) only = BOk o s' i' <->
   exists o' fin, evaluates (fun s i b => eval_bif env s i b only) (as_segments [] l) s i o' s' i' fin /\ o = if fin then trim o' else o').
Proof.
  intros env s i only l o s' i' W. destruct (items_segments _ W) as (bl & EB & ES). rewrite (parse_evaluates env s i _ only bl _ s' i' EB), ES. reflexivity.
Qed.
Print Assumptions C86_part.

(** a source in two parts, and a source whose first part exits *)
Example C86_example :
  let l1 := [TLit (B "a"); TBif [TLit (B ";name")]] in
  let l2 := [TLit (B "-"); TBif [TLit (B ";num")]; TLit (B "z")] in
  wf_items false (l1 ++ l2) /\ texts (l1 ++ l2) = B "a{:;name:}-{:;num:}z" /\
  as_segments [] l1 = [SText (B "a"); SBlock (B "{:;name:}"); SText []] /\
  output_in env0 "a{:;name:}-{:;num:}z" = B "aWorld-7z" /\ output_in env0 "a{:exit; 404 :}-{:;num:}z" = B "404 Not Found".
Proof.
  intros l1 l2. split; [|vm_compute; repeat split; reflexivity].
  assert (wf_items false [TLit (B ";name")]) as N1 by (apply wfs_cons; [apply lit_none; [reflexivity|reflexivity|discriminate]|constructor|intros _; exact I]).
  assert (wf_items false [TLit (B ";num")]) as N2 by (apply wfs_cons; [apply lit_none; [reflexivity|reflexivity|discriminate]|constructor|intros _; exact I]).
  assert (wf_item false (TBif [TLit (B ";name")])) as W1.
  { apply wfi_bif; [exact N1|intros [r E]; discriminate| |discriminate]. intros [r E]. apply (f_equal (fun l => last l "x"%char)) in E. rewrite last_last in E. discriminate. }
  assert (wf_item false (TBif [TLit (B ";num")])) as W2.
  { apply wfi_bif; [exact N2|intros [r E]; discriminate| |discriminate]. intros [r E]. apply (f_equal (fun l => last l "x"%char)) in E. rewrite last_last in E. discriminate. }
  assert (forall t, t = B "a" \/ t = B "-" \/ t = B "z" -> wf_item false (TLit t)) as WL by (intros t [->|[->| ->]]; apply lit_none; reflexivity || discriminate).
  unfold l1, l2. cbn [app].
  repeat (apply wfs_cons; [first [exact W1|exact W2|apply WL; tauto]| |first [intros _ H; destruct H as [? H]; discriminate H|intros H; destruct H as [? H]; discriminate H|intros _; exact I|intros _ []]]).
  constructor.
Qed.
