(** * Property theorems: text functions, schemas, blocks, comments *)

From Verif Require Import Bytes Json Utils ConstantsGen Spec BytesFacts EscapeProofs WildcardProofs
  MergeProofs BlockProofs TextProofs WordProofs CommentProofs.

(** ** C01 *)
Theorem C01_wildcard_meaning : forall text pattern tc pc,
  characters text tc -> characters pattern pc ->
  (wildcard_match text pattern = true <-> wild pc tc).
Proof. exact wildcard_match_characters. Qed.
Print Assumptions C01_wildcard_meaning.

(** every UTF-8 string has characters, so C01 applies to every Rust string *)
Theorem C01_utf8_has_characters : forall s, utf8_valid s = true -> exists l, characters s l.
Proof. exact utf8_characters. Qed.
Print Assumptions C01_utf8_has_characters.

Example C01_example : wildcard_match (B "home.php") (B "h?me*.php~") = true /\
  wildcard_match (B "homephp") (B "h?me\.php") = false /\ utf8_valid (B "h?me*.php~") = true.
Proof. vm_compute. auto. Qed.

(** ** C02 *)
Theorem C02_plain_word_matches_itself_only : forall text word,
  (forall a, In a word -> a <> "."%char /\ a <> "?"%char /\ a <> "*"%char /\ a <> "~"%char /\ a <> "\"%char) ->
  (wildcard_match text word = true <-> text = word).
Proof.
  intros text word H. apply wildcard_literal. intros a Ha. destruct (H a Ha) as (N1 & N2 & N3 & N4 & N5).
  unfold wildcard_byte. repeat (rewrite (proj2 (aeqb_neq _ _)) by assumption). reflexivity.
Qed.
Print Assumptions C02_plain_word_matches_itself_only.
Example C02_example : forall a, In a (B "en-us_1") ->
  a <> "."%char /\ a <> "?"%char /\ a <> "*"%char /\ a <> "~"%char /\ a <> "\"%char.
Proof. intros a H. cbn in H. repeat (destruct H as [<-|H]; [repeat split; discriminate|]). destruct H. Qed.

(** ** C03: the words of schema.inherit.declare.traversal in the default schema *)
Theorem C03_traversal_words_catch_exactly_traversal_paths : forall p l, utf8_valid p = true ->
  words (get_from_key (idx (idx DEFAULT_SCHEMA (B "inherit")) (B "declare")) (B "traversal")) l ->
  ((exists w, In w l /\ wildcard_match p w = true) <-> traversal_path p).
Proof.
  intros p l V W. apply words_iff in W. rewrite <- W, default_traversal_words. exact (traversal_match p (utf8_aligned p V)).
Qed.
Print Assumptions C03_traversal_words_catch_exactly_traversal_paths.
Example C03_example : utf8_valid (B "a/../b") = true /\ traversal_path (B "a/../b") /\ ~ traversal_path (B "a/b.c").
Proof.
  split; [reflexivity|]. split.
  - right. right. exists (B "a/"), (B "/b"). reflexivity.
  - intros [[r H]|[[r H]|H]]; try discriminate. apply contains_iff in H. discriminate.
Qed.

(** ** C05 *)
Theorem C05_unescape_escape : forall b s, unescape_chars (escape_chars s b) b = s.
Proof. exact unescape_escape. Qed.
Print Assumptions C05_unescape_escape.
Example C05_example : escape_chars (B "<a href='x'>{:&amp;:}</a>") true <> B "<a href='x'>{:&amp;:}</a>".
Proof. vm_compute. discriminate. Qed.

(** ** C06 *)
Theorem C06_escaped_has_no_active_characters : forall b s,
  inert b (escape_chars s b) /\ forall c, In c (active b) -> ~ In c (escape_chars s b).
Proof.
  intros b s. split; [exact (escape_inert b s)|exact (inert_no_active b _ (escape_inert b s))].
Qed.
Print Assumptions C06_escaped_has_no_active_characters.

(** nothing else is changed: the result is, character by character, the entity or the character *)
Theorem C06_escape_is_characterwise : forall b s,
  exists ps, escape_chars s b = concat ps /\ Forall2 (piece_for b) s ps.
Proof. exact escape_pieces. Qed.
Print Assumptions C06_escape_is_characterwise.
Example C06_example : escape_chars (B "a<b>&'/{}") true = B "a&lt;b&gt;&amp;&#x27;&#x2F;&#123;&#125;".
Proof. reflexivity. Qed.

(** ** C07 *)
Theorem C07_filter_value_idempotent : forall j, filter_value (filter_value j) = filter_value j.
Proof. exact filter_value_idem. Qed.
Print Assumptions C07_filter_value_idempotent.
Theorem C07_refilter_idempotent : forall b s,
  escape_chars (unescape_chars (escape_chars (unescape_chars s b) b) b) b
  = escape_chars (unescape_chars s b) b.
Proof. exact refilter_idem. Qed.
Print Assumptions C07_refilter_idempotent.
Example C07_example :
  filter_value (JObj [(B "k", JArr [JStr (B "<&amp;>")])]) = JObj [(B "k", JArr [JStr (B "&lt;&amp;&gt;")])].
Proof. reflexivity. Qed.

(** ** C09 *)
Theorem C09_filtered_keys : forall m k, NoDup (okeys m) ->
  (forall k0 v m1 m2, m = m1 ++ (k0, v) :: m2 -> refilter true k0 = k ->
     (forall k1 v1, In (k1, v1) m2 -> refilter true k1 <> k) ->
     vget k (filter_value_keys (JObj m)) = Some (filter_value_keys v)) /\
  ((forall k0 v, In (k0, v) m -> refilter true k0 <> k) -> vget k (filter_value_keys (JObj m)) = None).
Proof. exact filter_keys_last_wins. Qed.
Print Assumptions C09_filtered_keys.
Theorem C09_unique_filtered_key_is_kept : forall m k0 v, NoDup (okeys m) -> In (k0, v) m ->
  (forall k1 v1, In (k1, v1) m -> refilter true k1 = refilter true k0 -> k1 = k0) ->
  vget (refilter true k0) (filter_value_keys (JObj m)) = Some (filter_value_keys v).
Proof. exact filter_keys_unique. Qed.
Print Assumptions C09_unique_filtered_key_is_kept.
(** an entry is lost when two keys become equal *)
Theorem C09_all_entries_kept_refuted : exists m, NoDup (okeys m) /\ length m = 2 /\
  exists m', filter_value_keys (JObj m) = JObj m' /\ length m' = 1.
Proof.
  exists [(B "<", JStr (B "first")); (B "&lt;", JStr (B "second"))]. split; [|split; [reflexivity|]].
  - repeat constructor; cbn; intuition discriminate.
  - eexists. split; reflexivity.
Qed.
Print Assumptions C09_all_entries_kept_refuted.

(** ** C12 *)
Theorem C12_second_wins : forall p a b v, wf_json b ->
  at_path p b = Some v -> ~ is_obj v -> at_path p (merge_schema a b) = Some v.
Proof. exact merge_second_wins. Qed.
Print Assumptions C12_second_wins.
Theorem C12_rest_is_kept : forall p a b, wf_json b -> is_obj a -> is_obj b ->
  ~ touches b p -> at_path p (merge_schema a b) = at_path p a.
Proof. exact merge_rest_kept. Qed.
Print Assumptions C12_rest_is_kept.
Theorem C12_objects_are_merged : forall p a b va vb, wf_json b -> is_obj a -> is_obj b ->
  at_path p a = Some va -> at_path p b = Some vb -> is_obj va -> is_obj vb ->
  at_path p (merge_schema a b) = Some (merge_schema va vb).
Proof. exact merge_both_objects. Qed.
Print Assumptions C12_objects_are_merged.
Theorem C12_key_order : forall ma mb, NoDup (okeys mb) ->
  exists m, merge_schema (JObj ma) (JObj mb) = JObj m /\
            okeys m = okeys ma ++ new_keys (okeys ma) (okeys mb).
Proof. intros ma mb N. eexists. split; [exact (merge_obj ma mb)|exact (merge_keys mb ma N)]. Qed.
Print Assumptions C12_key_order.
Definition ex_a : json := JObj [(B "data", JObj [(B "x", JStr (B "1")); (B "y", JStr (B "2"))]); (B "v", JNull)].
Definition ex_b : json := JObj [(B "n", JBool true); (B "data", JObj [(B "y", JArr []); (B "z", JNull)])].
Example C12_example : wf_json ex_b /\ is_obj ex_a /\ is_obj ex_b /\
  at_path [B "data"; B "y"] ex_b = Some (JArr []) /\ ~ is_obj (JArr []) /\
  ~ touches ex_b [B "data"; B "x"] /\
  merge_schema ex_a ex_b =
    JObj [(B "data", JObj [(B "x", JStr (B "1")); (B "y", JArr []); (B "z", JNull)]); (B "v", JNull); (B "n", JBool true)].
Proof.
  split; [repeat constructor; cbn; intuition discriminate|].
  split; [eexists; reflexivity|]. split; [eexists; reflexivity|]. split; [reflexivity|].
  split; [intros [m H]; discriminate|]. split; [|reflexivity].
  intros [[v H]|(q & r & v & E & H & N)]; [discriminate|].
  destruct q as [|q1 [|q2 q3]]; cbn in E; inversion E; subst; cbn in H;
    try (inversion H; subst; apply N; eexists; reflexivity); try discriminate.
Qed.

(** ** C13 *)
Theorem C13_owned_merge_agrees : forall b a, merge_schema_owned a b = merge_schema a b.
Proof. exact merge_owned_eq. Qed.
Print Assumptions C13_owned_merge_agrees.
Theorem C13_merge_twice : forall b, wf_json b -> forall a,
  merge_schema (merge_schema a b) b = merge_schema a b.
Proof. exact merge_idem. Qed.
Print Assumptions C13_merge_twice.
Theorem C13_update_functions_agree : forall a b, update_schema_owned a b = update_schema a b.
Proof. intros a b. unfold update_schema_owned, update_schema. now rewrite merge_owned_eq. Qed.
Print Assumptions C13_update_functions_agree.
Example C13_example : wf_json ex_b /\ merge_schema ex_a ex_b <> ex_a.
Proof. split; [exact (proj1 C12_example)|vm_compute; discriminate]. Qed.
(** associativity does not hold: null is overwritten by an object, but an object is merged *)
Theorem C13_associative_refuted : exists a b c,
  merge_schema a (merge_schema b c) <> merge_schema (merge_schema a b) c.
Proof.
  exists (JObj [(B "k", JObj [(B "x", JNull)])]), (JObj [(B "k", JNull)]), (JObj [(B "k", JObj [])]).
  vm_compute. discriminate.
Qed.
Print Assumptions C13_associative_refuted.

(** ** C14 *)
Theorem C14_version_is_stamped : forall a b r, update_schema a b = Some r ->
  is_obj r /\ vget (B "version") r = Some (JStr (B "1.4.3")) /\
  forall k, k <> B "version" -> k <> B "data" -> vget k r = vget k (merge_schema a b).
Proof. intros a b r H. exact (update_tail_fields _ _ H). Qed.
Print Assumptions C14_version_is_stamped.
(** the update fails (panics) exactly when the merged value is neither an object nor null *)
Theorem C14_update_fails_only_on_non_objects : forall a b,
  update_schema a b = None <-> ~ (is_obj (merge_schema a b) \/ merge_schema a b = JNull).
Proof. intros a b. exact (update_tail_none (merge_schema a b)). Qed.
Print Assumptions C14_update_fails_only_on_non_objects.
Example C14_example : exists r, update_schema DEFAULT_SCHEMA (JObj [(B "version", JStr (B "9")); (B "x", JNull)]) = Some r
  /\ vget (B "x") r = Some JNull.
Proof. eexists. split; vm_compute; reflexivity. Qed.

(** ** C15 *)
Theorem C15_header_spellings_agree : forall a b r h,
  update_schema a b = Some r -> at_path header_path (merge_schema a b) = Some (JObj h) ->
  exists h', at_path header_path r = Some (JObj h') /\
  (forall s v, In s spellings -> oget s h = Some v ->
     exists w, (exists s0, In s0 spellings /\ oget s0 h = Some w) /\
               forall s', In s' spellings -> oget s' h' = Some w) /\
  (forall k, ~ In k spellings -> oget k h' = oget k h) /\
  ((forall s, In s spellings -> oget s h = None) -> h' = h).
Proof.
  intros a b r h U H. destruct (header_variants_spec h) as (h' & E & P). exists h'. split; [|exact P].
  rewrite <- E. exact (update_tail_headers _ _ _ U H).
Qed.
Print Assumptions C15_header_spellings_agree.
(** the value that wins need not be the one just merged *)
Theorem C15_newest_value_wins_refuted : exists a b r,
  update_schema a b = Some r /\
  at_path (header_path ++ [B "REQUESTED-WITH-AJAX"]) b = Some (JStr (B "new")) /\
  at_path (header_path ++ [B "REQUESTED-WITH-AJAX"]) r = Some (JStr (B "old")).
Proof.
  exists (JObj [(B "data", JObj [(B "CONTEXT", JObj [(B "HEADERS", JObj [(B "requested-with-ajax", JStr (B "old"))])])])]),
         (JObj [(B "data", JObj [(B "CONTEXT", JObj [(B "HEADERS", JObj [(B "REQUESTED-WITH-AJAX", JStr (B "new"))])])])]).
  eexists. split; [reflexivity|]. split; reflexivity.
Qed.
Print Assumptions C15_newest_value_wins_refuted.
Example C15_example : exists r, update_schema DEFAULT_SCHEMA
   (JObj [(B "data", JObj [(B "CONTEXT", JObj [(B "HEADERS", JObj [(B "Requested-With-Ajax", JStr (B "fetch"))])])])]) = Some r
  /\ at_path (header_path ++ [B "requested-with-ajax"]) r = Some (JStr (B "fetch")).
Proof. eexists. split; vm_compute; reflexivity. Qed.

(** ** C16 *)
Theorem C16_extraction_finds_outermost_bifs : forall l, wf_items false l ->
  extract_blocks (texts l) = Blocks (spans 0 l).
Proof. exact extract_items. Qed.
Print Assumptions C16_extraction_finds_outermost_bifs.
Definition ex_items : list item :=
  [TLit (B "a "); TBif [TLit (B "code; x >> "); TBif [TLit (B ";v")]; TLit (B " ")]; TComment [TLit (B " c "); TBif [TLit (B ";w")]]; TLit (B " z")].
Example C16_example : wf_items false ex_items /\
  texts ex_items = B "a {:code; x >> {:;v:} :}{:* c {:;w:}*:} z" /\ spans 0 ex_items = [(2, 24); (24, 39)].
Proof.
  split; [|split; reflexivity].
  assert (forall s t, find s t = None -> ~ occurs s t) as F by exact find_none.
  assert (forall x t, (match t with c :: _ => aeqb c x | [] => false end) = false -> ~ starts_byte x t) as SB.
  { intros x t H [r ->]. rewrite aeqb_refl in H. discriminate. }
  assert (forall x t, (match rev t with c :: _ => aeqb c x | [] => false end) = false -> ~ ends_byte x t) as EB.
  { intros x t H [r ->]. rewrite rev_app_distr in H. cbn in H. rewrite aeqb_refl in H. discriminate. }
  assert (forall inc t, t <> [] -> find (B "{:") t = None -> find (B ":}") t = None -> wf_item inc (TLit t)) as L.
  { intros inc t N H1 H2. constructor; auto. }
  assert (forall i, ~ is_lit (TBif i)) as NB by (intros i [t H]; discriminate).
  assert (forall i, ~ is_lit (TComment i)) as NC by (intros i [t H]; discriminate).
  unfold ex_items.
  repeat match goal with
  | |- wf_items _ [] => apply wfs_nil
  | |- wf_items _ (_ :: _) => apply wfs_cons
  | |- wf_item _ (TLit _) => apply L; [discriminate|reflexivity|reflexivity]
  | |- wf_item _ (TBif _) => apply wfi_bif; [|apply SB; reflexivity|apply EB; reflexivity|intros _; apply EB; reflexivity]
  | |- wf_item _ (TComment _) => apply wfi_comment
  | |- is_lit (TBif _) -> _ => intros X; destruct (NB _ X)
  | |- is_lit (TComment _) -> _ => intros X; destruct (NC _ X)
  | |- is_lit (TLit _) -> _ => intros _; first [exact I | apply NB | apply NC]
  end.
Qed.

(** ** C17 *)
Theorem C17_blocks_ordered_and_delimited : forall src l, extract_blocks src = Blocks l ->
  ordered_spans src 0 l /\ Forall (fun g => ~ occurs (B ":}") g) (gaps src 0 l) /\
  interleave src 0 l = src.
Proof.
  intros src l H. destruct (extract_ordered _ _ H) as [O G].
  split; [exact O|]. split; [exact G|]. exact (interleave_all src l 0 O).
Qed.
Print Assumptions C17_blocks_ordered_and_delimited.
Theorem C17_failure_position_is_a_close : forall src p,
  extract_blocks src = Unmatched p -> occurs_at (B ":}") src p.
Proof. exact extract_unmatched. Qed.
Print Assumptions C17_failure_position_is_a_close.
Example C17_example : extract_blocks (B "x{:;a:}y{:b") = Blocks [(1, 7)] /\ extract_blocks (B "x{:;a:}y:}") = Unmatched 8.
Proof. split; reflexivity. Qed.

(** ** C19 *)
Theorem C19_split_at_first_top_level_separator : forall l rest,
  wf_items false l -> Forall no_code l -> ~ ends_byte ">" (texts l) ->
  get_code_position (texts l ++ B ">>" ++ rest) = Some (length (texts l)).
Proof. exact code_position_split. Qed.
Print Assumptions C19_split_at_first_top_level_separator.
Theorem C19_no_separator_no_split : forall l,
  wf_items false l -> Forall no_code l -> get_code_position (texts l) = None.
Proof. exact code_position_none. Qed.
Print Assumptions C19_no_separator_no_split.
Theorem C19_split_is_at_a_separator : forall s p, get_code_position s = Some p -> occurs_at (B ">>") s p.
Proof. exact code_position_at. Qed.
Print Assumptions C19_split_is_at_a_separator.
Example C19_example : get_code_position (B "/{:code; a >> b :}/ >> c >> d") = Some 20 /\
  wf_items false ex_items /\ Forall no_code ex_items /\ ~ ends_byte ">" (texts ex_items).
Proof.
  split; [reflexivity|]. split; [exact (proj1 C16_example)|]. split.
  - repeat constructor; cbn; auto; apply find_none; reflexivity.
  - intros [r H]. apply (f_equal (@rev ascii)) in H. rewrite rev_app_distr in H. discriminate.
Qed.

(** ** C20 *)
Theorem C20_paths_resolve_stepwise : forall m name l v, name <> [] -> name_path name l ->
  (resolve_pointer (JObj m) name = Some v <-> reaches l (JObj m) v).
Proof. exact resolve_name. Qed.
Print Assumptions C20_paths_resolve_stepwise.
Theorem C20_every_name_has_components : forall name, exists l, name_path name l.
Proof. exact name_path_exists. Qed.
Print Assumptions C20_every_name_has_components.
Theorem C20_value_text : forall m name l, name <> [] -> name_path name l ->
  (forall s, reaches l (JObj m) (JStr s) -> get_from_key (JObj m) name = s) /\
  (forall n, reaches l (JObj m) (JNum n) -> number_text n (get_from_key (JObj m) name)) /\
  (forall b, reaches l (JObj m) (JBool b) -> get_from_key (JObj m) name = if b then B "true" else B "false") /\
  ((forall v, reaches l (JObj m) v -> v = JNull \/ is_obj v \/ exists x, v = JArr x) ->
     get_from_key (JObj m) name = []).
Proof.
  intros m name l H P. destruct (value_text m name l H P) as (H1 & H2 & H3 & H4). split; [exact H1|]. split; [|split; [exact H3|exact H4]].
  intros n R. rewrite (H2 n R). destruct n as [n|p|x g]; cbn [num_to_string number_text]; [apply dec_N_plain|apply dec_Z_plain|reflexivity].
Qed.
Print Assumptions C20_value_text.
Example C20_example :
  let m := [(B "a", JArr [JNull; JObj [(B "b", JStr (B "x"))]])] in
  name_path (B "a->1/b") [B "a"; B "1"; B "b"] /\ resolve_pointer (JObj m) (B "a->1/b") = Some (JStr (B "x")).
Proof.
  cbn zeta. split; [|reflexivity].
  assert (forall s, s <> [] -> find (B "->") s = None -> find (B "/") s = None -> name_path s [s]) as P.
  { intros s N H1 H2. apply np_plain; auto; apply find_none; assumption. }
  change (name_path (B "a" ++ B "->" ++ B "1" ++ B "/" ++ B "b") ([B "a"] ++ [B "1"] ++ [B "b"])).
  apply np_arrow; [apply P; try reflexivity; discriminate|].
  apply np_slash; apply P; try reflexivity; discriminate.
Qed.

(** ** C21 *)
Theorem C21_truth_tables : forall m name l, name <> [] -> name_path name l ->
  (is_defined_key (JObj m) name = true <-> exists v, reaches l (JObj m) v /\ v <> JNull) /\
  (is_array_key (JObj m) name = true <-> exists v, reaches l (JObj m) v /\ ((exists x, v = JArr x) \/ is_obj v)) /\
  (is_empty_key (JObj m) name = false <-> exists v, reaches l (JObj m) v /\ ~ empty_value v) /\
  (is_bool_key (JObj m) name = true <-> exists v, reaches l (JObj m) v /\ truthy v).
Proof.
  intros m name l H P. split; [exact (defined_spec m name l H P)|]. split; [exact (array_spec m name l H P)|].
  split; [exact (filled_spec m name l H P)|exact (bool_spec m name l H P)].
Qed.
Print Assumptions C21_truth_tables.
Theorem C21_decimal_strings : forall n,
  truthy (JStr (dec_N n)) <-> (0 < n)%N.
Proof. exact truthy_decimal. Qed.
Print Assumptions C21_decimal_strings.
Example C21_example : is_bool_key (JObj [(B "a", JStr (B "0.0"))]) (B "a") = false /\
  is_bool_key (JObj [(B "a", JStr (B "no"))]) (B "a") = true /\ truthy (JStr (B "no")).
Proof.
  split; [reflexivity|]. split; [reflexivity|]. repeat split; try discriminate. unfold non_positive_number.
  rewrite <- float_iff. discriminate.
Qed.

(** ** C55 *)
Theorem C55_remove_comments_exact : forall l, wf_top l -> remove_comments (ctexts l) = Some (outside l).
Proof. exact remove_comments_exact. Qed.
Print Assumptions C55_remove_comments_exact.
Example C55_example : wf_top [CText (B "a"); CNote [CText (B " x:} "); CNote [CText (B "y")]; CText (B "z")]; CText (B "{:;b:}")].
Proof.
  assert (forall s t, find s t = None -> ~ occurs s t) as F by exact find_none.
  assert (forall b p, (starts_with (B ":}") (ctexts b) = p -> p = false -> ~ exists r, ctexts b = B ":}" ++ r)) as S1.
  { intros b p <- H [r E]. rewrite E in H. cbn in H. discriminate. }
  assert (forall b, ends_with (B "{:") (ctexts b) = false -> ~ exists r, ctexts b = r ++ B "{:") as S2.
  { intros b H [r E]. rewrite <- not_true_iff_false, ends_with_iff in H. apply H. eauto. }
  assert (forall b, ~ is_text (CNote b)) as NN by (intros b [t H]; discriminate).
  repeat match goal with
  | |- wf_top [] => constructor
  | |- wf_top (CText _ :: _) => apply wt_text; [apply F; reflexivity|auto|]
  | |- wf_top (CNote _ :: _) => apply wt_note
  | |- wf_note (CNote _) => apply wn_note; [|eapply S1; reflexivity|apply S2; reflexivity]
  | |- wf_note (CText _) => apply wn_text; [discriminate|apply F; reflexivity|apply F; reflexivity]
  | |- wf_notes [] => constructor
  | |- wf_notes (_ :: _) => apply wns_cons
  | |- is_text (CNote _) -> _ => intros X; destruct (NN _ X)
  | |- is_text (CText _) -> _ => intros _; first [exact I | apply NN]
  end.
Qed.

(** ** C56 *)
(** what is left of a template, exactly: [uncommented] is the whole specification *)
Theorem C56_exact : forall s r, remove_comments s = r <-> uncommented s r.
Proof. intros s r. split; [intros <-; apply uncommented_exact|]. apply uncommented_det. apply uncommented_exact. Qed.
Print Assumptions C56_exact.
Example C56_example : uncommented (B "a {:* b {:* c *:} d *:} e {:* f :} g : h") (Some (B "a  h")).
Proof. apply C56_exact. vm_compute. reflexivity. Qed.

(** and exactly when it fails *)
Theorem C56_fails : forall s, remove_comments s = None <-> cut_short s.
Proof. intro s. split; [intro E; exact (fails_cut _ _ (uncommented_exact s) E)|intro H; exact (cut_fails _ _ (uncommented_exact s) H)]. Qed.
Print Assumptions C56_fails.
Example C56_cut : cut_short (B "a {:* b *:} {:* c {:* d *:} e:").
Proof. apply C56_fails. vm_compute. reflexivity. Qed.
Theorem C56_remove_comments_total_refuted : exists s, remove_comments s = None.
Proof. exists (B "{:* x :"). reflexivity. Qed.
Print Assumptions C56_remove_comments_total_refuted.

(** ** C59 *)
Theorem C59_contains_is_substring : forall needle hay, contains needle hay = true <-> occurs needle hay.
Proof. exact contains_iff. Qed.
Print Assumptions C59_contains_is_substring.
Theorem C59_replace : forall pat rep s, pat <> [] ->
  replaced pat rep s (replace pat rep s) /\ forall t, replaced pat rep s t -> t = replace pat rep s.
Proof.
  intros pat rep s H. split; [exact (replace_replaced pat rep s H)|].
  intros t R. exact (replaced_det pat rep s t H R _ (replace_replaced pat rep s H)).
Qed.
Print Assumptions C59_replace.
Example C59_example : replace (B "aa") (B "b") (B "aaaxaa") = B "baxb" /\ contains (B "xa") (B "aaaxaa") = true.
Proof. split; reflexivity. Qed.

(** ** C79 *)
(** What is a number, and which one: indices and seconds, counters and ranges, truth values and sums. *)
Theorem C79_natural : forall s n, parse_usize s = Some n <-> nat64 s n.
Proof. exact usize_iff. Qed.
Print Assumptions C79_natural.
Theorem C79_seconds : forall s n, parse_u64 s = Some n <-> nat64 s n.
Proof. exact u64_iff. Qed.
Print Assumptions C79_seconds.
Theorem C79_integer : forall s z, parse_i32 s = Some z <-> int32 s z.
Proof. exact i32_iff. Qed.
Print Assumptions C79_integer.
Theorem C79_float : forall s p, f64_gt0 s = Some p <-> float_text s p.
Proof. exact float_iff. Qed.
Print Assumptions C79_float.
(** what is written is read back *)
Theorem C79_written : (forall n, plain_decimal (dec_N n) n /\ ((n <= 2 ^ 64 - 1)%N -> nat64 (dec_N n) n)) /\
  (forall z, plain_integer (dec_Z z) z /\ ((- 2 ^ 31 <= z <= 2 ^ 31 - 1)%Z -> int32 (dec_Z z) z)) /\
  (forall s t n, plain_decimal s n -> plain_decimal t n -> s = t) /\ (forall s t z, plain_integer s z -> plain_integer t z -> s = t).
Proof.
  split; [|split; [|split; [exact plain_decimal_det|exact plain_integer_det]]]; intro x; (split; [exact (dec_N_plain x) || exact (dec_Z_plain x)|intro H]); [apply usize_iff, parse_usize_dec; exact H|apply i32_iff, parse_i32_dec; exact H].
Qed.
Print Assumptions C79_written.
(** a text is at most one number *)
Theorem C79_one_value : (forall s m n, nat64 s m -> nat64 s n -> m = n) /\ (forall s y z, int32 s y -> int32 s z -> y = z) /\
  (forall s p q, float_text s p -> float_text s q -> p = q).
Proof.
  repeat split; intros s x y H1 H2.
  - apply usize_iff in H1, H2. congruence.
  - apply i32_iff in H1, H2. congruence.
  - apply float_iff in H1, H2. congruence.
Qed.
Print Assumptions C79_one_value.
Example C79_example : nat64 (B "+07") 7 /\ ~ (exists n, nat64 (B "-1") n) /\ ~ (exists n, nat64 (B "18446744073709551616") n) /\
  int32 (B "-2147483648") (-2147483648) /\ ~ (exists z, int32 (B "2147483648") z) /\ ~ (exists z, int32 (B "-") z) /\
  float_text (B "1e-323") true /\ float_text (B "1e-324") false /\ float_text (B ".5") true /\ float_text (B "-.5") false /\
  float_text (B "+INF") true /\ float_text (B "NaN") false /\ ~ (exists p, float_text (B ".") p) /\ ~ (exists p, float_text (B "1e") p) /\
  ~ (exists p, float_text (B " 1") p).
Proof.
  repeat match goal with |- _ /\ _ => split end; try (intros [x H]; revert H); rewrite <- ?usize_iff, <- ?float_iff, <- ?i32_iff; vm_compute; try reflexivity; try discriminate.
Qed.
