(** * Property theorems: the script clean-cache *)

From Verif Require Import Bytes State Spec BytesFacts NumberProofs SpecEngine SpecDisk Samples PropertiesDisk CleanCache SpecClean.

(** ** C94 *)
Lemma hex_digit_iff c : hex_digit c = true <-> In c (B "0123456789abcdefABCDEF").
Proof.
  split.
  - destruct c as [[] [] [] [] [] [] [] []]; vm_compute; intros H; try discriminate H; tauto.
  - intros H. cbn in H. repeat (destruct H as [<-|H]; [reflexivity|]). destruct H.
Qed.
Lemma hexadecimal_iff s : forallb hex_digit s = true <-> hexadecimal s.
Proof.
  unfold hexadecimal. rewrite forallb_forall, Forall_forall. split; intros H c I; apply hex_digit_iff, H, I.
Qed.
Definition drop_last (c : ascii) : bytes -> bytes := fix go (r : bytes) := match r with x :: r' => if aeqb x c then go r' else r | [] => [] end.
Lemma made_rev c s : made_of c s -> made_of c (rev s).
Proof. apply Forall_rev. Qed.
Lemma drop_last_split c r : exists u, r = u ++ drop_last c r /\ made_of c u /\ forall x, drop_last c r <> c :: x.
Proof.
  induction r as [|x r IH]; [exists []; split; [reflexivity|]; split; [constructor|discriminate]|].
  cbn [drop_last]. destruct (aeqb x c) eqn:E.
  - apply aeqb_eq in E. subst x. destruct IH as (u & E & M & N). exists (c :: u). split; [cbn [app]; rewrite <- E; reflexivity|].
    split; [constructor; [reflexivity|exact M]|exact N].
  - exists []. split; [reflexivity|]. split; [constructor|]. intros y H. injection H as -> _. rewrite aeqb_refl in E. discriminate.
Qed.
Lemma drop_last_app c u r : made_of c u -> (forall x, r <> c :: x) -> drop_last c (u ++ r) = r.
Proof.
  intros M N. induction M as [|x u <- M IH]; cbn [app].
  - destruct r as [|x r]; [reflexivity|]. cbn [drop_last]. destruct (aeqb x c) eqn:E; [|reflexivity]. apply aeqb_eq in E. subst x. destruct (N r). reflexivity.
  - cbn [drop_last]. rewrite aeqb_refl. exact IH.
Qed.
Lemma strip_end_iff c s base : rev (drop_last c (rev s)) = base <->
  exists u, s = base ++ u /\ made_of c u /\ forall b, base <> b ++ [c].
Proof.
  split.
  - intros <-. destruct (drop_last_split c (rev s)) as (u & E & M & N). exists (rev u). split.
    + rewrite <- rev_app_distr, <- E, rev_involutive. reflexivity.
    + split; [apply made_rev; exact M|]. intros b E2. apply (N (rev b)). rewrite <- (rev_involutive (drop_last c (rev s))), E2, rev_app_distr. reflexivity.
  - intros (u & -> & M & N). rewrite rev_app_distr, drop_last_app; [apply rev_involutive|apply made_rev; exact M|].
    intros x E. apply (N (rev x)). rewrite <- (rev_involutive base), E. reflexivity.
Qed.
Lemma chomp_iff s n : chomp s = n <-> exists u, s = n ++ u /\ made_of "010" u /\ forall b, n <> b ++ ["010"%char].
Proof. apply (strip_end_iff "010"). Qed.
Lemma strip_slashes_iff s b : strip_slashes s = b <-> exists u, s = b ++ u /\ made_of "/" u /\ forall x, b <> x ++ ["/"%char].
Proof. apply (strip_end_iff "/"). Qed.

Lemma split_last_some s u v : split_last s = Some (u, v) <-> s = u ++ B "-" ++ v /\ ~ In "-"%char v.
Proof.
  revert u v. induction s as [|c s IH]; intros u v.
  - split; [discriminate|]. intros [E _]. destruct u; discriminate.
  - cbn [split_last]. destruct (split_last s) as [[u' v']|] eqn:E.
    + pose proof (proj1 (IH u' v') eq_refl) as [E1 E2]. split.
      * intros H. injection H as <- <-. split; [rewrite E1; reflexivity|exact E2].
      * intros [H N]. destruct u as [|x u].
        { injection H as -> ->. destruct N. rewrite E1. apply in_or_app. right. left. reflexivity. }
        injection H as <- H. assert (Some (u', v') = Some (u, v)) as K by (apply IH; split; assumption). injection K as -> ->. reflexivity.
    + destruct (aeqb c "-"%char) eqn:EC.
      * apply aeqb_eq in EC. subst c. split.
        { intros H. injection H as <- <-. split; [reflexivity|]. intros I. apply in_split in I as (a & b & I).
          enough (exists a' b', split_last s = Some (a', b')) as (a' & b' & K) by congruence.
          clear -I. subst s. induction a as [|x a IHa]; cbn [app split_last].
          - destruct (split_last b) as [[p q]|]; [eexists; eexists; reflexivity|]. rewrite aeqb_refl. eexists. eexists. reflexivity.
          - destruct IHa as (a' & b' & ->). eexists. eexists. reflexivity. }
        intros [H N]. destruct u as [|x u]; [injection H as ->; reflexivity|]. injection H as <- H.
        assert (@None (bytes * bytes) = Some (u, v)) as K by (apply IH; split; assumption). discriminate.
      * split; [discriminate|]. intros [H N]. destruct u as [|x u]; [injection H as -> _; rewrite aeqb_refl in EC; discriminate|].
        injection H as <- H. assert (@None (bytes * bytes) = Some (u, v)) as K by (apply IH; split; assumption). discriminate.
Qed.
Lemma digits_all acc s n : digits_val acc s = Some n -> forallb dec_digit s = true.
Proof.
  revert acc. induction s as [|c s IH]; intros acc H; [reflexivity|]. cbn in H |- *. unfold dec_digit. destruct (digit c); [|discriminate]. eapply IH. exact H.
Qed.
Lemma digits_some s : forallb dec_digit s = true -> forall acc, exists n, digits_val acc s = Some n.
Proof.
  induction s as [|c s IH]; intros H acc; [eexists; reflexivity|]. cbn in H |- *. apply andb_true_iff in H as [H1 H2]. unfold dec_digit in H1.
  destruct (digit c); [|discriminate]. apply IH. exact H2.
Qed.
Lemma dec_no_hyphen s : forallb dec_digit s = true -> ~ In "-"%char s.
Proof. intros H I. rewrite forallb_forall in H. apply H in I. discriminate. Qed.
Lemma expiration_iff name d : expiration name = Some d <-> exists n, entry_name name d n.
Proof.
  unfold expiration, entry_name. split.
  - destruct (split_last name) as [[h d']|] eqn:E; [|discriminate]. apply split_last_some in E as [E N].
    destruct (negb (is_empty h) && forallb hex_digit h && negb (is_empty d') && forallb dec_digit d') eqn:EB; [|discriminate].
    intros H. injection H as ->. apply andb_true_iff in EB as [EB E4]. apply andb_true_iff in EB as [EB E3]. apply andb_true_iff in EB as [E1 E2].
    destruct (digits_some _ E4 0%N) as [n En]. exists n, h. split; [exact E|]. split; [apply hexadecimal_iff; exact E2|].
    split; [intros ->; discriminate|]. assert (d <> []) as ND by (intros ->; discriminate). split; [|exact ND].
    apply (proj1 (digits1_iff d n)). destruct d; [contradiction|exact En].
  - intros (n & h & -> & H1 & H2 & H3 & H4). pose proof (proj2 (digits1_iff d n) (conj H3 H4)) as En.
    assert (forallb dec_digit d = true) as HD. { destruct d; [contradiction|]. exact (digits_all _ _ _ En). }
    rewrite (proj2 (split_last_some _ h d) (conj eq_refl (dec_no_hyphen _ HD))), HD. apply hexadecimal_iff in H1. rewrite H1.
    destruct h; [contradiction|]. destruct d; [contradiction|]. reflexivity.
Qed.
Lemma bash_plain d n : decimal d n -> d <> [] -> plain_seconds d n -> bash_number d = Some (Z.of_N n).
Proof.
  intros HD NE [HN HZ]. pose proof (proj2 (digits1_iff d n) (conj HD NE)) as En.
  assert (wrap64 (Z.of_N n) = Z.of_N n) as EW.
  { unfold wrap64. rewrite Z.mod_small; [lia|]. change (2 ^ 63)%N with 9223372036854775808%N in HN. change (2 ^ 63)%Z with 9223372036854775808%Z. change (2 ^ 64)%Z with 18446744073709551616%Z. lia. }
  unfold bash_number. destruct d as [|c [|c2 r]]; [contradiction|rewrite En; cbn [option_map]; rewrite EW; reflexivity|].
  destruct (aeqb c "0") eqn:E.
  - apply aeqb_eq in E. subst c. destruct HZ as [HZ|HZ]; [discriminate|]. destruct (HZ (c2 :: r)). reflexivity.
  - rewrite En. cbn [option_map]. rewrite EW. reflexivity.
Qed.

Lemma no_feed_end b x : forallb hex_digit b = true -> b <> x ++ ["010"%char].
Proof. intros H ->. rewrite forallb_app in H. apply andb_true_iff in H as [_ H]. discriminate. Qed.
Lemma name_no_feed_end h d x : forallb dec_digit d = true -> d <> [] -> h ++ B "-" ++ d <> x ++ ["010"%char].
Proof.
  intros H NE E. destruct (exists_last NE) as (d' & c & ->). rewrite !app_assoc in E. apply app_inj_tail in E as [_ ->].
  rewrite forallb_app in H. apply andb_true_iff in H as [_ H]. discriminate.
Qed.
Lemma hex_dir name : is_hex_3chars (chomp name) = true <->
  exists n u, name = n ++ u /\ made_of "010" u /\ hexadecimal n /\ length n = 3.
Proof.
  unfold is_hex_3chars. rewrite andb_true_iff. split.
  - intros [H1 H2]. destruct (proj1 (chomp_iff name _) eq_refl) as (u & E & M & _). exists (chomp name), u.
    split; [exact E|]. split; [exact M|]. split; [apply hexadecimal_iff; exact H2|apply Nat.eqb_eq; exact H1].
  - intros (n & u & E & M & H & L). apply hexadecimal_iff in H.
    assert (chomp name = n) as ->. { apply chomp_iff. exists u. split; [exact E|]. split; [exact M|]. intros b. apply no_feed_end. exact H. }
    rewrite L. split; [reflexivity|exact H].
Qed.
Lemma entry_expiration name d : expiration (chomp name) = Some d <->
  exists n nm u, name = nm ++ u /\ made_of "010" u /\ entry_name nm d n.
Proof.
  split.
  - intros H. apply expiration_iff in H as (n & H). destruct (proj1 (chomp_iff name _) eq_refl) as (u & E & M & _).
    exists n, (chomp name), u. split; [exact E|]. split; [exact M|exact H].
  - intros (n & nm & u & E & M & H). assert (chomp name = nm) as ->.
    { apply chomp_iff. exists u. split; [exact E|]. split; [exact M|]. destruct H as (h & -> & H1 & H2 & H3 & H4). intros b.
      apply name_no_feed_end; [|exact H4]. pose proof (proj2 (digits1_iff d n) (conj H3 H4)) as En.
      destruct d; [contradiction|]. exact (digits_all _ _ _ En). }
    apply expiration_iff. exists n. exact H.
Qed.

(** what one directory contributes *)
Lemma in_clean_dir w base name x : In x (clean_dir w base name) ->
  let dir := base ++ B "/" ++ name in
  w.(d_is_dir) dir = true /\ is_hex_3chars (chomp name) = true /\
  ((exists n, x = RmFile (dir ++ B "/" ++ n) /\ In n (w.(d_names) dir) /\ w.(d_is_file) (dir ++ B "/" ++ n) = true /\
     is_expired w (dir ++ B "/" ++ n) n = true /\ w.(d_rm) (dir ++ B "/" ++ n) = true) \/
   (x = RmDir dir /\ w.(d_hidden) dir = [] /\ forall n, In n (w.(d_names) dir) -> In (RmFile (dir ++ B "/" ++ n)) (clean_dir w base name))).
Proof.
  unfold clean_dir. intros H. destruct (d_is_dir w (base ++ B "/" ++ name) && is_hex_3chars (chomp name)) eqn:E; [|destruct H].
  apply andb_true_iff in E as [E1 E2]. split; [exact E1|]. split; [exact E2|]. apply in_app_or in H as [H|H].
  - left. apply in_map_iff in H as (n & <- & I). exists n. split; [reflexivity|]. apply filter_In in I as [I R]. unfold clean_files in I.
    apply filter_In in I as [I X]. apply andb_true_iff in X as [X1 X2]. repeat (split; [assumption|]). exact R.
  - right. destruct (is_empty (d_hidden w (base ++ B "/" ++ name)) && _) eqn:E3; [|destruct H]. destruct H as [<-|[]].
    apply andb_true_iff in E3 as [E3 E4]. split; [reflexivity|]. split; [destruct (d_hidden w (base ++ B "/" ++ name)); [reflexivity|discriminate]|].
    intros n I. rewrite forallb_forall in E4. apply E4 in I. apply existsb_exists in I as (m & I & Em). destruct (beq_spec n m) as [->|]; [|discriminate].
    apply in_or_app. left. apply in_map_iff. exists m. split; [reflexivity|exact I].
Qed.
Lemma clean_some w arg acts : clean_cache w arg = Some acts -> exists base slashes, arg = base ++ slashes /\ made_of "/" slashes /\
  (forall b, base <> b ++ B "/") /\ occurs (B "neutral-cache") base /\ acts = flat_map (clean_dir w base) (w.(d_names) base).
Proof.
  unfold clean_cache. intros H. destruct (contains (B "neutral-cache") (strip_slashes arg)) eqn:E; [|discriminate]. injection H as <-.
  destruct (proj1 (strip_slashes_iff arg _) eq_refl) as (u & EA & M & N). exists (strip_slashes arg), u.
  split; [exact EA|]. split; [exact M|]. split; [exact N|]. split; [apply contains_iff; exact E|reflexivity].
Qed.

(** Only entries of the cache are removed: regular files HASH-SECONDS in a directory of three hexadecimal digits of the
    cache that was named, whose name contains neutral-cache. *)
Theorem C94_only : forall w arg acts p, clean_cache w arg = Some acts -> In (RmFile p) acts ->
  (exists seconds n, in_cache arg p seconds n) /\ w.(d_is_file) p = true /\ w.(d_rm) p = true.
Proof.
  intros w arg acts p HC HI. apply clean_some in HC as (base & sl & HA & HS & HB & HO & ->).
  apply in_flat_map in HI as (dn & I1 & I2). apply in_clean_dir in I2 as (_ & H2 & [(n & E & I3 & F & X & R)|(E & _)]); [|discriminate E].
  injection E as ->. split; [|split; assumption]. unfold is_expired in X. destruct (expiration (chomp n)) as [d|] eqn:EX; [|discriminate].
  apply entry_expiration in EX as (k & nm & u & En & M & EN). exists d, k.
  apply hex_dir in H2 as (h & v & Eh & Mv & Hh & Lh). subst n dn.
  exists (base ++ B "/" ++ h ++ v), nm, u. split; [|split; [reflexivity|]; split; assumption].
  exists base, sl, h, v. repeat (split; [assumption || reflexivity|]). exact Lh.
Qed.
Print Assumptions C94_only.

(** A directory is removed only if it is one of these and everything in it was removed. *)
Theorem C94_directories : forall w arg acts p, clean_cache w arg = Some acts -> In (RmDir p) acts ->
  in_cache_dir arg p /\ w.(d_is_dir) p = true /\ forall n, holds w p n -> In (RmFile (p ++ B "/" ++ n)) acts.
Proof.
  intros w arg acts p HC HI. apply clean_some in HC as (base & sl & HA & HS & HB & HO & ->).
  apply in_flat_map in HI as (dn & I1 & I2). apply in_clean_dir in I2 as (H1 & H2 & [(n & E & _)|(E & HH & HN)]); [discriminate E|].
  injection E as ->. split; [|split; [exact H1|]].
  - apply hex_dir in H2 as (h & v & Eh & Mv & Hh & Lh). subst dn. exists base, sl, h, v. repeat (split; [assumption || reflexivity|]). exact Lh.
  - intros n [I|I]; [|exfalso; change (base ++ "/"%char :: dn) with (base ++ B "/" ++ dn) in I; rewrite HH in I; exact I]. apply in_flat_map. exists dn. split; [exact I1|]. apply HN. exact I.
Qed.
Print Assumptions C94_directories.

(** Without neutral-cache in the name of the directory nothing happens. *)
Theorem C94_refused : forall w arg, clean_cache w arg = None <->
  forall base slashes, arg = base ++ slashes -> made_of "/" slashes -> (forall b, base <> b ++ B "/") ->
    ~ occurs (B "neutral-cache") base.
Proof.
  intros w arg. unfold clean_cache. destruct (contains (B "neutral-cache") (strip_slashes arg)) eqn:E.
  - split; [discriminate|]. intros H. apply contains_iff in E. destruct (proj1 (strip_slashes_iff arg _) eq_refl) as (u & EA & M & N).
    destruct (H _ _ EA M N E).
  - split; [|reflexivity]. intros _ base sl HA HS HB HO. apply contains_iff in HO. assert (strip_slashes arg = base) as ES.
    { apply strip_slashes_iff. exists sl. repeat (split; [assumption|]). exact HB. }
    rewrite ES in E. congruence.
Qed.
Print Assumptions C94_refused.

Lemma slash_split (a b c d : bytes) : ~ In "/"%char b -> ~ In "/"%char d -> a ++ B "/" ++ b = c ++ B "/" ++ d -> a = c /\ b = d.
Proof.
  revert c. induction a as [|x a IH]; intros c Hb Hd E.
  - destruct c as [|y c]; [injection E as ->; split; reflexivity|]. injection E as <- ->. destruct Hb. apply in_or_app. right. left. reflexivity.
  - destruct c as [|y c]; [injection E as -> <-; destruct Hd; apply in_or_app; right; left; reflexivity|].
    injection E as <- E. apply IH in E as [-> ->]; [split; reflexivity|assumption..].
Qed.
Lemma base_unique arg b1 u1 b2 u2 : arg = b1 ++ u1 -> made_of "/" u1 -> (forall b, b1 <> b ++ B "/") ->
  arg = b2 ++ u2 -> made_of "/" u2 -> (forall b, b2 <> b ++ B "/") -> b1 = b2.
Proof.
  intros A1 M1 N1 A2 M2 N2. transitivity (strip_slashes arg); [symmetry|]; apply strip_slashes_iff; eauto.
Qed.

Lemma expired_iff w arg acts path seconds n : proper w -> clean_cache w arg = Some acts ->
  entry_at w arg path seconds n -> w.(d_rm) path = true ->
  (In (RmFile path) acts <-> exists z, bash_number seconds = Some z /\ (w.(d_mtime) path + z <= w.(d_clock) path)%Z).
Proof.
  intros HP HC (base & sl & d & f1 & nm & f2 & A1 & A2 & A3 & A4 & A5 & A6 & A7 & A8 & A9 & A10 & A11 & A12 & A13 & A14) HR.
  apply clean_some in HC as (base' & sl' & B1 & B2 & B3 & B4 & ->).
  rewrite <- (base_unique _ _ _ _ _ A1 A2 A3 B1 B2 B3). clear base' sl' B1 B2 B3 B4.
  assert (is_expired w path (nm ++ f2) = match bash_number seconds with Some z => (z <=? d_clock w path - d_mtime w path)%Z | None => false end) as EX.
  { unfold is_expired. rewrite (proj2 (entry_expiration (nm ++ f2) seconds)); [reflexivity|].
    exists n, nm, f2. split; [reflexivity|]. split; assumption. }
  split.
  - intros HI. apply in_flat_map in HI as (dn & I1 & I2). apply in_clean_dir in I2 as (_ & H2 & [(m & E & I3 & F & X & R)|(E & _)]); [|discriminate E].
    assert (path = (base ++ B "/" ++ dn) ++ B "/" ++ m) as E0 by (injection E; intros K; exact K). rewrite <- E0 in X. rewrite A13 in E0.
    apply slash_split in E0 as [E1 E2]; [|exact (HP _ _ A10)|exact (HP _ _ I3)]. subst m.
    rewrite EX in X. destruct (bash_number seconds) as [z|]; [|discriminate]. exists z. split; [reflexivity|]. apply Z.leb_le in X. lia.
  - intros (z & EZ & HT). rewrite EZ in EX. apply in_flat_map. exists (d ++ f1). split; [exact A5|]. unfold clean_dir. rewrite A6, (proj2 (hex_dir (d ++ f1))).
    2:{ exists d, f1. split; [reflexivity|]. split; [exact A9|]. split; assumption. }
    cbn [andb]. apply in_or_app. left. apply in_map_iff. exists (nm ++ f2). split; [rewrite A13; reflexivity|].
    apply filter_In. rewrite <- A13. split; [|exact HR]. unfold clean_files. apply filter_In. split; [exact A10|].
    rewrite <- A13, A14, EX. cbn [andb]. apply Z.leb_le. lia.
Qed.
Lemma entry_decimal w arg path sec n : entry_at w arg path sec n -> decimal sec n /\ sec <> [].
Proof. intros (base & sl & d & f1 & nm & f2 & _ & _ & _ & _ & _ & _ & _ & _ & _ & _ & (h & _ & _ & _ & D1 & D2) & _). split; assumption. Qed.

(** An entry is removed exactly when its seconds have passed, if its seconds are plain (and it can be removed at all). *)
Theorem C94_expired : forall w arg acts path seconds n, proper w -> clean_cache w arg = Some acts ->
  entry_at w arg path seconds n -> plain_seconds seconds n -> w.(d_rm) path = true ->
  (In (RmFile path) acts <-> (w.(d_mtime) path + Z.of_N n <= w.(d_clock) path)%Z).
Proof.
  intros w arg acts path sec n HP HC HE HS HR. rewrite (expired_iff w arg acts path sec n HP HC HE HR).
  destruct (entry_decimal _ _ _ _ _ HE) as [D1 D2]. rewrite (bash_plain sec n D1 D2 HS). split; [|eauto].
  intros (z & E & H). injection E as <-. exact H.
Qed.
Print Assumptions C94_expired.

(** Seconds with a leading zero are octal: an entry of "0300" is removed after 192 seconds, and one with a digit 8 or 9 never. *)
Lemma octal_val_app acc s c : octal_val acc (s ++ [c]) = match octal_val acc s with
  | Some n => match digit c with Some d => if (d <? 8)%N then Some (n * 8 + d)%N else None | None => None end | None => None end.
Proof.
  revert acc. induction s as [|x s IH]; intros acc; cbn [app octal_val]; [reflexivity|]. destruct (digit x) as [d|]; [|reflexivity].
  destruct (d <? 8)%N; [apply IH|reflexivity].
Qed.
Lemma octal_value s n : octal s n -> octal_val 0 s = Some n.
Proof.
  induction 1 as [|s n d _ IH HD]; [reflexivity|]. rewrite octal_val_app, IH.
  assert (digit (ascii_of_N (48 + d)) = Some d) as ->.
  { assert (d = 0 \/ d = 1 \/ d = 2 \/ d = 3 \/ d = 4 \/ d = 5 \/ d = 6 \/ d = 7)%N as K by lia. destruct K as [->|[->|[->|[->|[->|[->|[->| ->]]]]]]]; reflexivity. }
  rewrite (proj2 (N.ltb_lt d 8) HD). f_equal. lia.
Qed.
Lemma octal_none acc s : In "8"%char s \/ In "9"%char s -> octal_val acc s = None.
Proof.
  revert acc. induction s as [|x s IH]; intros acc; [intros [[]|[]]|]. intros H. cbn [octal_val].
  assert (x = "8"%char \/ x = "9"%char \/ (In "8"%char s \/ In "9"%char s)) as [-> |[-> |K]] by (cbn [In] in H; intuition); [reflexivity..|].
  destruct (digit x) as [d|]; [|reflexivity]. destruct (d <? 8)%N; [apply IH; exact K|reflexivity].
Qed.
Theorem C94_leading_zero : forall w arg acts path seconds n, proper w -> clean_cache w arg = Some acts ->
  entry_at w arg path (B "0" ++ seconds) n -> seconds <> [] -> w.(d_rm) path = true ->
  (In "8"%char seconds \/ In "9"%char seconds -> ~ In (RmFile path) acts) /\
  (forall m, octal seconds m -> (m < 2 ^ 63)%N -> (In (RmFile path) acts <-> (w.(d_mtime) path + Z.of_N m <= w.(d_clock) path)%Z)).
Proof.
  intros w arg acts path sec n HP HC HE HN HR. pose proof (expired_iff w arg acts path _ n HP HC HE HR) as HX.
  assert (bash_number (B "0" ++ sec) = option_map (fun n => wrap64 (Z.of_N n)) (octal_val 0 sec)) as EB by (destruct sec; [contradiction|reflexivity]).
  rewrite EB in HX. split.
  - intros H. rewrite (octal_none 0 sec H) in HX. rewrite HX. intros (z & E & _). discriminate.
  - intros m HO HM. rewrite (octal_value _ _ HO) in HX. cbn [option_map] in HX. rewrite HX.
    assert (wrap64 (Z.of_N m) = Z.of_N m) as ->.
    { unfold wrap64. rewrite Z.mod_small; [lia|]. change (2 ^ 63)%N with 9223372036854775808%N in HM. change (2 ^ 63)%Z with 9223372036854775808%Z. change (2 ^ 64)%Z with 18446744073709551616%Z. lia. }
    split; [|eauto]. intros (z & E & H). injection E as <-. exact H.
Qed.
Print Assumptions C94_leading_zero.
Example C94_leading_zero_example : octal (B "300") 192 /\ octal (B "17") 15.
Proof.
  split.
  - apply (oct_digit (B "30") 24 0); [|reflexivity]. apply (oct_digit (B "3") 3 0); [|reflexivity]. apply (oct_digit [] 0 3); [constructor|reflexivity].
  - apply (oct_digit (B "1") 1 7); [|reflexivity]. apply (oct_digit [] 0 1); [constructor|reflexivity].
Qed.

(** An entry that is removed would not have been served any more, except in the very second in which it expires: if after the
    cleaning the engine still finds an entry of this age fresh, it is exactly that second. *)
Theorem C94_harmless : forall w arg acts path expires n env D time s s' c m, proper w -> clean_cache w arg = Some acts ->
  entry_at w arg path expires n -> plain_seconds expires n -> In (RmFile path) acts ->
  lives_on env D time -> D (EvNow (present env s path) :: EvExists path true :: strace s) path = Some (c, m) -> w.(d_mtime) path = Z.of_N m ->
  (w.(d_clock) path <= Z.of_N (present env s path))%Z ->
  fresh env s path expires s' -> present env s path = (m + n)%N.
Proof.
  intros w arg acts path ex n env D time s s' c m HP HC HE HS HI HL HD HM HT HF.
  destruct (C94_only _ _ _ _ HC HI) as (_ & _ & HR).
  apply (C94_expired _ _ _ _ _ _ HP HC HE HS HR) in HI.
  destruct HF as [t F1 F2 F3 F4]. unfold written_at in F2.
  destruct (lo_file _ _ _ HL _ _ _ _ HD) as (_ & _ & EM). unfold present in EM. rewrite EM in F2. injection F2 as <-.
  assert (seconds ex = n) as ES.
  { destruct HE as (base & sl & d & f1 & nm & f2 & _ & _ & _ & _ & _ & _ & _ & _ & _ & _ & (h & _ & _ & _ & D1 & D2) & _).
    unfold seconds, parse_u64. rewrite (proj2 (unsigned_iff u64_max ex n)); [reflexivity|].
    exists [], ex. split; [left; reflexivity|]. split; [reflexivity|]. split; [exact D1|]. split; [exact D2|].
    destruct HS as [HS _]. unfold u64_max. change (2 ^ 63)%N with 9223372036854775808%N in HS. lia. }
  rewrite ES in F4. lia.
Qed.
Print Assumptions C94_harmless.

(** The entries that the engine makes are entries for the script, if their expiration is written in digits. *)
Theorem C94_entries : forall env s key expires n, hexadecimal (e_sha256 env key) -> 3 <= length (e_sha256 env key) ->
  decimal expires n -> expires <> [] -> cache_prefix (cfg s) <> [] -> (forall b, cache_prefix (cfg s) <> b ++ B "/") ->
  occurs (B "neutral-cache") (cache_dir (cfg s) ++ B "/" ++ cache_prefix (cfg s)) ->
  in_cache (cache_dir (cfg s) ++ B "/" ++ cache_prefix (cfg s)) (entry_file env s key expires) expires n.
Proof.
  intros env s key ex n HH HL HD HE HP HB HO. exists (entry_dir env s key), (e_sha256 env key ++ B "-" ++ ex), [].
  split; [|split; [unfold entry_file; rewrite app_nil_r; reflexivity|split; [constructor|]]].
  - exists (cache_dir (cfg s) ++ B "/" ++ cache_prefix (cfg s)), [], (firstn 3 (e_sha256 env key)), [].
    split; [rewrite app_nil_r; reflexivity|]. split; [constructor|]. split.
    { intros b E. destruct (exists_last HP) as (q & x & EQ). rewrite EQ in E. rewrite !app_assoc in E. apply app_inj_tail in E as [_ ->].
      apply (HB q). exact EQ. }
    split; [exact HO|]. split. { unfold entry_dir. destruct (cache_prefix (cfg s)); [contradiction|]. rewrite app_nil_r, <- !app_assoc. reflexivity. }
    split; [constructor|]. split; [|apply firstn_length_le; exact HL].
    unfold hexadecimal in *. rewrite <- (firstn_skipn 3 (e_sha256 env key)) in HH. apply Forall_app in HH as [HH _]. exact HH.
  - exists (e_sha256 env key). split; [reflexivity|]. split; [exact HH|]. split; [|split; assumption]. intros E. rewrite E in HL. cbn in HL. lia.
Qed.
Print Assumptions C94_entries.

(** An entry whose expiration is written with a sign, which the engine accepts, is never removed. *)
Theorem C94_signed_kept : forall w arg acts p s, clean_cache w arg = Some acts -> ~ In "-"%char s -> ~ In (RmFile (p ++ B "-+" ++ s)) acts.
Proof.
  intros w arg acts p s HC HS HI. destruct (C94_only _ _ _ _ HC HI) as ((d & n & dir & nm & u & _ & E & M & h & -> & _ & _ & D & _) & _).
  pose proof (decimal_digits _ _ D) as F.
  assert (~ In "-"%char (d ++ u)) as N1.
  { intros I. apply in_app_or in I as [I|I].
    - rewrite Forall_forall in F. apply F in I. destruct I as (k & K). discriminate.
    - unfold made_of in M. rewrite Forall_forall in M. apply M in I. discriminate. }
  assert (~ In "-"%char (B "+" ++ s)) as N2 by (intros [I|I]; [discriminate|contradiction]).
  assert (split_last (p ++ B "-" ++ B "+" ++ s) = Some (p, B "+" ++ s)) as S2 by (apply split_last_some; split; [reflexivity|exact N2]).
  assert (split_last (p ++ B "-" ++ B "+" ++ s) = Some (dir ++ B "/" ++ h, d ++ u)) as S1.
  { apply split_last_some. split; [|exact N1]. change (p ++ B "-" ++ B "+" ++ s) with (p ++ B "-+" ++ s). rewrite E, <- !app_assoc. reflexivity. }
  rewrite S1 in S2. injection S2 as _ E2. destruct d as [|c d].
  - destruct u as [|c u]; [discriminate|]. apply Forall_inv in M. injection E2 as E2 _. congruence.
  - apply Forall_inv in F. injection E2 as -> _. destruct F as (k & K). discriminate.
Qed.
Print Assumptions C94_signed_kept.

(** one directory with one entry, examined at the second [now] *)
Definition dirs (name : string) (mtime now : Z) : Dirs :=
  mkDirs (fun d => if beq d (B "/tmp/neutral-cache") then [B "abc"; B "other"] else if beq d (B "/tmp/neutral-cache/abc") then [B name] else [B "f"])
    (fun _ => []) (fun d => beq d (B "/tmp/neutral-cache/abc") || beq d (B "/tmp/neutral-cache/other"))
    (fun f => beq f (B "/tmp/neutral-cache/abc/" ++ B name) || beq f (B "/tmp/neutral-cache/other/f"))
    (fun _ => mtime) (fun _ => now) (fun _ => true).
Lemma dirs_proper name m t : ~ In "/"%char (B name) -> proper (dirs name m t).
Proof.
  intros H dir n. cbn [dirs d_names]. destruct (beq dir (B "/tmp/neutral-cache")); [|destruct (beq dir (B "/tmp/neutral-cache/abc"))];
  intros I J; repeat (destruct I as [<-|I]; [first [contradiction|vm_compute in J; repeat (destruct J as [J|J]; [discriminate|]); exact J]|]); destruct I.
Qed.
Lemma dirs_entry sec m t n : decimal (B sec) n -> B sec <> [] ->
  entry_at (dirs ("abcdef-" ++ sec) m t) (B "/tmp/neutral-cache/") (B "/tmp/neutral-cache/abc/abcdef-" ++ B sec) (B sec) n.
Proof.
  intros HD HN.
  assert (B ("abcdef-" ++ sec) = B "abcdef-" ++ B sec) as EB by reflexivity.
  exists (B "/tmp/neutral-cache"), (B "/"), (B "abc"), [], (B "abcdef-" ++ B sec), [].
  split; [reflexivity|]. split; [repeat constructor|]. split.
  { intros b E. change (B "/tmp/neutral-cache") with (B "/tmp/neutral-cach" ++ ["e"%char]) in E. apply app_inj_tail in E as [_ E]. discriminate. }
  split; [exists (B "/tmp/"), []; reflexivity|]. split; [left; reflexivity|]. split; [reflexivity|]. split; [apply hexadecimal_iff; reflexivity|].
  split; [reflexivity|]. split; [constructor|]. split; [left; rewrite app_nil_r; exact EB|].
  split. { exists (B "abcdef"). split; [reflexivity|]. split; [apply hexadecimal_iff; reflexivity|]. split; [discriminate|]. split; assumption. }
  split; [constructor|]. split; [rewrite !app_nil_r; reflexivity|].
  cbn [dirs d_is_file]. apply orb_true_iff. left. rewrite EB. apply beq_refl.
Qed.
(** An entry of a minute is removed after a minute, with its directory; before that it stays. *)
Example C94_example :
  clean_cache (dirs "abcdef-60" 1000 1060) (B "/tmp/neutral-cache/") =
    Some [RmFile (B "/tmp/neutral-cache/abc/abcdef-60"); RmDir (B "/tmp/neutral-cache/abc")] /\
  clean_cache (dirs "abcdef-60" 1000 1059) (B "/tmp/neutral-cache/") = Some [] /\
  clean_cache (dirs "abcdef-+60" 1000 9000) (B "/tmp/neutral-cache/") = Some [] /\
  clean_cache (dirs "abcdef-60" 1000 1060) (B "/tmp/") = None /\
  proper (dirs "abcdef-60" 1000 1060) /\
  entry_at (dirs "abcdef-60" 1000 1060) (B "/tmp/neutral-cache/") (B "/tmp/neutral-cache/abc/abcdef-60") (B "60") 60 /\ plain_seconds (B "60") 60.
Proof.
  repeat (split; [vm_compute; reflexivity|]). split; [apply dirs_proper; vm_compute; intuition discriminate|]. split.
  - apply (dirs_entry "60"); [|discriminate]. apply (proj1 (digits1_iff (B "60") 60)). reflexivity.
  - split; [reflexivity|]. right. discriminate.
Qed.
(** That an entry is not removed while it would be served is false: bash takes 0300 for an octal number. *)
Theorem C94_octal_refuted : exists w arg acts path expires n env D time s s' c m,
  clean_cache w arg = Some acts /\ entry_at w arg path expires n /\ In (RmFile path) acts /\
  lives_on env D time /\ D (EvNow (present env s path) :: EvExists path true :: strace s) path = Some (c, m) /\ w.(d_mtime) path = Z.of_N m /\
  (w.(d_clock) path <= Z.of_N (present env s path))%Z /\ fresh env s path expires s' /\ (present env s path < m + n)%N.
Proof.
  set (path := B "/tmp/neutral-cache/abc/abcdef-0300").
  set (d0 := store_file path (B "x", 0%N) (fun _ => None)).
  exists (dirs "abcdef-0300" 0 200), (B "/tmp/neutral-cache/"), [RmFile path; RmDir (B "/tmp/neutral-cache/abc")], path, (B "0300"), 300%N,
    (env_from 200 d0), (disk_from 200 d0), (fun t => (200 + N.of_nat (length t))%N), (fst (start_of "")),
    (dated (env_from 200 d0) (fst (start_of "")) path), (B "x"), 0%N.
  split; [vm_compute; reflexivity|]. split.
  { apply dirs_entry; [|discriminate]. apply (proj1 (digits1_iff (B "0300") 300)). reflexivity. }
  split; [left; reflexivity|]. split; [apply env_from_lives|]. split; [vm_compute; reflexivity|]. split; [reflexivity|].
  split; [vm_compute; discriminate|]. split; [|vm_compute; reflexivity].
  apply (fr_fresh _ _ _ _ 0%N); vm_compute; reflexivity || discriminate.
Qed.
Print Assumptions C94_octal_refuted.

(** a world on a disk, with hashes in hexadecimal digits *)
Definition hex_env (n0 : N) (d0 : disk) : Env :=
  let env := env_from n0 d0 in
  mkEnv env.(e_md5) (fun _ => B "abcdef") env.(e_lower) env.(e_from_str) env.(e_to_string) env.(e_to_pretty) env.(e_fadd) env.(e_parent) env.(e_date)
    env.(e_cwd) env.(e_tmp) env.(e_exists) env.(e_is_file) env.(e_canon) env.(e_read) env.(e_read_err) env.(e_mkdir) env.(e_create) env.(e_write)
    env.(e_mtime) env.(e_age) env.(e_now) env.(e_local_now) env.(e_rand) env.(e_rand_bytes) env.(e_python) env.(e_php).
Lemma hex_env_lives n0 d0 : lives_on (hex_env n0 d0) (disk_from n0 d0) (fun t => (n0 + N.of_nat (length t))%N).
Proof. destruct (env_from_lives n0 d0) as [H1 H2 H3 H4]. split; assumption. Qed.
Definition entry_hex : bytes := B "/tmp/neutral-cache/abc/abcdef-60".
(** the same world, but the files are removed by somebody else as soon as the age of a file has been asked *)
Definition asked_age (t : trace) : bool := existsb (fun e => match e with EvMtime _ _ => true | _ => false end) t.
Definition swept (env : Env) : Env :=
  mkEnv env.(e_md5) env.(e_sha256) env.(e_lower) env.(e_from_str) env.(e_to_string) env.(e_to_pretty) env.(e_fadd) env.(e_parent) env.(e_date)
    env.(e_cwd) env.(e_tmp) (fun t p => negb (asked_age t) && env.(e_exists) t p) (fun t p => negb (asked_age t) && env.(e_is_file) t p) env.(e_canon)
    (fun t p => if asked_age t then None else env.(e_read) t p) env.(e_read_err) env.(e_mkdir) env.(e_create) env.(e_write)
    (fun t p => if asked_age t then None else env.(e_mtime) t p) env.(e_age) env.(e_now) env.(e_local_now) env.(e_rand) env.(e_rand_bytes)
    env.(e_python) env.(e_php).
(** That removing an old entry never spoils a page is false while a render is under way: it finds the entry, in the second in
    which it expires, the script removes it, and of a block without bifs nothing is output.  (A block with bifs is evaluated.) *)
Definition plain_cached : string := "{:cache; /60/ >> plain :}".
Theorem C94_race_refuted : exists w acts env D time, lives_on env D time /\
  clean_cache w (B "/tmp/neutral-cache") = Some acts /\ In (RmFile entry_hex) acts /\
  (w.(d_clock) entry_hex <= Z.of_N (present env (fst (start_of plain_cached)) entry_hex))%Z /\
  output_in env plain_cached = B "plain" /\ output_in (swept env) plain_cached = [] /\
  exists n m l, trace_in (swept env) plain_cached = [EvExists entry_hex true; EvNow n; EvMtime entry_hex m; EvRead entry_hex None; EvLocalNow l].
Proof.
  set (d1 := store_file entry_hex (B "plain", 1%N) (fun _ => None) : disk).
  exists (dirs "abcdef-60" 1 61), [RmFile entry_hex; RmDir (B "/tmp/neutral-cache/abc")], (hex_env 60 d1), (disk_from 60 d1), (fun t => (60 + N.of_nat (length t))%N).
  split; [apply hex_env_lives|]. split; [vm_compute; reflexivity|]. split; [left; reflexivity|]. split; [vm_compute; discriminate|].
  split; [vm_compute; reflexivity|]. split; [vm_compute; reflexivity|]. do 3 eexists. vm_compute. reflexivity.
Qed.
Print Assumptions C94_race_refuted.
