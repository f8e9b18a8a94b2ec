(** * The reader and the printers of JSON against the grammar (C98) *)
From Verif Require Import Bytes Json Utils Spec SpecParts BytesFacts NumberProofs WordProofs JsonText SpecJson.

Section proofs.
Context (fl : bytes -> option (bytes * bool)).

(** ** White space *)
Lemma is_space_iff c : is_space c = true <-> In c [" "; "009"; "010"; "013"]%char.
Proof.
  unfold is_space. rewrite !orb_true_iff, !aeqb_eq. cbn [In]. split; intros; repeat match goal with H : _ \/ _ |- _ => destruct H end; subst; tauto.
Qed.
Lemma skip_space_app w s : space w -> skip_space (w ++ s) = skip_space s.
Proof. induction 1 as [|c w Hc Hw IH]; [reflexivity|]. cbn [app skip_space]. apply is_space_iff in Hc. rewrite Hc. exact IH. Qed.
Lemma skip_space_stop c s : is_space c = false -> skip_space (c :: s) = c :: s.
Proof. cbn. intros ->. reflexivity. Qed.
Lemma skip_space_parts s : exists w, space w /\ s = w ++ skip_space s /\ match skip_space s with [] => True | c :: _ => is_space c = false end.
Proof.
  induction s as [|c s (w & H1 & H2 & H3)]; [exists []; repeat split; constructor|]. cbn [skip_space].
  destruct (is_space c) eqn:E; [|exists []; rewrite E; repeat split; constructor].
  exists (c :: w). split; [constructor; [apply is_space_iff; exact E|exact H1]|]. split; [cbn; congruence|exact H3].
Qed.
Lemma space_app w w' : space w -> space w' -> space (w ++ w').
Proof. intros. apply Forall_app. split; assumption. Qed.

(** ** Strings *)
Lemma hex_val_iff c n : hex_val c = Some n <-> hex_value c n.
Proof.
  unfold hex_val, hex_value. split.
  - destruct ((48 <=? N_of_ascii c)%N && (N_of_ascii c <=? 57)%N) eqn:E1.
    { apply andb_prop in E1 as [A C]. apply N.leb_le in A, C. intro H. injection H as <-. left. split; [lia|].
      replace (48 + (N_of_ascii c - 48))%N with (N_of_ascii c) by lia. symmetry. apply ascii_N_embedding. }
    destruct ((97 <=? N_of_ascii c)%N && (N_of_ascii c <=? 102)%N) eqn:E2.
    { apply andb_prop in E2 as [A C]. apply N.leb_le in A, C. intro H. injection H as <-. right. split; [lia|]. left.
      replace (87 + (N_of_ascii c - 87))%N with (N_of_ascii c) by lia. symmetry. apply ascii_N_embedding. }
    destruct ((65 <=? N_of_ascii c)%N && (N_of_ascii c <=? 70)%N) eqn:E3; [|discriminate].
    { apply andb_prop in E3 as [A C]. apply N.leb_le in A, C. intro H. injection H as <-. right. split; [lia|]. right.
      replace (55 + (N_of_ascii c - 55))%N with (N_of_ascii c) by lia. symmetry. apply ascii_N_embedding. }
  - assert (forall k, (k < 16)%N -> N_of_ascii (ascii_of_N (48 + k)) = (48 + k)%N /\ N_of_ascii (ascii_of_N (87 + k)) = (87 + k)%N /\ N_of_ascii (ascii_of_N (55 + k)) = (55 + k)%N) as K.
    { intros k Hk. rewrite !N_ascii_embedding by lia. tauto. }
    intros [[H ->]|[H [->| ->]]]; destruct (K n ltac:(lia)) as (K1 & K2 & K3); rewrite ?K1, ?K2, ?K3.
    + assert ((48 <=? 48 + n)%N = true) as -> by (apply N.leb_le; lia). assert ((48 + n <=? 57)%N = true) as -> by (apply N.leb_le; lia). cbn [andb]. f_equal. lia.
    + assert ((87 + n <=? 57)%N = false) as -> by (apply N.leb_gt; lia). rewrite andb_false_r.
      assert ((97 <=? 87 + n)%N = true) as -> by (apply N.leb_le; lia). assert ((87 + n <=? 102)%N = true) as -> by (apply N.leb_le; lia). cbn [andb]. f_equal. lia.
    + assert ((55 + n <=? 57)%N = false) as -> by (apply N.leb_gt; lia). rewrite andb_false_r.
      assert ((97 <=? 55 + n)%N = false) as -> by (apply N.leb_gt; lia). cbn [andb].
      assert ((65 <=? 55 + n)%N = true) as -> by (apply N.leb_le; lia). assert ((55 + n <=? 70)%N = true) as -> by (apply N.leb_le; lia). cbn [andb]. f_equal. lia.
Qed.
Lemma hex4_iff a b c d n : hex4 a b c d = Some n <-> hex_text [a; b; c; d] n.
Proof.
  unfold hex4. split.
  - destruct (hex_val a) as [w|] eqn:E1; [|discriminate]. destruct (hex_val b) as [x|] eqn:E2; [|discriminate].
    destruct (hex_val c) as [y|] eqn:E3; [|discriminate]. destruct (hex_val d) as [z|] eqn:E4; [|discriminate].
    intro H. injection H as <-. replace (w * 4096 + x * 256 + y * 16 + z)%N with (((w * 16 + x) * 16 + y) * 16 + z)%N by lia.
    constructor; apply hex_val_iff; assumption.
  - inversion 1 as [a' b' c' d' w x y z H1 H2 H3 H4]; subst. apply hex_val_iff in H1, H2, H3, H4. rewrite H1, H2, H3, H4. f_equal. lia.
Qed.
Lemma hex_text_parts h n : hex_text h n -> exists a b c d, h = [a; b; c; d] /\ hex4 a b c d = Some n /\ (n < 65536)%N.
Proof.
  intro H. inversion H as [a b c d w x y z H1 H2 H3 H4]; subst. exists a, b, c, d. split; [reflexivity|]. split; [apply hex4_iff; exact H|].
  unfold hex_value in *. lia.
Qed.
Lemma dm64 a b : (b < 64)%N -> ((a * 64 + b) / 64 = a /\ (a * 64 + b) mod 64 = b)%N.
Proof.
  intro H. split; [rewrite N.div_add_l, (N.div_small b) by lia; lia|]. rewrite (N.add_comm (a * 64) b), N.mod_add, N.mod_small by lia. reflexivity.
Qed.
Lemma utf8_iff n : (n < 1114112)%N -> forall x, encoded n x <-> x = utf8 n.
Proof.
  intros HN x. unfold utf8. split.
  - inversion 1 as [k Hk|a b Ha Hb|a b c Ha Hb Hc Hg|a b c d Ha Hb Hc Hd Hg]; subst.
    + apply N.ltb_lt in Hk. rewrite Hk. reflexivity.
    + assert ((a * 64 + b <? 128)%N = false) as -> by (apply N.ltb_ge; lia). assert ((a * 64 + b <? 2048)%N = true) as -> by (apply N.ltb_lt; lia).
      destruct (dm64 a b Hb) as [-> ->]. reflexivity.
    + assert (((a * 64 + b) * 64 + c <? 128)%N = false) as -> by (apply N.ltb_ge; lia). assert (((a * 64 + b) * 64 + c <? 2048)%N = false) as -> by (apply N.ltb_ge; lia).
      assert (((a * 64 + b) * 64 + c <? 65536)%N = true) as -> by (apply N.ltb_lt; lia).
      replace 4096%N with (64 * 64)%N by reflexivity. rewrite <- N.div_div by lia.
      destruct (dm64 (a * 64 + b) c Hc) as [-> ->]. destruct (dm64 a b Hb) as [-> ->]. reflexivity.
    + set (v := (((a * 64 + b) * 64 + c) * 64 + d)%N) in *.
      assert ((v <? 128)%N = false) as -> by (apply N.ltb_ge; lia). assert ((v <? 2048)%N = false) as -> by (apply N.ltb_ge; lia). assert ((v <? 65536)%N = false) as -> by (apply N.ltb_ge; lia).
      replace 262144%N with (64 * 64 * 64)%N by reflexivity. replace 4096%N with (64 * 64)%N by reflexivity. rewrite <- !N.div_div by lia.
      unfold v. destruct (dm64 ((a * 64 + b) * 64 + c) d Hd) as [-> ->]. destruct (dm64 (a * 64 + b) c Hc) as [-> ->]. destruct (dm64 a b Hb) as [-> ->]. reflexivity.
  - intros ->. destruct (N.ltb_spec n 128) as [L1|L1]; [constructor; exact L1|].
    assert (forall k, exists q r, (k = q * 64 + r /\ r < 64 /\ k / 64 = q /\ k mod 64 = r)%N) as DM.
    { intro k. exists (k / 64)%N, (k mod 64)%N. split; [rewrite N.mul_comm; apply N.div_mod; lia|]. split; [apply N.mod_lt; lia|]. split; reflexivity. }
    replace 262144%N with (64 * 64 * 64)%N by reflexivity. replace 4096%N with (64 * 64)%N by reflexivity. rewrite <- !N.div_div by lia.
    destruct (DM n) as (q1 & r1 & E1 & R1 & -> & ->). destruct (DM q1) as (q2 & r2 & E2 & R2 & -> & ->). destruct (DM q2) as (q3 & r3 & E3 & R3 & -> & ->).
    destruct (N.ltb_spec n 2048) as [L2|L2]; [rewrite E1; constructor; lia|].
    destruct (N.ltb_spec n 65536) as [L3|L3]; [rewrite E1, E2; constructor; lia|].
    rewrite E1, E2, E3. constructor; lia.
Qed.
Lemma pair_in e x (l : list (ascii * ascii)) : NoDup (map fst l) -> (In (e, x) l <-> option_map snd (List.find (fun p => aeqb e (fst p)) l) = Some x).
Proof.
  induction l as [|[a b] l IH]; cbn [map fst snd In List.find option_map]; intro ND; [split; [intros []|discriminate]|].
  inversion ND as [|? ? NI ND']; subst. destruct (aeqb e a) eqn:E.
  - apply aeqb_eq in E. subst a. cbn [option_map snd]. split; [intros [H|H]; [congruence|destruct NI; change e with (fst (e, x)); apply in_map; exact H]|left; congruence].
  - rewrite <- (IH ND'). split; [intros [H|H]; [|exact H]|tauto]. injection H as <- _. rewrite aeqb_refl in E. discriminate E.
Qed.
Lemma simple_escape_iff e x : simple_escape e = Some x <-> In (e, x) short_escapes.
Proof.
  rewrite pair_in.
  - unfold simple_escape, short_escapes, quote, bslash. cbn [List.find fst].
    repeat match goal with |- context [aeqb e ?c] => destruct (aeqb e c); [reflexivity|] end. reflexivity.
  - repeat constructor; cbn; intuition discriminate.
Qed.

Lemma prefixed_some x r s t : prefixed x r = Some (s, t) -> exists s', r = Some (s', t) /\ s = x ++ s'.
Proof. destruct r as [[a b]|]; cbn; [|discriminate]. intro H. injection H as <- <-. exists a. split; reflexivity. Qed.

Lemma read_string_sound n : forall s x r, length s <= n -> read_string s = Some (x, r) -> exists t, s = t ++ quote :: r /\ jchars t x.
Proof.
  induction n as [|n IH]; intros s x r HL H; (destruct s as [|c s]; [discriminate H|]); [cbn in HL; lia|]. cbn [read_string] in H.
  destruct (aeqb c quote) eqn:E1; [apply aeqb_eq in E1; subst c; injection H as <- <-; exists []; split; [reflexivity|constructor]|].
  destruct (aeqb c bslash) eqn:E2.
  - apply aeqb_eq in E2. subst c. destruct s as [|e s]; [discriminate H|]. destruct (simple_escape e) as [y|] eqn:E3.
    + apply prefixed_some in H as (s' & H & ->). apply IH in H as (t & -> & HJ); [|cbn in HL; lia].
      exists (bslash :: e :: t). split; [reflexivity|]. apply simple_escape_iff in E3. apply (jc_short e y t s' E3 HJ).
    + destruct (aeqb e "u"%char) eqn:E4; [apply aeqb_eq in E4; subst e|discriminate H].
      destruct s as [|h1 [|h2 [|h3 [|h4 s]]]]; try discriminate H. destruct (hex4 h1 h2 h3 h4) as [m|] eqn:E5; [|discriminate H].
      apply hex4_iff in E5. pose proof E5 as E5'. apply hex_text_parts in E5' as (_ & _ & _ & _ & _ & _ & HM).
      destruct (low_surrogate m) eqn:EL; [discriminate H|]. destruct (high_surrogate m) eqn:EH.
      * destruct s as [|b [|u [|k1 [|k2 [|k3 [|k4 s]]]]]]; try discriminate H.
        destruct (aeqb b bslash && aeqb u "u"%char) eqn:E6; [|discriminate H]. apply andb_prop in E6 as [E6 E7]. apply aeqb_eq in E6, E7. subst b u.
        destruct (hex4 k1 k2 k3 k4) as [m'|] eqn:E8; [|discriminate H]. apply hex4_iff in E8.
        destruct (low_surrogate m') eqn:EL'; [|discriminate H].
        apply prefixed_some in H as (s' & H & ->). apply IH in H as (t & -> & HJ); [|cbn in HL; lia].
        unfold high_surrogate in EH. apply andb_prop in EH as [H1 H2]. apply N.leb_le in H1, H2.
        unfold low_surrogate in EL'. apply andb_prop in EL' as [H3 H4]. apply N.leb_le in H3, H4.
        exists (B "\u" ++ [h1; h2; h3; h4] ++ B "\u" ++ [k1; k2; k3; k4] ++ t). split; [reflexivity|].
        apply (jc_pair [h1; h2; h3; h4] (m - 55296) [k1; k2; k3; k4] (m' - 56320)); try lia; try exact HJ.
        -- replace (55296 + (m - 55296))%N with m by lia. exact E5.
        -- replace (56320 + (m' - 56320))%N with m' by lia. exact E8.
        -- apply utf8_iff; [lia|]. reflexivity.
      * apply prefixed_some in H as (s' & H & ->). apply IH in H as (t & -> & HJ); [|cbn in HL; lia].
        exists (B "\u" ++ [h1; h2; h3; h4] ++ t). split; [reflexivity|]. apply (jc_code _ m); try assumption.
        -- intro R. unfold low_surrogate, high_surrogate in *. apply andb_false_iff in EL, EH. rewrite !N.leb_gt in EL, EH. lia.
        -- apply utf8_iff; [lia|]. reflexivity.
  - destruct (N_of_ascii c <? 32)%N eqn:E3; [discriminate H|]. apply prefixed_some in H as (s' & H & ->). apply IH in H as (t & -> & HJ); [|cbn in HL; lia].
    exists (c :: t). split; [reflexivity|]. apply N.ltb_ge in E3. apply jc_plain; try assumption.
    + intros ->. discriminate E1.
    + intros ->. discriminate E2.
Qed.
Lemma read_string_complete t x r : jchars t x -> read_string (t ++ quote :: r) = Some (x, r).
Proof.
  induction 1 as [|c t s H1 H2 H3 _ IH|e y t s HE _ IH|h n y t s HH HN HY _ IH|h n h' m y t s HH Hn HH' Hm HY _ IH].
  - reflexivity.
  - cbn [app read_string]. assert (aeqb c quote = false) as -> by (destruct (aeqb c quote) eqn:E; [apply aeqb_eq in E; destruct (H1 E)|reflexivity]).
    assert (aeqb c bslash = false) as -> by (destruct (aeqb c bslash) eqn:E; [apply aeqb_eq in E; destruct (H2 E)|reflexivity]).
    apply N.ltb_ge in H3. rewrite H3, IH. reflexivity.
  - cbn [app read_string]. change (aeqb "092" quote) with false. change (aeqb "092" bslash) with true. cbv iota.
    apply simple_escape_iff in HE. rewrite HE, IH. reflexivity.
  - apply hex_text_parts in HH as (a & b & c & d & -> & HH & HL). cbn [app B list_ascii_of_string read_string].
    change (aeqb "\" quote) with false. change (aeqb "\" bslash) with true. cbv iota. change (simple_escape "u") with (@None ascii). cbv iota.
    change (aeqb "u" "u") with true. cbv iota. rewrite HH.
    assert (low_surrogate n = false) as -> by (unfold low_surrogate; apply andb_false_iff; rewrite !N.leb_gt; lia).
    assert (high_surrogate n = false) as -> by (unfold high_surrogate; apply andb_false_iff; rewrite !N.leb_gt; lia).
    rewrite IH. apply utf8_iff in HY; [|lia]. subst y. reflexivity.
  - apply hex_text_parts in HH as (a & b & c & d & -> & HH & HL). apply hex_text_parts in HH' as (a' & b' & c' & d' & -> & HH' & HL'). cbn [app B list_ascii_of_string read_string].
    change (aeqb "\" quote) with false. change (aeqb "\" bslash) with true. cbv iota. change (simple_escape "u") with (@None ascii). cbv iota.
    change (aeqb "u" "u") with true. cbv iota. rewrite HH.
    assert (low_surrogate (55296 + n) = false) as -> by (unfold low_surrogate; apply andb_false_iff; rewrite !N.leb_gt; lia).
    assert (high_surrogate (55296 + n) = true) as -> by (unfold high_surrogate; apply andb_true_iff; rewrite !N.leb_le; lia).
    cbn [andb]. rewrite HH'. assert (low_surrogate (56320 + m) = true) as -> by (unfold low_surrogate; apply andb_true_iff; rewrite !N.leb_le; lia).
    rewrite IH. apply utf8_iff in HY; [|lia]. subst y. unfold pair_value.
    replace (65536 + (55296 + n - 55296) * 1024 + (56320 + m - 56320))%N with (65536 + n * 1024 + m)%N by lia. reflexivity.
Qed.

(** ** Numbers *)
Definition stops (r : bytes) : Prop := forall c r', r = c :: r' -> digit c = None /\ c <> "."%char /\ c <> "e"%char /\ c <> "E"%char.
Lemma read_digits_sound s d r : read_digits s = Some (d, r) -> s = d ++ r /\ some_digits d.
Proof.
  unfold read_digits. pose proof (take_digits_parts s) as (H1 & H2 & _). destruct (take_digits s) as [x y]. cbn [fst snd] in *.
  destruct x as [|a x]; [discriminate|]. intro H. injection H as <- <-. split; [exact H1|]. split; [discriminate|]. apply digits_have_value. exact H2.
Qed.
Lemma read_digits_complete d r : some_digits d -> (forall c r', r = c :: r' -> digit c = None) -> read_digits (d ++ r) = Some (d, r).
Proof.
  intros [HN [n HD]] HR. unfold read_digits. rewrite (take_digits_app d r (decimal_digits _ _ HD) HR). destruct d; [congruence|reflexivity].
Qed.
Lemma read_fraction_sound s f r : read_fraction s = Some (f, r) -> s = f ++ r /\ fraction f.
Proof.
  destruct s as [|c s]; cbn [read_fraction]; [intro H; injection H as <- <-; split; [reflexivity|left; reflexivity]|].
  destruct (aeqb c ".") eqn:E; [|intro H; injection H as <- <-; split; [reflexivity|left; reflexivity]].
  apply aeqb_eq in E. subst c. intro H. apply prefixed_some in H as (d & H & ->). apply read_digits_sound in H as [-> H].
  split; [reflexivity|]. right. exists d. split; [reflexivity|exact H].
Qed.
Lemma read_fraction_complete f r : fraction f -> (forall c r', r = c :: r' -> digit c = None /\ c <> "."%char) -> read_fraction (f ++ r) = Some (f, r).
Proof.
  intros [->|(d & -> & HD)] HR.
  - cbn [app]. destruct r as [|c r]; [reflexivity|]. cbn [read_fraction]. destruct (HR c r eq_refl) as [_ HN]. apply aeqb_neq in HN. rewrite HN. reflexivity.
  - cbn [app B list_ascii_of_string read_fraction]. change (aeqb "." ".") with true. cbv iota.
    rewrite read_digits_complete; [reflexivity|exact HD|]. intros c r' E. apply (HR c r' E).
Qed.
Lemma read_exponent_sound s e r : read_exponent s = Some (e, r) -> s = e ++ r /\ exponent_part e.
Proof.
  destruct s as [|c s]; cbn [read_exponent]; [intro H; injection H as <- <-; split; [reflexivity|left; reflexivity]|].
  destruct (aeqb c "e" || aeqb c "E") eqn:E; [|intro H; injection H as <- <-; split; [reflexivity|left; reflexivity]].
  assert ([c] = B "e" \/ [c] = B "E") as HC by (apply orb_prop in E as [E|E]; apply aeqb_eq in E; subst c; tauto).
  destruct s as [|g s]; [discriminate|]. destruct (aeqb g plus_sign || aeqb g minus_sign) eqn:EG; intro H.
  - apply prefixed_some in H as (d & H & ->). apply read_digits_sound in H as [-> H]. split; [reflexivity|]. right. exists [c], [g], d.
    split; [reflexivity|]. split; [exact HC|]. split; [|exact H]. right. apply orb_prop in EG as [EG|EG]; apply aeqb_eq in EG; subst g; [left|right]; reflexivity.
  - apply prefixed_some in H as (d & H & ->). apply read_digits_sound in H as [H1 H]. split; [cbn; congruence|]. right. exists [c], [], d.
    split; [reflexivity|]. split; [exact HC|]. split; [left; reflexivity|exact H].
Qed.
Lemma digits_head d : some_digits d -> exists c d', d = c :: d' /\ aeqb c plus_sign = false /\ aeqb c minus_sign = false /\ exists k, digit c = Some k.
Proof.
  intros [HN [n HD]]. apply decimal_digits in HD. destruct d as [|c d]; [congruence|]. apply Forall_inv in HD. exists c, d. split; [reflexivity|].
  destruct (digit_not_sign _ HD) as [H1 H2]. split; [exact H1|]. split; [exact H2|exact HD].
Qed.
Lemma read_exponent_complete e r : exponent_part e -> stops r -> read_exponent (e ++ r) = Some (e, r).
Proof.
  intros [->|(c & g & d & -> & HC & HG & HD)] HR.
  - cbn [app]. destruct r as [|c r]; [reflexivity|]. cbn [read_exponent]. destruct (HR c r eq_refl) as (_ & _ & H1 & H2). apply aeqb_neq in H1, H2. rewrite H1, H2. reflexivity.
  - assert (exists a, c = [a] /\ aeqb a "e" || aeqb a "E" = true) as (a & -> & Ea) by (destruct HC as [->| ->]; eexists; split; reflexivity).
    assert (read_digits (d ++ r) = Some (d, r)) as RD by (apply read_digits_complete; [exact HD|intros x y E; apply (HR x y E)]).
    cbn [app read_exponent]. rewrite Ea. destruct HG as [->|[->| ->]]; cbn [app B list_ascii_of_string].
    + destruct (digits_head d HD) as (x & d' & -> & P1 & P2 & _). cbn [app] in *. rewrite P1, P2. cbn [orb]. rewrite RD. reflexivity.
    + change (aeqb "+" plus_sign || aeqb "+" minus_sign) with true. cbv iota. rewrite RD. reflexivity.
    + change (aeqb "-" plus_sign || aeqb "-" minus_sign) with true. cbv iota. rewrite RD. reflexivity.
Qed.
Lemma plain_leading i n : plain_decimal i n -> some_digits i /\ leading_zero i = false.
Proof.
  intros (HD & HN & HZ). split; [split; [exact HN|exists n; exact HD]|]. destruct i as [|z [|y i]]; try reflexivity. cbn. apply aeqb_neq. intros ->.
  destruct HZ as [HZ|HZ]; [discriminate HZ|exact (HZ (y :: i) eq_refl)].
Qed.
Lemma leading_plain i : some_digits i -> leading_zero i = false -> exists n, plain_decimal i n /\ digits_val 0 i = Some n.
Proof.
  intros [HN [n HD]] HL. exists n. split; [|apply decimal_val; exact HD]. split; [exact HD|]. split; [exact HN|].
  destruct i as [|z [|y i]]; [congruence| |].
  - destruct (ascii_dec z "0"%char) as [->|NE]; [left; reflexivity|right]. intros r E. injection E as -> _. congruence.
  - right. intros r E. injection E as -> _. discriminate HL.
Qed.
Definition minus_if (neg : bool) : bytes := if neg then [minus_sign] else [].
Definition token_value (neg : bool) (i f e : bytes) : option num :=
  if is_empty f && is_empty e then read_integer fl neg i else read_float fl (minus_if neg ++ i ++ f ++ e).
Lemma read_number_sound0 s n r : read_number fl s = Some (n, r) -> exists neg i m f e, s = minus_if neg ++ i ++ f ++ e ++ r /\
  plain_decimal i m /\ digits_val 0 i = Some m /\ fraction f /\ exponent_part e /\ token_value neg i f e = Some n.
Proof.
  unfold read_number.
  assert (exists neg s1, (match s with c :: r => if aeqb c minus_sign then (true, r) else (false, s) | [] => (false, s) end) = (neg, s1) /\ s = minus_if neg ++ s1) as (neg & s1 & -> & ->).
  { destruct s as [|c s]; [exists false, []; split; reflexivity|]. destruct (aeqb c minus_sign) eqn:E; [apply aeqb_eq in E; subst c; exists true, s; split; reflexivity|exists false, (c :: s); split; reflexivity]. }
  destruct (read_digits s1) as [[i s2]|] eqn:E1; [|discriminate]. apply read_digits_sound in E1 as [-> HI].
  destruct (leading_zero i) eqn:EL; [discriminate|]. destruct (read_fraction s2) as [[f s3]|] eqn:E2; [|discriminate]. apply read_fraction_sound in E2 as [-> HF].
  destruct (read_exponent s3) as [[e s4]|] eqn:E3; [|discriminate]. apply read_exponent_sound in E3 as [-> HE].
  destruct (leading_plain i HI EL) as (m & HP & HV). intro H. exists neg, i, m, f, e.
  fold (minus_if neg) in H. fold (token_value neg i f e) in H. destruct (token_value neg i f e) as [x|]; [|discriminate]. injection H as <- <-.
  repeat match goal with |- _ /\ _ => split end; try assumption; try reflexivity.
Qed.
Lemma frac_head f e r : fraction f -> exponent_part e -> stops r -> forall c r', f ++ e ++ r = c :: r' -> digit c = None.
Proof.
  intros HF HE HR c r' E. destruct HF as [->|(d & -> & _)]; [|injection E as <- _; reflexivity].
  destruct HE as [->|(x & g & d & -> & [->| ->] & _)]; [apply (HR c r' E)|injection E as <- _; reflexivity|injection E as <- _; reflexivity].
Qed.
Lemma exp_head e r : exponent_part e -> stops r -> forall c r', e ++ r = c :: r' -> digit c = None /\ c <> "."%char.
Proof.
  intros HE HR c r' E.
  destruct HE as [->|(x & g & d & -> & [->| ->] & _)]; [split; apply (HR c r' E)|injection E as <- _; split; [reflexivity|discriminate]|injection E as <- _; split; [reflexivity|discriminate]].
Qed.
Lemma read_number_scan neg i m f e r : plain_decimal i m -> fraction f -> exponent_part e -> stops r ->
  read_number fl (minus_if neg ++ i ++ f ++ e ++ r) = match token_value neg i f e with Some n => Some (n, r) | None => None end.
Proof.
  intros HI HF HE HR. destruct (plain_leading i m HI) as [HD HL]. unfold read_number.
  assert ((match minus_if neg ++ i ++ f ++ e ++ r with c :: r0 => if aeqb c minus_sign then (true, r0) else (false, minus_if neg ++ i ++ f ++ e ++ r) | [] => (false, minus_if neg ++ i ++ f ++ e ++ r) end) = (neg, i ++ f ++ e ++ r)) as ->.
  { destruct neg; [reflexivity|]. cbn [minus_if app]. destruct (digits_head i HD) as (c & i' & -> & _ & P & _). cbn [app]. rewrite P. reflexivity. }
  rewrite read_digits_complete; [|exact HD|apply frac_head; assumption]. rewrite HL.
  rewrite read_fraction_complete; [|exact HF|apply exp_head; assumption]. rewrite read_exponent_complete by assumption. reflexivity.
Qed.
Lemma plain_val i m : plain_decimal i m -> digits_val 0 i = Some m.
Proof. intros [H _]. apply decimal_val. exact H. Qed.
Lemma plain_value_det i m m' : plain_decimal i m -> plain_decimal i m' -> m = m'.
Proof. intros H H'. apply plain_val in H, H'. congruence. Qed.
Lemma u64_pow n : (n <= u64_max)%N <-> (n < 2 ^ 64)%N.
Proof. change (2 ^ 64)%N with (N.succ u64_max). rewrite N.lt_succ_r. tauto. Qed.
Lemma i64_pow n : (n <= i64_low)%N <-> (n <= 2 ^ 63)%N.
Proof. change (2 ^ 63)%N with i64_low. tauto. Qed.
Lemma plain_no_minus i m : plain_decimal i m -> forall r, i <> minus_sign :: r.
Proof. intros H r ->. destruct (plain_leading _ _ H) as [HD _]. destruct (digits_head _ HD) as (c & d & E & _ & P & _). injection E as <- _. discriminate P. Qed.
Lemma integer_iff neg i m n : plain_decimal i m -> (integer_token (minus_if neg ++ i) n <->
  if neg then exists p, m = Npos p /\ n = NNeg p /\ (m <= 2 ^ 63)%N else n = NPos m /\ (m < 2 ^ 64)%N).
Proof.
  intro HI. split.
  - intro H. inversion H as [t k HK HL E1 E2|t p HK HL E1 E2]; subst.
    + destruct neg; [destruct (plain_no_minus _ _ HK _ eq_refl)|]. rewrite (plain_value_det _ _ _ HI HK). split; [reflexivity|exact HL].
    + destruct neg; cbn in E1.
      * injection E1 as ->. exists p. pose proof (plain_value_det _ _ _ HI HK) as ->. split; [reflexivity|]. split; [reflexivity|exact HL].
      * destruct (plain_no_minus _ _ HI t). symmetry. exact E1.
  - destruct neg; [intros (p & -> & -> & HL); apply it_neg; assumption|intros [-> HL]; apply it_pos; assumption].
Qed.
Lemma read_integer_iff neg i m n : plain_decimal i m -> (read_integer fl neg i = Some n <->
  integer_token (minus_if neg ++ i) n \/ (forall k, ~ integer_token (minus_if neg ++ i) k) /\ exists x g, fl (minus_if neg ++ i) = Some (x, g) /\ n = NFloat x g).
Proof.
  intro HI. unfold read_integer. rewrite (plain_val _ _ HI).
  assert (forall t, read_float fl t = Some n <-> exists x g, fl t = Some (x, g) /\ n = NFloat x g) as RF.
  { intro t. unfold read_float. destruct (fl t) as [[x g]|]; [split; [intro H; injection H as <-; eauto|intros (x' & g' & E & ->); congruence]|split; [discriminate|intros (? & ? & E & _); discriminate E]]. }
  assert (forall P Q R : Prop, ~ P -> Q -> ((exists x g, fl (minus_if neg ++ i) = Some (x, g) /\ n = NFloat x g) <-> P \/ Q /\ exists x g, fl (minus_if neg ++ i) = Some (x, g) /\ n = NFloat x g)) as TT by (intros; tauto).
  destruct neg; cbn [minus_if app] in *.
  - destruct m as [|p].
    + rewrite RF. apply TT; [exact True|..].
      * intro H. apply (integer_iff true i 0 n HI) in H as (p & E & _). discriminate E.
      * intros k H. apply (integer_iff true i 0 k HI) in H as (p & E & _). discriminate E.
    + destruct (N.leb_spec (N.pos p) i64_low) as [L|L].
      * apply i64_pow in L. split.
        -- intro H. injection H as <-. left. apply (integer_iff true i (N.pos p)); [exact HI|]. exists p. tauto.
        -- intros [H|[H _]].
           ++ apply (integer_iff true i (N.pos p) n HI) in H as (q & E & -> & _). congruence.
           ++ destruct (H (NNeg p)). apply (integer_iff true i (N.pos p)); [exact HI|]. exists p. tauto.
      * rewrite RF. apply TT; [exact True|..].
        -- intro H. apply (integer_iff true i _ n HI) in H as (q & _ & _ & E). apply i64_pow in E. lia.
        -- intros k H. apply (integer_iff true i _ k HI) in H as (q & _ & _ & E). apply i64_pow in E. lia.
  - destruct (N.leb_spec m u64_max) as [L|L].
    + apply u64_pow in L. split.
      * intro H. injection H as <-. left. apply (integer_iff false i m); [exact HI|]. tauto.
      * intros [H|[H _]]; [apply (integer_iff false i m n HI) in H as [-> _]; reflexivity|]. destruct (H (NPos m)). apply (integer_iff false i m); [exact HI|]. tauto.
    + rewrite RF. apply TT; [exact True|..].
      * intro H. apply (integer_iff false i _ n HI) in H as [_ E]. apply u64_pow in E. lia.
      * intros k H. apply (integer_iff false i _ k HI) in H as [_ E]. apply u64_pow in E. lia.
Qed.
(** a token with a fraction or an exponent is no integer *)
Lemma long_token neg i m f e : plain_decimal i m -> fraction f -> exponent_part e -> is_empty f && is_empty e = false ->
  forall n, ~ integer_token (minus_if neg ++ i ++ f ++ e) n.
Proof.
  intros HI HF HE HN n H.
  assert (exists k t, plain_decimal t k /\ i ++ f ++ e = t) as (k & t & HT & E).
  { inversion H as [t k HK HL E1 E2|t p HK HL E1 E2]; subst.
    - destruct neg; [destruct (plain_no_minus _ _ HK _ eq_refl)|]. exists k, (i ++ f ++ e). split; [exact HK|reflexivity].
    - destruct neg; cbn in E1.
      + injection E1 as E1. exists (N.pos p), t. split; [exact HK|]. symmetry. exact E1.
      + destruct (plain_leading _ _ HI) as [HD _]. destruct (digits_head _ HD) as (c & d & -> & _ & P & _). cbn in E1. injection E1 as <- _. discriminate P. }
  destruct HT as [HT _]. apply decimal_digits in HT. subst t. apply Forall_app in HT as [_ HT]. apply Forall_app in HT as [H1 H2].
  destruct HF as [->|(d & -> & _)]; [|apply Forall_inv in H1 as [q Q]; discriminate Q].
  destruct HE as [->|(x & g & d & -> & [->| ->] & _)]; [discriminate HN|apply Forall_inv in H2 as [q Q]; discriminate Q|apply Forall_inv in H2 as [q Q]; discriminate Q].
Qed.
Lemma token_of neg i m f e : plain_decimal i m -> fraction f -> exponent_part e -> number_token (minus_if neg ++ i ++ f ++ e).
Proof. intros HI HF HE. exists (minus_if neg), i, m, f, e. split; [reflexivity|]. split; [destruct neg; [right|left]; reflexivity|]. split; [exact HI|]. split; assumption. Qed.
Lemma token_value_iff neg i m f e n : plain_decimal i m -> fraction f -> exponent_part e ->
  (token_value neg i f e = Some n <-> jnumber fl (minus_if neg ++ i ++ f ++ e) n).
Proof.
  intros HI HF HE. pose proof (token_of neg i m f e HI HF HE) as HT. unfold token_value. destruct (is_empty f && is_empty e) eqn:EE.
  - apply andb_prop in EE as [E1 E2]. destruct f; [|discriminate E1]. destruct e; [|discriminate E2]. cbn [app] in *. rewrite app_nil_r in *.
    rewrite (read_integer_iff neg i m n HI). split.
    + intros [H|[H (x & g & E & ->)]]; [apply jn_integer; exact H|apply jn_float; assumption].
    + intro H. inversion H as [t k HK|t x g H1 H2 H3]; subst; [left; exact HK|right; split; [exact H2|eauto]].
  - pose proof (long_token neg i m f e HI HF HE EE) as NI. unfold read_float. split.
    + destruct (fl (minus_if neg ++ i ++ f ++ e)) as [[x g]|] eqn:E; [|discriminate]. intro H. injection H as <-. apply jn_float; assumption.
    + intro H. inversion H as [t k HK|t x g H1 H2 H3]; subst; [destruct (NI _ HK)|]. rewrite H3. reflexivity.
Qed.
Lemma integer_is_token t n : integer_token t n -> number_token t.
Proof.
  destruct 1 as [t n H _|t p H _].
  - rewrite <- (app_nil_r t). exact (token_of false t n [] [] H (or_introl eq_refl) (or_introl eq_refl)).
  - rewrite <- (app_nil_r t). exact (token_of true t (N.pos p) [] [] H (or_introl eq_refl) (or_introl eq_refl)).
Qed.
Lemma jnumber_token t n : jnumber fl t n -> number_token t.
Proof. destruct 1; [eapply integer_is_token; eassumption|assumption]. Qed.
Lemma read_number_sound s n r : read_number fl s = Some (n, r) -> exists t, s = t ++ r /\ jnumber fl t n.
Proof.
  intro H. apply read_number_sound0 in H as (neg & i & m & f & e & -> & HI & _ & HF & HE & HV).
  exists (minus_if neg ++ i ++ f ++ e). split; [rewrite <- !app_assoc; reflexivity|]. apply (token_value_iff neg i m f e n HI HF HE). exact HV.
Qed.
Lemma read_number_complete t n r : jnumber fl t n -> stops r -> read_number fl (t ++ r) = Some (n, r).
Proof.
  intros HN HR. pose proof (jnumber_token _ _ HN) as (g & i & m & f & e & -> & HG & HI & HF & HE).
  assert (exists neg, g = minus_if neg) as [neg ->] by (destruct HG as [->| ->]; [exists false|exists true]; reflexivity).
  apply (token_value_iff neg i m f e n HI HF HE) in HN. rewrite <- !app_assoc. rewrite (read_number_scan neg i m f e r HI HF HE HR), HN. reflexivity.
Qed.
Lemma token_head t : number_token t -> exists c t', t = c :: t' /\ (c = minus_sign \/ exists k, digit c = Some k).
Proof.
  intros (g & i & m & f & e & -> & HG & HI & _). destruct (plain_leading _ _ HI) as [HD _]. destruct (digits_head _ HD) as (c & d & -> & _ & _ & P).
  destruct HG as [->| ->]; [exists c; eexists; split; [reflexivity|right; exact P]|exists minus_sign; eexists; split; [reflexivity|left; reflexivity]].
Qed.
End proofs.
Scheme jvalue_m := Minimality for jvalue Sort Prop with jelement_m := Minimality for jelement Sort Prop
  with jelements_m := Minimality for jelements Sort Prop with jmember_m := Minimality for jmember Sort Prop
  with jmembers_m := Minimality for jmembers Sort Prop.
Combined Scheme json_mutind from jvalue_m, jelement_m, jelements_m, jmember_m, jmembers_m.

Section values.
Context (fl : bytes -> option (bytes * bool)).
Notation ins := (fun (m : obj) (kv : bytes * json) => oset (fst kv) (snd kv) m).
Lemma element_more d t v w : jelement fl d t v -> space w -> jelement fl d (t ++ w) v.
Proof. intros H HW. destruct H as [d w0 t w1 v H1 H2 H3]. rewrite <- !app_assoc. apply jt_element; [assumption|assumption|apply space_app; assumption]. Qed.
Lemma member_more d t kv w : jmember fl d t kv -> space w -> jmember fl d (t ++ w) kv.
Proof. intros H HW. destruct H as [d w0 t w1 u k v H1 H2 H3 H4]. rewrite <- !app_assoc. apply jt_member; try assumption. apply element_more; assumption. Qed.
Lemma elements_more d t l w : jelements fl d t l -> space w -> jelements fl d (t ++ w) l.
Proof.
  intros H HW. induction H as [d t v H|d t v u l H H' IH]; [apply je_one; apply element_more; assumption|]. rewrite <- !app_assoc. apply je_more; [exact H|apply IH].
Qed.
Lemma bare_element d t v : jvalue fl d t v -> jelement fl d t v.
Proof. intro H. rewrite <- (app_nil_r t). apply (jt_element fl d [] t []); [constructor|exact H|constructor]. Qed.

Lemma read_sound f :
  (forall d s v r, read_value fl f d s = Some (v, r) -> exists w t, s = w ++ t ++ r /\ space w /\ jvalue fl d t v) /\
  (forall d s l r, read_elements fl f d s = Some (l, r) -> exists t, s = t ++ B "]" ++ r /\
     (l = [] /\ space t \/ exists w u, t = w ++ B "," ++ u /\ space w /\ jelements fl d u l)) /\
  (forall d s k v r, read_member fl f d s = Some (k, v, r) -> exists t, s = t ++ r /\ jmember fl d t (k, v)) /\
  (forall d s m0 m r, read_members fl f d s m0 = Some (m, r) -> exists t l, s = t ++ B "}" ++ r /\ m = fold_left ins l m0 /\
     (l = [] /\ space t \/ exists w u, t = w ++ B "," ++ u /\ space w /\ jmembers fl d u l)).
Proof.
  induction f as [|f (IV & IE & IM & IMS)]; [repeat split; intros; discriminate|].
  split; [|split; [|split]].
  - intros d s v r H. cbn [read_value] in H. destruct (skip_space_parts s) as (w & HW & ES & _). destruct (skip_space s) as [|c s1]; [discriminate H|].
    exists w. rewrite ES.
    assert (forall t, c :: s1 = t ++ r -> jvalue fl d t v -> exists t0, w ++ c :: s1 = w ++ t0 ++ r /\ space w /\ jvalue fl d t0 v) as FIN.
    { intros t E HJ. exists t. rewrite E. split; [reflexivity|]. split; assumption. }
    destruct (aeqb c quote) eqn:E1.
    { apply aeqb_eq in E1. subst c. destruct (read_string s1) as [[x r']|] eqn:ER; [|discriminate H]. injection H as <- <-.
      apply (read_string_sound (length s1)) in ER as (t & -> & HJ); [|lia]. apply (FIN (["034"%char] ++ t ++ ["034"%char])).
      - rewrite <- !app_assoc. reflexivity.
      - apply jv_string. exists t. split; [reflexivity|exact HJ]. }
    destruct (aeqb c "[") eqn:E2.
    { apply aeqb_eq in E2. subst c. destruct d as [|d]; [discriminate H|].
      destruct (skip_space_parts s1) as (w1 & HW1 & ES1 & _). destruct (skip_space s1) as [|c' s2]; [discriminate H|]. destruct (aeqb c' "]") eqn:E3.
      - apply aeqb_eq in E3. subst c'. injection H as <- <-. apply (FIN (B "[" ++ w1 ++ B "]")); [rewrite ES1, <- !app_assoc; reflexivity|]. apply jv_empty_array. exact HW1.
      - clear ES1. destruct (read_value fl f d s1) as [[v0 r1]|] eqn:EV; [|discriminate H]. destruct (read_elements fl f d r1) as [[l r2]|] eqn:EE; [|discriminate H]. injection H as <- <-.
        apply IV in EV as (w2 & t2 & -> & HW2 & HJ2). apply IE in EE as (t & -> & HE).
        destruct HE as [[-> HT]|(w3 & u & -> & HW3 & HU)].
        + apply (FIN (B "[" ++ (w2 ++ t2 ++ t) ++ B "]")); [rewrite <- !app_assoc; reflexivity|]. apply jv_array. apply je_one. apply jt_element; assumption.
        + apply (FIN (B "[" ++ ((w2 ++ t2 ++ w3) ++ B "," ++ u) ++ B "]")); [rewrite <- !app_assoc; reflexivity|]. apply jv_array. apply je_more; [apply jt_element; assumption|exact HU]. }
    destruct (aeqb c "{") eqn:E4.
    { apply aeqb_eq in E4. subst c. destruct d as [|d]; [discriminate H|].
      destruct (skip_space_parts s1) as (w1 & HW1 & ES1 & _). destruct (skip_space s1) as [|c' s2]; [discriminate H|]. destruct (aeqb c' "}") eqn:E3.
      - apply aeqb_eq in E3. subst c'. injection H as <- <-. apply (FIN (B "{" ++ w1 ++ B "}")); [rewrite ES1, <- !app_assoc; reflexivity|]. apply jv_empty_object. exact HW1.
      - clear ES1. destruct (read_member fl f d s1) as [[[k v0] r1]|] eqn:EV; [|discriminate H]. destruct (read_members fl f d r1 [(k, v0)]) as [[l r2]|] eqn:EE; [|discriminate H]. injection H as <- <-.
        apply IM in EV as (t2 & -> & HJ2). apply IMS in EE as (t & m' & -> & -> & HE).
        change (fold_left ins m' [(k, v0)]) with (later_wins ((k, v0) :: m')) in *.
        destruct HE as [[-> HT]|(w3 & u & -> & HW3 & HU)].
        + apply (FIN (B "{" ++ (t2 ++ t) ++ B "}")); [rewrite <- !app_assoc; reflexivity|]. apply jv_object. apply jm_one. apply member_more; assumption.
        + apply (FIN (B "{" ++ ((t2 ++ w3) ++ B "," ++ u) ++ B "}")); [rewrite <- !app_assoc; reflexivity|]. apply jv_object. apply jm_more; [apply member_more; assumption|exact HU]. }
    destruct (strip_prefix (B "null") (c :: s1)) as [r'|] eqn:P1; [injection H as <- <-; apply strip_prefix_some in P1; apply (FIN (B "null") P1); constructor|].
    destruct (strip_prefix (B "true") (c :: s1)) as [r'|] eqn:P2; [injection H as <- <-; apply strip_prefix_some in P2; apply (FIN (B "true") P2); constructor|].
    destruct (strip_prefix (B "false") (c :: s1)) as [r'|] eqn:P3; [injection H as <- <-; apply strip_prefix_some in P3; apply (FIN (B "false") P3); constructor|].
    destruct (read_number fl (c :: s1)) as [[n r']|] eqn:P4; [|discriminate H]. injection H as <- <-. apply read_number_sound in P4 as (t & ET & HT). apply (FIN t ET). constructor. exact HT.
  - intros d s l r H. cbn [read_elements] in H. destruct (skip_space_parts s) as (w & HW & ES & _). destruct (skip_space s) as [|c s1]; [discriminate H|].
    destruct (aeqb c "]") eqn:E1; [apply aeqb_eq in E1; subst c; injection H as <- <-; exists w; split; [exact ES|left; split; [reflexivity|exact HW]]|].
    destruct (aeqb c ",") eqn:E2; [|discriminate H]. apply aeqb_eq in E2. subst c.
    destruct (read_value fl f d s1) as [[v0 r1]|] eqn:EV; [|discriminate H]. destruct (read_elements fl f d r1) as [[l' r2]|] eqn:EE; [|discriminate H]. injection H as <- <-.
    apply IV in EV as (w2 & t2 & -> & HW2 & HJ2). apply IE in EE as (t & -> & HE). rewrite ES.
    destruct HE as [[-> HT]|(w3 & u & -> & HW3 & HU)].
    + exists (w ++ B "," ++ w2 ++ t2 ++ t). split; [rewrite <- !app_assoc; reflexivity|]. right. exists w, (w2 ++ t2 ++ t). split; [reflexivity|]. split; [exact HW|]. apply je_one. apply jt_element; assumption.
    + exists (w ++ B "," ++ (w2 ++ t2 ++ w3) ++ B "," ++ u). split; [rewrite <- !app_assoc; reflexivity|]. right. exists w, ((w2 ++ t2 ++ w3) ++ B "," ++ u). split; [reflexivity|]. split; [exact HW|].
      apply je_more; [apply jt_element; assumption|exact HU].
  - intros d s k v r H. cbn [read_member] in H. destruct (skip_space_parts s) as (w & HW & ES & _). destruct (skip_space s) as [|c s1]; [discriminate H|].
    destruct (aeqb c quote) eqn:E1; [|discriminate H]. apply aeqb_eq in E1. subst c. destruct (read_string s1) as [[x r']|] eqn:ER; [|discriminate H].
    apply (read_string_sound (length s1)) in ER as (t & -> & HJ); [|lia].
    destruct (skip_space_parts r') as (w1 & HW1 & ES1 & _). destruct (skip_space r') as [|c1 r2]; [discriminate H|]. destruct (aeqb c1 ":") eqn:E2; [|discriminate H]. apply aeqb_eq in E2. subst c1.
    destruct (read_value fl f d r2) as [[v0 r3]|] eqn:EV; [|discriminate H]. injection H as <- <- <-. apply IV in EV as (w2 & t2 & -> & HW2 & HJ2).
    exists (w ++ (["034"%char] ++ t ++ ["034"%char]) ++ w1 ++ B ":" ++ w2 ++ t2). split; [rewrite ES, ES1, <- !app_assoc; reflexivity|].
    apply jt_member; try assumption; [exists t; split; [reflexivity|exact HJ]|]. rewrite <- (app_nil_r t2). apply jt_element; [exact HW2|exact HJ2|constructor].
  - intros d s m0 m r H. cbn [read_members] in H. destruct (skip_space_parts s) as (w & HW & ES & _). destruct (skip_space s) as [|c s1]; [discriminate H|].
    destruct (aeqb c "}") eqn:E1; [apply aeqb_eq in E1; subst c; injection H as <- <-; exists w, []; split; [exact ES|split; [reflexivity|left; split; [reflexivity|exact HW]]]|].
    destruct (aeqb c ",") eqn:E2; [|discriminate H]. apply aeqb_eq in E2. subst c.
    destruct (read_member fl f d s1) as [[[k v0] r1]|] eqn:EV; [|discriminate H].
    apply IM in EV as (t2 & -> & HJ2). apply IMS in H as (t & l & -> & -> & HE). rewrite ES.
    destruct HE as [[-> HT]|(w3 & u & -> & HW3 & HU)].
    + exists (w ++ B "," ++ t2 ++ t), [(k, v0)]. split; [rewrite <- !app_assoc; reflexivity|]. split; [reflexivity|]. right. exists w, (t2 ++ t). split; [reflexivity|]. split; [exact HW|]. apply jm_one. apply member_more; assumption.
    + exists (w ++ B "," ++ (t2 ++ w3) ++ B "," ++ u), ((k, v0) :: l). split; [rewrite <- !app_assoc; reflexivity|]. split; [reflexivity|]. right. exists w, ((t2 ++ w3) ++ B "," ++ u). split; [reflexivity|]. split; [exact HW|].
      apply jm_more; [apply member_more; assumption|exact HU].
Qed.

(** ** Completeness *)
Definition closes (r : bytes) : Prop := r = [] \/ exists c r', r = c :: r' /\ In c [","; "]"; "}"]%char.
Lemma closes_stops w r : space w -> closes r -> stops (w ++ r).
Proof.
  intros HW HR c r' E. destruct w as [|a w].
  - destruct HR as [->|(c' & r0 & -> & HI)]; [discriminate E|]. injection E as -> _. cbn in HI.
    repeat match goal with H : _ \/ _ |- _ => destruct H as [<-|H] end; try contradiction; repeat split; discriminate.
  - injection E as -> _. apply Forall_inv in HW. cbn in HW.
    repeat match goal with H : _ \/ _ |- _ => destruct H as [<-|H] end; try contradiction; repeat split; discriminate.
Qed.
Lemma read_value_space f d w s : space w -> read_value fl f d (w ++ s) = read_value fl f d s.
Proof. intro HW. destruct f; [reflexivity|]. cbn [read_value]. rewrite skip_space_app by exact HW. reflexivity. Qed.
Lemma read_member_space f d w s : space w -> read_member fl f d (w ++ s) = read_member fl f d s.
Proof. intro HW. destruct f; [reflexivity|]. cbn [read_member]. rewrite skip_space_app by exact HW. reflexivity. Qed.
Lemma value_not_close f d s c s' v : skip_space s = c :: s' -> read_value fl f d s = Some v -> aeqb c "]" = false.
Proof.
  intros E H. destruct (aeqb c "]") eqn:EC; [|reflexivity]. apply aeqb_eq in EC. subst c. destruct f; [discriminate H|]. cbn [read_value] in H. rewrite E in H.
  destruct s'; discriminate H.
Qed.
Lemma member_not_close f d s c s' v : skip_space s = c :: s' -> read_member fl f d s = Some v -> aeqb c "}" = false.
Proof.
  intros E H. destruct (aeqb c "}") eqn:EC; [|reflexivity]. apply aeqb_eq in EC. subst c. destruct f; [discriminate H|]. cbn [read_member] in H. rewrite E in H. discriminate H.
Qed.
Lemma value_some f d s v : read_value fl f d s = Some v -> exists c s', skip_space s = c :: s'.
Proof. destruct f; [discriminate|]. cbn [read_value]. destruct (skip_space s); [discriminate|eauto]. Qed.
Lemma member_some f d s v : read_member fl f d s = Some v -> exists c s', skip_space s = c :: s'.
Proof. destruct f; [discriminate|]. cbn [read_member]. destruct (skip_space s); [discriminate|eauto]. Qed.

Definition v_ok d t v := forall f r, length (t ++ r) < f -> stops r -> read_value fl f d (t ++ r) = Some (v, r).
Definition e_ok d t v := forall f r, length (t ++ r) < f -> closes r ->
  exists w, space w /\ read_value fl f d (t ++ r) = Some (v, w ++ r) /\ length (w ++ r) <= length (t ++ r).
Definition es_ok d t (l : list json) := exists v l', l = v :: l' /\ forall f r, length (t ++ B "]" ++ r) < f ->
  exists r1, read_value fl f d (t ++ B "]" ++ r) = Some (v, r1) /\ length r1 <= length (t ++ B "]" ++ r) /\ read_elements fl f d r1 = Some (l', r).
Definition m_ok d t (kv : bytes * json) := forall f r, length (t ++ r) < f -> closes r ->
  exists w, space w /\ read_member fl f d (t ++ r) = Some (fst kv, snd kv, w ++ r) /\ length (w ++ r) <= length (t ++ r).
Definition ms_ok d t (l : obj) := exists kv l', l = kv :: l' /\ forall f r m0, length (t ++ B "}" ++ r) < f ->
  exists r1, read_member fl f d (t ++ B "}" ++ r) = Some (fst kv, snd kv, r1) /\ length r1 <= length (t ++ B "}" ++ r) /\ read_members fl f d r1 m0 = Some (fold_left ins l' m0, r).

Lemma read_complete :
  (forall d t v, jvalue fl d t v -> v_ok d t v) /\ (forall d t v, jelement fl d t v -> e_ok d t v) /\ (forall d t l, jelements fl d t l -> es_ok d t l) /\
  (forall d t kv, jmember fl d t kv -> m_ok d t kv) /\ (forall d t l, jmembers fl d t l -> ms_ok d t l).
Proof.
  apply json_mutind.
  - intros d f r HL HR. destruct f; [lia|]. reflexivity.
  - intros d f r HL HR. destruct f; [lia|]. reflexivity.
  - intros d f r HL HR. destruct f; [lia|]. reflexivity.
  - intros d t n HN f r HL HR. destruct f; [lia|]. destruct (token_head _ (jnumber_token _ _ _ HN)) as (c & t' & ET & HC).
    assert (forall a, digit a = None -> a <> minus_sign -> aeqb c a = false /\ aeqb a c = false) as NE.
    { intros a H1 H2. assert (c <> a) as K by (intros ->; destruct HC as [HC|[k HC]]; congruence). split; apply aeqb_neq; congruence. }
    assert (t ++ r = c :: t' ++ r) as EC by (rewrite ET; reflexivity).
    cbn [read_value]. rewrite EC, skip_space_stop.
    2:{ unfold is_space. repeat match goal with |- context [aeqb c ?a] => rewrite (proj1 (NE a eq_refl ltac:(discriminate))) end. reflexivity. }
    rewrite (proj1 (NE quote eq_refl ltac:(discriminate))), (proj1 (NE "["%char eq_refl ltac:(discriminate))), (proj1 (NE "{"%char eq_refl ltac:(discriminate))).
    cbn [B list_ascii_of_string strip_prefix].
    rewrite (proj2 (NE "n"%char eq_refl ltac:(discriminate))), (proj2 (NE "t"%char eq_refl ltac:(discriminate))), (proj2 (NE "f"%char eq_refl ltac:(discriminate))).
    rewrite <- EC, (read_number_complete fl t n r HN HR). reflexivity.
  - intros d t s (u & -> & HU) f r HL HR. destruct f; [lia|]. cbn [app read_value skip_space]. change (is_space "034") with false. cbv iota. change (aeqb "034" quote) with true. cbv iota.
    rewrite <- app_assoc. cbn [app]. change ("034"%char :: r) with (quote :: r). rewrite (read_string_complete _ _ r HU). reflexivity.
  - intros d w HW f r HL HR. destruct f; [lia|]. cbn [app B list_ascii_of_string read_value skip_space]. change (is_space "[") with false. cbv iota. change (aeqb "[" quote) with false. change (aeqb "[" "[") with true. cbv iota.
    rewrite <- app_assoc, skip_space_app by exact HW. reflexivity.
  - intros d t l _ (v & l' & -> & H) f r HL HR. destruct f; [lia|]. rewrite <- !app_assoc in *.
    cbn [app B list_ascii_of_string length] in HL. destruct (H f r) as (r1 & H1 & _ & H2); [cbn [app B list_ascii_of_string] in *; lia|].
    cbn [app B list_ascii_of_string read_value skip_space] in *. change (is_space "[") with false. cbv iota. change (aeqb "[" quote) with false. change (aeqb "[" "[") with true. cbv iota.
    destruct (value_some _ _ _ _ H1) as (c & s' & ES). rewrite ES, (value_not_close _ _ _ _ _ _ ES H1), H1, H2. reflexivity.
  - intros d w HW f r HL HR. destruct f; [lia|]. cbn [app B list_ascii_of_string read_value skip_space]. change (is_space "{") with false. cbv iota. change (aeqb "{" quote) with false. change (aeqb "{" "[") with false. change (aeqb "{" "{") with true. cbv iota.
    rewrite <- app_assoc, skip_space_app by exact HW. reflexivity.
  - intros d t l _ (kv & l' & -> & H) f r HL HR. destruct f; [lia|]. rewrite <- !app_assoc in *.
    cbn [app B list_ascii_of_string length] in HL. destruct (H f r [kv]) as (r1 & H1 & _ & H2); [cbn [app B list_ascii_of_string] in *; lia|].
    cbn [app B list_ascii_of_string read_value skip_space] in *. change (is_space "{") with false. cbv iota. change (aeqb "{" quote) with false. change (aeqb "{" "[") with false. change (aeqb "{" "{") with true. cbv iota.
    destruct (member_some _ _ _ _ H1) as (c & s' & ES). rewrite ES, (member_not_close _ _ _ _ _ _ ES H1), H1. destruct kv as [k v]. cbn [fst snd] in *. rewrite H2. reflexivity.
  - intros d w t w' v HW _ IH HW' f r HL HR. rewrite <- !app_assoc in *. exists w'. split; [exact HW'|]. rewrite read_value_space by exact HW. split.
    + apply IH; [rewrite !app_length in *; lia|]. apply closes_stops; assumption.
    + rewrite !app_length. lia.
  - intros d t v _ IH. exists v, []. split; [reflexivity|]. intros f r HL. destruct (IH f (B "]" ++ r) HL) as (w & HW & H1 & H2); [right; eexists _, _; split; [reflexivity|right; left; reflexivity]|].
    eexists. split; [exact H1|]. split; [exact H2|]. destruct f; [lia|]. cbn [read_elements]. rewrite skip_space_app by exact HW. reflexivity.
  - intros d t v u l _ IH _ (v' & l' & -> & IH'). exists v, (v' :: l'). split; [reflexivity|]. intros f r HL. rewrite <- !app_assoc in *.
    destruct (IH f (B "," ++ u ++ B "]" ++ r) HL) as (w & HW & H1 & H2); [right; eexists _, _; split; [reflexivity|left; reflexivity]|].
    eexists. split; [exact H1|]. split; [exact H2|]. destruct f; [lia|]. cbn [read_elements]. rewrite skip_space_app by exact HW.
    cbn [app B list_ascii_of_string skip_space]. change (is_space ",") with false. cbv iota. change (aeqb "," "]") with false. change (aeqb "," ",") with true. cbv iota.
    destruct (IH' f r) as (r1 & H3 & _ & H4); [rewrite !app_length in *; cbn [length B list_ascii_of_string] in *; lia|]. cbn [app B list_ascii_of_string] in H3. rewrite H3, H4. reflexivity.
  - intros d w t w' u k v HW (tk & -> & HK) HW' _ IH f r HL HR. rewrite <- !app_assoc in *. rewrite read_member_space by exact HW.
    assert (0 < f) as F0 by lia. destruct f as [|f]; [lia|]. destruct (IH f r) as (w2 & HW2 & H1 & H2); [rewrite !app_length in *; cbn [length B list_ascii_of_string] in *; lia|exact HR|].
    exists w2. split; [exact HW2|]. split; [|rewrite !app_length in *; cbn [length B list_ascii_of_string] in *; lia].
    cbn [app read_member skip_space]. change (is_space "034") with false. cbv iota. change (aeqb "034" quote) with true. cbv iota.
    change ("034"%char :: w' ++ B ":" ++ u ++ r) with (quote :: w' ++ B ":" ++ u ++ r). rewrite (read_string_complete _ _ _ HK). rewrite skip_space_app by exact HW'.
    cbn [app B list_ascii_of_string skip_space]. change (is_space ":") with false. cbv iota. change (aeqb ":" ":") with true. cbv iota. rewrite H1. reflexivity.
  - intros d t kv _ IH. exists kv, []. split; [reflexivity|]. intros f r m0 HL. destruct (IH f (B "}" ++ r) HL) as (w & HW & H1 & H2); [right; eexists _, _; split; [reflexivity|right; right; left; reflexivity]|].
    eexists. split; [exact H1|]. split; [exact H2|]. destruct f; [lia|]. cbn [read_members]. rewrite skip_space_app by exact HW. reflexivity.
  - intros d t kv u l _ IH _ (kv' & l' & -> & IH'). exists kv, (kv' :: l'). split; [reflexivity|]. intros f r m0 HL. rewrite <- !app_assoc in *.
    destruct (IH f (B "," ++ u ++ B "}" ++ r) HL) as (w & HW & H1 & H2); [right; eexists _, _; split; [reflexivity|left; reflexivity]|].
    eexists. split; [exact H1|]. split; [exact H2|]. destruct f; [lia|]. cbn [read_members]. rewrite skip_space_app by exact HW.
    cbn [app B list_ascii_of_string skip_space]. change (is_space ",") with false. cbv iota. change (aeqb "," "}") with false. change (aeqb "," ",") with true. cbv iota.
    destruct (IH' f r (ins m0 kv')) as (r1 & H3 & _ & H4); [rewrite !app_length in *; cbn [length B list_ascii_of_string] in *; lia|]. cbn [app B list_ascii_of_string] in H3. rewrite H3, H4. reflexivity.
Qed.

Lemma read_json_iff t v : read_json fl t = Some v <-> json_text fl t v.
Proof.
  unfold read_json, json_text. split.
  - destruct (read_value fl (S (length t)) max_depth t) as [[x r]|] eqn:E; [|discriminate]. apply read_sound in E as (w & u & -> & HW & HJ).
    destruct (skip_space_parts r) as (w' & HW' & ER & _). destruct (skip_space r); [|discriminate]. intro H. injection H as <-. rewrite app_nil_r in ER. subst r.
    apply jt_element; assumption.
  - intro H. destruct read_complete as (_ & HE & _). destruct (HE _ _ _ H (S (length t)) []) as (w & HW & H1 & _); [rewrite app_nil_r; lia|left; reflexivity|].
    rewrite !app_nil_r in H1. change max_depth with 127. rewrite H1. rewrite <- (app_nil_r w), skip_space_app by exact HW. reflexivity.
Qed.
End values.
Section printing.
Context (fl : bytes -> option (bytes * bool)).
Notation ins := (fun (m : obj) (kv : bytes * json) => oset (fst kv) (snd kv) m).

Lemma jchars_app t s t' s' : jchars t s -> jchars t' s' -> jchars (t ++ t') (s ++ s').
Proof.
  intros H H'. induction H as [|c t s H1 H2 H3 _ IH|e y t s HE _ IH|h n y t s HH HN HY _ IH|h n h' m y t s HH Hn HH' Hm HY _ IH]; rewrite <- ?app_assoc.
  - exact H'.
  - apply jc_plain; assumption.
  - apply jc_short; assumption.
  - eapply jc_code; eassumption.
  - eapply jc_pair; eassumption.
Qed.
Lemma escape_char_chars c : jchars (escape_char c) [c].
Proof.
  assert (read_string (escape_char c ++ [quote]) = Some ([c], [])) as H by (destruct c as [[] [] [] [] [] [] [] []]; vm_compute; reflexivity).
  apply (read_string_sound _ _ _ _ (le_n _)) in H as (t & E & HJ). apply app_inj_tail in E as [-> _]. exact HJ.
Qed.
Lemma escaped_chars s : jchars (flat_map escape_char s) s.
Proof. induction s as [|c s IH]; [constructor|]. cbn [flat_map]. apply (jchars_app _ [c] _ s); [apply escape_char_chars|exact IH]. Qed.
Lemma print_string_ok s : jstring (print_string s) s.
Proof. exists (flat_map escape_char s). split; [reflexivity|apply escaped_chars]. Qed.
Lemma print_number n : number_ok fl n -> jnumber fl (num_to_string n) n.
Proof.
  destruct n as [n|p|x g]; cbn [number_ok num_to_string]; intro H.
  - apply jn_integer. apply it_pos; [apply dec_N_plain|exact H].
  - apply jn_integer. rewrite dec_Z_neg. apply (it_neg (dec_N (N.pos p))); [apply dec_N_plain|exact H].
  - destruct H as (H1 & H2 & H3). apply jn_float; assumption.
Qed.
Lemma oset_fresh k v (m : obj) : ~ In k (okeys m) -> oset k v m = m ++ [(k, v)].
Proof.
  induction m as [|[k' v'] m IH]; intro H; [reflexivity|]. cbn [oset app]. destruct (beq k k') eqn:E; [apply beq_eq in E; subst; destruct H; left; reflexivity|].
  rewrite IH; [reflexivity|]. intro HI. apply H. right. exact HI.
Qed.
Lemma later_wins_nodup (l : obj) : NoDup (okeys l) -> later_wins l = l.
Proof.
  intro ND. unfold later_wins. enough (forall m, NoDup (okeys (m ++ l)) -> fold_left ins l m = m ++ l) as H by (apply (H [] ND)).
  clear ND. induction l as [|[k v] l IH]; intros m ND; [symmetry; apply app_nil_r|]. cbn [fold_left fst snd].
  rewrite oset_fresh; [rewrite IH; rewrite <- app_assoc; [reflexivity|exact ND]|].
  unfold okeys in *. rewrite map_app in ND. cbn [map fst] in ND. apply NoDup_remove_2 in ND. intro HI. apply ND. apply in_or_app. left. exact HI.
Qed.
Lemma print_value v : value_ok fl v -> forall d, nested d v -> jvalue fl d (print_json v) v.
Proof.
  induction v as [|b|n|s|l IH|m IH] using json_ind'; intros HV d HN.
  - constructor.
  - destruct b; constructor.
  - inversion HV; subst. apply jv_number. apply print_number. assumption.
  - apply jv_string. apply print_string_ok.
  - inversion HV as [| | | |? HL|]; subst. inversion HN as [| | | |d' ? HD|]; subst. destruct l as [|v l]; [apply (jv_empty_array fl d' []); constructor|].
    cbn [print_json]. apply jv_array. clear HV HN. revert v IH HL HD. induction l as [|v' l IHl]; intros v IH HL HD; cbn [map join].
    + apply je_one. apply bare_element. apply (Forall_inv IH); [apply (Forall_inv HL)|apply (Forall_inv HD)].
    + apply je_more; [apply bare_element; apply (Forall_inv IH); [apply (Forall_inv HL)|apply (Forall_inv HD)]|].
      apply (IHl v'); [apply (Forall_inv_tail IH)|apply (Forall_inv_tail HL)|apply (Forall_inv_tail HD)].
  - inversion HV as [| | | | |? ND HL]; subst. inversion HN as [| | | | |d' ? HD]; subst. destruct m as [|kv m]; [apply (jv_empty_object fl d' []); constructor|].
    cbn [print_json]. rewrite <- (later_wins_nodup _ ND) at 2. apply jv_object. clear HV HN ND. revert kv IH HL HD.
    assert (forall kv, (value_ok fl (snd kv) -> forall d, nested d (snd kv) -> jvalue fl d (print_json (snd kv)) (snd kv)) -> value_ok fl (snd kv) -> nested d' (snd kv) ->
      jmember fl d' (print_string (fst kv) ++ B ":" ++ print_json (snd kv)) kv) as ONE.
    { intros [k v] IH1 H1 H2. cbn [fst snd] in *. apply (jt_member fl d' [] (print_string k) [] (print_json v)); [constructor|apply print_string_ok|constructor|]. apply bare_element. apply IH1; assumption. }
    induction m as [|kv' m IHl]; intros kv IH HL HD; cbn [map join].
    + apply jm_one. apply ONE; [apply (Forall_inv IH)|apply (Forall_inv HL)|apply (Forall_inv HD)].
    + apply jm_more; [apply ONE; [apply (Forall_inv IH)|apply (Forall_inv HL)|apply (Forall_inv HD)]|].
      apply (IHl kv'); [apply (Forall_inv_tail IH)|apply (Forall_inv_tail HL)|apply (Forall_inv_tail HD)].
Qed.
Lemma print_reads v : value_ok fl v -> nested 127 v -> read_json fl (print_json v) = Some v.
Proof. intros H1 H2. apply read_json_iff. apply bare_element. apply print_value; assumption. Qed.
(** every value has a depth *)
Lemma nested_le v : forall d d', d <= d' -> nested d v -> nested d' v.
Proof.
  induction v as [|b|n|s|l IH|m IH] using json_ind'; intros d d' HL H; inversion H; subst; try constructor.
  - destruct d' as [|d']; [lia|]. constructor. rewrite Forall_forall in *. intros x Hx. eapply IH; [exact Hx| |auto]. lia.
  - destruct d' as [|d']; [lia|]. constructor. rewrite Forall_forall in *. intros x Hx. eapply (IH x Hx d0); [lia|auto].
Qed.
Lemma nested_some v : exists d, nested d v.
Proof.
  induction v as [|b|n|s|l IH|m IH] using json_ind'; try (exists 0; constructor).
  - enough (exists d, Forall (nested d) l) as [d H] by (exists (S d); constructor; exact H).
    induction IH as [|x l [d Hd] _ [d' IHl]]; [exists 0; constructor|]. exists (Nat.max d d').
    constructor; [eapply nested_le; [|exact Hd]; lia|]. eapply Forall_impl; [|exact IHl]. intros a Ha. eapply nested_le; [|exact Ha]. lia.
  - enough (exists d, Forall (fun kv => nested d (snd kv)) m) as [d H] by (exists (S d); constructor; exact H).
    induction IH as [|x l [d Hd] _ [d' IHl]]; [exists 0; constructor|]. exists (Nat.max d d').
    constructor; [eapply nested_le; [|exact Hd]; lia|]. eapply Forall_impl; [|exact IHl]. cbn beta. intros a Ha. eapply nested_le; [|exact Ha]. lia.
Qed.
Lemma jvalue_det d t v v' : jvalue fl d t v -> jvalue fl d t v' -> v = v'.
Proof.
  intros H H'. destruct (read_complete fl) as (R & _). pose proof (R _ _ _ H (S (length (t ++ []))) [] (Nat.lt_succ_diag_r _)) as A. pose proof (R _ _ _ H' (S (length (t ++ []))) [] (Nat.lt_succ_diag_r _)) as C.
  assert (stops []) as HS by (intros c r E; discriminate E). specialize (A HS). specialize (C HS). congruence.
Qed.
Lemma print_inj v v' : value_ok fl v -> value_ok fl v' -> print_json v = print_json v' -> v = v'.
Proof.
  intros H H' E. destruct (nested_some v) as [d D]. destruct (nested_some v') as [d' D'].
  apply (jvalue_det (Nat.max d d') (print_json v)); [apply print_value; [exact H|eapply nested_le; [|exact D]; lia]|].
  rewrite E. apply print_value; [exact H'|eapply nested_le; [|exact D']; lia].
Qed.
(** what is read is not deeper than allowed, and has unique keys *)
Lemma oset_values k v (m : obj) x : In x (oset k v m) -> In x m \/ snd x = v.
Proof.
  induction m as [|[k' v'] m IH]; cbn [oset]; [intros [<-|[]]; right; reflexivity|]. destruct (beq k k'); intros [<-|H].
  - right; reflexivity.
  - left; right; exact H.
  - left; left; reflexivity.
  - apply IH in H as [H|H]; [left; right; exact H|right; exact H].
Qed.
Lemma later_in P (l : obj) : Forall (fun kv => P (snd kv)) l -> Forall (fun kv : bytes * json => P (snd kv)) (later_wins l).
Proof.
  unfold later_wins. intro H. enough (forall m : obj, Forall (fun kv => P (snd kv)) m -> Forall (fun kv => P (snd kv)) (fold_left ins l m)) as K by (apply K; constructor).
  induction H as [|kv l Hk _ IH]; intros m HM; [exact HM|]. cbn [fold_left]. apply IH. rewrite Forall_forall in *. intros x Hx. apply oset_values in Hx as [Hx|Hx]; [apply HM; exact Hx|rewrite Hx; exact Hk].
Qed.
Lemma read_depth : (forall d t v, jvalue fl d t v -> nested d v) /\ (forall d t v, jelement fl d t v -> nested d v) /\ (forall d t l, jelements fl d t l -> Forall (nested d) l) /\
  (forall d t kv, jmember fl d t kv -> nested d (snd kv)) /\ (forall d t l, jmembers fl d t l -> Forall (fun kv => nested d (snd kv)) l).
Proof. apply json_mutind; intros; try (constructor; auto; fail); auto. constructor. apply (later_in (nested d)). assumption. Qed.
End printing.
(** ** Printed values do not look like bifs *)
Fixpoint no_pair (x y : ascii) (t : bytes) : Prop :=
  match t with
  | a :: r => match r with b :: _ => ~ (a = x /\ b = y) | [] => True end /\ no_pair x y r
  | [] => True
  end.
Lemma no_pair_occurs x y t : no_pair x y t <-> ~ occurs [x; y] t.
Proof.
  split.
  - intros H (p & q & ->). induction p as [|a p IH]; cbn [app no_pair] in H; [destruct H as [H _]; apply H; split; reflexivity|]. apply IH. apply H.
  - induction t as [|a t IH]; intro H; [exact I|]. cbn [no_pair]. split.
    + destruct t as [|b t]; [exact I|]. intros [-> ->]. apply H. exists [], t. reflexivity.
    + apply IH. intros (p & q & E). apply H. exists (a :: p), q. rewrite E. reflexivity.
Qed.
Lemma no_pair_app x y a b : no_pair x y a -> no_pair x y b -> (forall p q, a = p ++ [x] -> b = y :: q -> False) -> no_pair x y (a ++ b).
Proof.
  intros HA HB H. induction a as [|c a IH]; [exact HB|]. cbn [app]. destruct a as [|d a].
  - cbn [app no_pair]. destruct b as [|d b]; [split; exact I|]. split; [|exact HB]. intros [-> ->]. apply (H [] b); reflexivity.
  - cbn [app] in *. cbn [no_pair] in *. destruct HA as [H1 H2]. split; [exact H1|]. apply IH; [exact H2|]. intros p q E E'. apply (H (c :: p) q); [rewrite E; reflexivity|exact E'].
Qed.
Definition safe (t : bytes) : Prop := no_pair "{"%char ":"%char t /\ no_pair ":"%char "}"%char t.
Definition begins_with (c : ascii) (t : bytes) : Prop := exists q, t = c :: q.
Definition stops_with (c : ascii) (t : bytes) : Prop := exists q, t = q ++ [c].
Record tame (t : bytes) : Prop := {
  tm_safe : safe t; tm_some : t <> [];
  tm_colon : ~ begins_with ":"%char t; tm_close : ~ begins_with "}"%char t;
  tm_open : ~ stops_with "{"%char t; tm_end : ~ stops_with ":"%char t }.
Lemma starts_app c a b : a <> [] -> begins_with c (a ++ b) -> begins_with c a.
Proof. intros N [q E]. destruct a as [|d a]; [contradiction|]. cbn [app] in E. injection E as -> _. exists a. reflexivity. Qed.
Lemma stops_app c a b : b <> [] -> stops_with c (a ++ b) -> stops_with c b.
Proof.
  intros N [q E]. destruct (exists_last N) as (b' & d & ->). rewrite app_assoc in E. apply app_inj_tail in E as [_ ->]. exists b'. reflexivity.
Qed.
Lemma app_some {A} (a b : list A) : a <> [] -> a ++ b <> [].
Proof. destruct a; [contradiction|discriminate]. Qed.
Lemma tame_app a b : tame a -> tame b -> tame (a ++ b).
Proof.
  intros [[A1 A2] A3 A4 A5 A6 A7] [[B1 B2] B3 B4 B5 B6 B7]. split.
  - split; apply no_pair_app; try assumption; intros p q E E'; [apply A6|apply A7]; exists p; exact E.
  - apply app_some. exact A3.
  - intro H. apply A4. eapply starts_app; [exact A3|exact H].
  - intro H. apply A5. eapply starts_app; [exact A3|exact H].
  - intro H. apply B6. eapply stops_app; [exact B3|exact H].
  - intro H. apply B7. eapply stops_app; [exact B3|exact H].
Qed.
Lemma tame_colon a b : tame a -> tame b -> tame (a ++ B ":" ++ b).
Proof.
  intros [[A1 A2] A3 A4 A5 A6 A7] [[B1 B2] B3 B4 B5 B6 B7]. split.
  - split; repeat (apply no_pair_app; try assumption); try (cbn; tauto).
    + intros p q E E'. destruct p as [|? [|]]; discriminate E.
    + intros p q E E'. apply A6. exists p. exact E.
    + intros p q E E'. apply B5. exists q. exact E'.
    + intros p q E E'. discriminate E'.
  - apply app_some. exact A3.
  - intro H. apply A4. eapply starts_app; [exact A3|exact H].
  - intro H. apply A5. eapply starts_app; [exact A3|exact H].
  - intro H. apply stops_app in H; [|discriminate]. apply stops_app in H; [|exact B3]. apply B6. exact H.
  - intro H. apply stops_app in H; [|discriminate]. apply stops_app in H; [|exact B3]. apply B7. exact H.
Qed.
Lemma tame_braces a : tame a -> tame (B "{" ++ a ++ B "}").
Proof.
  intros [[A1 A2] A3 A4 A5 A6 A7]. split.
  - split; repeat (apply no_pair_app; try assumption); try (cbn; tauto).
    + intros p q E E'. discriminate E'.
    + intros p q _ E'. apply A4. apply (starts_app _ a (B "}") A3). exists q. exact E'.
    + intros p q E _. apply A7. exists p. exact E.
    + intros p q E E'. destruct p as [|? [|]]; discriminate E.
  - discriminate.
  - intros [q E]. discriminate E.
  - intros [q E]. discriminate E.
  - intro H. apply stops_app in H; [|destruct a; discriminate]. apply stops_app in H; [|discriminate]. destruct H as [[|? [|]] E]; discriminate E.
  - intro H. apply stops_app in H; [|destruct a; discriminate]. apply stops_app in H; [|discriminate]. destruct H as [[|? [|]] E]; discriminate E.
Qed.
Definition alien (t : bytes) : Prop := Forall (fun c => c <> "{" /\ c <> ":" /\ c <> "}")%char t.
Lemma alien_pair x y t u : (x = "{" \/ x = ":")%char -> alien t -> no_pair x y u -> no_pair x y (t ++ u).
Proof.
  intros HX H HU. induction H as [|c t (H1 & H2 & _) H IH]; [exact HU|]. cbn [app no_pair]. split; [|exact IH].
  destruct (t ++ u); [exact I|]. intros [E _]. destruct HX as [-> | ->]; contradiction.
Qed.
Lemma alien_tame t : t <> [] -> alien t -> tame t.
Proof.
  intros N H. pose proof H as HF. unfold alien in HF. rewrite Forall_forall in HF. split.
  - split; rewrite <- (app_nil_r t); apply alien_pair; try exact H; try exact I; [left|right]; reflexivity.
  - exact N.
  - intros [q ->]. destruct (HF ":"%char (or_introl eq_refl)) as (_ & C & _). contradiction.
  - intros [q ->]. destruct (HF "}"%char (or_introl eq_refl)) as (_ & _ & C). contradiction.
  - intros [q ->]. destruct (HF "{"%char) as (C & _); [apply in_or_app; right; left; reflexivity|contradiction].
  - intros [q ->]. destruct (HF ":"%char) as (_ & C & _); [apply in_or_app; right; left; reflexivity|contradiction].
Qed.
Lemma escape_alien c : escape_char c = [c] \/ alien (escape_char c).
Proof.
  destruct c as [[] [] [] [] [] [] [] []]; (left; vm_compute; reflexivity) || (right; vm_compute; repeat (constructor; [repeat split; discriminate|]); constructor).
Qed.
Lemma escape_head c d r : escape_char c = d :: r -> (d = ":" \/ d = "}")%char -> c = d.
Proof. intros E [-> | ->]; destruct c as [[] [] [] [] [] [] [] []]; vm_compute in E; (discriminate E || injection E as _; reflexivity). Qed.
Lemma escape_some c : escape_char c <> [].
Proof. destruct c as [[] [] [] [] [] [] [] []]; vm_compute; discriminate. Qed.
Lemma escaped_pair x y s : (x = "{" \/ x = ":")%char -> (y = ":" \/ y = "}")%char -> no_pair x y s -> no_pair x y (flat_map escape_char s).
Proof.
  intros HX HY. induction s as [|c s IH]; intro H; [exact I|]. cbn [flat_map]. destruct H as [H1 H2]. specialize (IH H2).
  destruct (escape_alien c) as [E|E]; [|apply alien_pair; assumption]. rewrite E. apply no_pair_app; [cbn; tauto|exact IH|].
  intros p q E1 E2. destruct s as [|d s]; [discriminate E2|]. cbn [flat_map] in E2. pose proof (escape_some d) as N.
  destruct (escape_char d) as [|d' r] eqn:ED; [contradiction|]. cbn [app] in E2. injection E2 as -> _. apply escape_head in ED; [|exact HY].
  destruct p as [|? [|]]; [|discriminate E1|discriminate E1]. injection E1 as ->. apply H1. split; [reflexivity|exact ED].
Qed.
Lemma string_tame s : ~ occurs (B "{:") s -> ~ occurs (B ":}") s -> tame (print_string s).
Proof.
  intros H1 H2. apply no_pair_occurs in H1. apply no_pair_occurs in H2. unfold print_string.
  change (quote :: flat_map escape_char s ++ [quote]) with ([quote] ++ flat_map escape_char s ++ [quote]). split.
  - split; (apply no_pair_app; [cbn; tauto|apply no_pair_app; [apply escaped_pair; [tauto|tauto|assumption]|cbn; tauto|intros p q _ E; discriminate E]|intros [|? [|]] q E E'; discriminate E]).
  - discriminate.
  - intros [q E]. discriminate E.
  - intros [q E]. discriminate E.
  - intros [q E]. rewrite app_assoc in E. apply app_inj_tail in E as [_ E]. discriminate E.
  - intros [q E]. rewrite app_assoc in E. apply app_inj_tail in E as [_ E]. discriminate E.
Qed.
Lemma digits_alien t : Forall is_digit t -> alien t.
Proof.
  apply Forall_impl. intros c H. split; [|split]; intros ->; destruct H as [d H]; vm_compute in H; discriminate H.
Qed.
Lemma some_alien t : some_digits t -> alien t.
Proof. intros [_ [n H]]. apply digits_alien. eapply decimal_digits. exact H. Qed.
Ltac aliens := repeat (apply Forall_cons; [repeat split; discriminate|]); try apply Forall_nil.
Lemma token_alien t : number_token t -> t <> [] /\ alien t.
Proof.
  intros (g & i & n & f & e & -> & HG & HI & HF & HE). split.
  - destruct HI as (_ & N & _). destruct HG as [-> | ->]; [cbn [app]; apply app_some; exact N|discriminate].
  - repeat (apply Forall_app; split).
    + destruct HG as [-> | ->]; aliens.
    + destruct HI as (H & _). apply digits_alien. eapply decimal_digits. exact H.
    + destruct HF as [-> | (d & -> & H)]; [aliens|]. apply Forall_app. split; [aliens|apply some_alien; exact H].
    + destruct HE as [-> | (x & y & d & -> & HX & HY & H)]; [aliens|]. repeat (apply Forall_app; split).
      * destruct HX as [-> | ->]; aliens.
      * destruct HY as [-> |[-> | ->]]; aliens.
      * apply some_alien; exact H.
Qed.
Lemma number_tame fl n : number_ok fl n -> tame (num_to_string n).
Proof.
  intro H. enough (number_token (num_to_string n)) as T by (apply token_alien in T as [T1 T2]; apply alien_tame; assumption).
  destruct n as [n|p|x g]; cbn [num_to_string].
  - exists [], (dec_N n), n, [], []. rewrite app_nil_r. split; [cbn [app]; reflexivity|]. split; [left; reflexivity|]. split; [apply dec_N_plain|]. split; left; reflexivity.
  - rewrite dec_Z_neg. exists (B "-"), (dec_N (N.pos p)), (N.pos p), [], []. cbn [app]. rewrite app_nil_r. split; [reflexivity|]. split; [right; reflexivity|]. split; [apply dec_N_plain|]. split; left; reflexivity.
  - apply H.
Qed.
Lemma join_tame l : l <> [] -> Forall tame l -> tame (join (B ",") l).
Proof.
  intros N H. induction l as [|t l IH]; [contradiction|]. destruct l as [|u l]; [exact (Forall_inv H)|].
  change (join (B ",") (t :: u :: l)) with (t ++ B "," ++ join (B ",") (u :: l)).
  apply tame_app; [exact (Forall_inv H)|]. apply tame_app; [apply alien_tame; [discriminate|aliens]|]. apply IH; [discriminate|exact (Forall_inv_tail H)].
Qed.
Lemma print_tame fl v : value_ok fl v -> (forall x, string_in x v -> ~ occurs (B "{:") x /\ ~ occurs (B ":}") x) -> tame (print_json v).
Proof.
  induction v as [|b|n|s|l IH|m IH] using json_ind'; intros HV HS.
  - apply alien_tame; [discriminate|aliens].
  - destruct b; apply alien_tame; try discriminate; vm_compute; aliens.
  - inversion HV; subst. eapply number_tame; eassumption.
  - apply string_tame; apply (HS s); constructor.
  - inversion HV as [| | | |? HL|]; subst. cbn [print_json]. destruct l as [|v l]; [apply alien_tame; [discriminate|aliens]|].
    apply tame_app; [apply alien_tame; [discriminate|aliens]|]. apply tame_app; [|apply alien_tame; [discriminate|aliens]].
    apply join_tame; [discriminate|]. apply Forall_map. rewrite Forall_forall in *. intros x Hx. apply IH; [exact Hx|apply HL; exact Hx|].
    intros y Hy. apply HS. eapply si_arr; eassumption.
  - inversion HV as [| | | | |? _ HL]; subst. cbn [print_json]. destruct m as [|kv m].
    + split; try discriminate; [split; cbn; intuition discriminate|..]; intros [q E]; try discriminate E; destruct q as [|? [|? [|]]]; discriminate E.
    + apply tame_braces. apply join_tame; [discriminate|]. apply Forall_map. rewrite Forall_forall in *. intros [k x] Hx. cbn [fst snd].
      apply tame_colon; [apply string_tame; apply (HS k); eapply si_key; exact Hx|]. apply (IH (k, x) Hx); [apply (HL (k, x)); exact Hx|].
      intros y Hy. apply HS. eapply si_obj; eassumption.
Qed.
(** a text in a string is a text in the printed value *)
Lemma occurs_mid w a b c : occurs w b -> occurs w (a ++ b ++ c).
Proof. intros (p & q & ->). exists (a ++ p), (q ++ c). rewrite <- !app_assoc. reflexivity. Qed.
Lemma escape_word w s : Forall (fun c => escape_char c = [c]) w -> occurs w s -> occurs w (flat_map escape_char s).
Proof.
  intros HW (p & q & ->). rewrite !flat_map_app. enough (flat_map escape_char w = w) as -> by (eexists _, _; reflexivity).
  induction HW as [|c w E _ IH]; [reflexivity|]. cbn [flat_map]. rewrite E, IH. reflexivity.
Qed.
Lemma join_in w t l : In t l -> occurs w t -> occurs w (join (B ",") l).
Proof.
  intros HI HO. induction l as [|u l IH]; [destruct HI|]. destruct l as [|u' l].
  - destruct HI as [<- |[]]. exact HO.
  - change (join (B ",") (u :: u' :: l)) with (u ++ B "," ++ join (B ",") (u' :: l)). destruct HI as [<- |HI].
    + apply (occurs_mid w [] u). exact HO.
    + specialize (IH HI). apply (occurs_mid w u (B "," ++ join (B ",") (u' :: l)) []) in IH || idtac. rewrite <- (app_nil_r (join _ _)). rewrite app_assoc. apply occurs_mid. exact IH.
Qed.
Lemma print_has w x v : Forall (fun c => escape_char c = [c]) w -> string_in x v -> occurs w x -> occurs w (print_json v).
Proof.
  intros HW HI HO. assert (occurs w (print_string x)) as HS by (apply (occurs_mid w [quote]); apply escape_word; assumption).
  induction HI as [|v l HI _ IH|v m HI|k v m HI _ IH].
  - exact HS.
  - cbn [print_json]. apply occurs_mid. eapply join_in; [apply in_map; exact HI|exact IH].
  - cbn [print_json]. apply occurs_mid. eapply join_in; [apply in_map; exact HI|]. cbn [fst]. apply (occurs_mid w []). exact HS.
  - cbn [print_json]. apply occurs_mid. eapply join_in; [apply in_map; exact HI|]. cbn [snd]. rewrite <- (app_nil_r (print_json v)). rewrite app_assoc. apply occurs_mid. exact IH.
Qed.
Lemma print_clean fl m : value_ok fl (JObj m) ->
  (clean_json (print_json (JObj m)) <-> forall x, string_in x (JObj m) -> ~ occurs (B "{:") x /\ ~ occurs (B ":}") x).
Proof.
  intro HV. split.
  - intros (_ & H1 & H2) x HI. split; intro HO; [apply H1|apply H2]; (eapply print_has; [|exact HI|exact HO]; repeat constructor; reflexivity).
  - intro HS. pose proof (print_tame fl _ HV HS) as [[T1 T2] _ _ _ _ _]. apply no_pair_occurs in T1. apply no_pair_occurs in T2.
    split; [|split; [exact T1|exact T2]]. eexists. reflexivity.
Qed.
(** ** The pretty printer *)
Section pretty.
Context (fl : bytes -> option (bytes * bool)).
Lemma pad_space n : space (pad n).
Proof.
  constructor; [right; right; left; reflexivity|]. induction n as [|n IH]; [constructor|]. cbn [repeat concat]. apply Forall_app. split; [|exact IH].
  repeat constructor; left; reflexivity.
Qed.
Lemma padded_elements d p w w' l : space w -> space w' -> l <> [] -> (forall v, In v l -> jvalue fl d (p v) v) ->
  jelements fl d (w ++ join (B "," ++ w) (map p l) ++ w') l.
Proof.
  intros HW HW' N H. induction l as [|v l IH]; [contradiction|]. destruct l as [|v' l].
  - apply je_one. apply jt_element; [exact HW|apply H; left; reflexivity|exact HW'].
  - change (join (B "," ++ w) (map p (v :: v' :: l))) with (p v ++ (B "," ++ w) ++ join (B "," ++ w) (map p (v' :: l))).
    rewrite <- !app_assoc. rewrite (app_assoc w). rewrite <- (app_nil_r (p v)). apply je_more.
    + apply jt_element; [exact HW|apply H; left; reflexivity|constructor].
    + apply IH; [discriminate|]. intros x Hx. apply H. right. exact Hx.
Qed.
Lemma padded_members d (p : bytes * json -> bytes) w w' l : space w -> space w' -> l <> [] ->
  (forall kv, In kv l -> exists t u, p kv = t ++ B ":" ++ u /\ jstring t (fst kv) /\ forall z, space z -> jelement fl d (u ++ z) (snd kv)) ->
  jmembers fl d (w ++ join (B "," ++ w) (map p l) ++ w') l.
Proof.
  intros HW HW' N H. assert (forall kv z, In kv l -> space z -> jmember fl d (w ++ p kv ++ z) kv) as ONE.
  { intros [k v] z HI HZ. destruct (H _ HI) as (t & u & -> & HT & HE). rewrite <- !app_assoc.
    apply (jt_member fl d w t [] (u ++ z) k v HW HT); [constructor|apply HE; exact HZ]. }
  clear H. induction l as [|v l IH]; [contradiction|]. destruct l as [|v' l].
  - apply jm_one. apply ONE; [left; reflexivity|exact HW'].
  - change (join (B "," ++ w) (map p (v :: v' :: l))) with (p v ++ (B "," ++ w) ++ join (B "," ++ w) (map p (v' :: l))).
    rewrite <- !app_assoc. rewrite (app_assoc w). rewrite <- (app_nil_r (p v)). apply jm_more.
    + apply ONE; [left; reflexivity|constructor].
    + apply IH; [discriminate|]. intros x z Hx. apply ONE. right. exact Hx.
Qed.
Lemma pretty_value v : value_ok fl v -> forall d n, nested d v -> jvalue fl d (print_pretty n v) v.
Proof.
  induction v as [|b|k|s|l IH|m IH] using json_ind'; intros HV d n HN.
  - constructor.
  - destruct b; constructor.
  - inversion HV; subst. apply jv_number. apply print_number. assumption.
  - apply jv_string. apply print_string_ok.
  - inversion HV as [| | | |? HL|]; subst. inversion HN as [| | | |d' ? HD|]; subst. destruct l as [|v l]; [apply (jv_empty_array fl d' []); constructor|].
    change (print_pretty n (JArr (v :: l))) with (B "[" ++ (pad (S n) ++ join (B "," ++ pad (S n)) (map (print_pretty (S n)) (v :: l)) ++ pad n ++ B "]")).
    rewrite (app_assoc (join _ _)), (app_assoc (pad (S n))). apply jv_array.
    apply padded_elements; [apply pad_space|apply pad_space|discriminate|]. rewrite Forall_forall in *. intros x Hx. apply IH; auto.
  - inversion HV as [| | | | |? ND HL]; subst. inversion HN as [| | | | |d' ? HD]; subst. destruct m as [|kv m]; [apply (jv_empty_object fl d' []); constructor|].
    set (p := fun kv => print_string (fst kv) ++ B ": " ++ print_pretty (S n) (snd kv)).
    change (print_pretty n (JObj (kv :: m))) with (B "{" ++ (pad (S n) ++ join (B "," ++ pad (S n)) (map p (kv :: m)) ++ pad n ++ B "}")).
    rewrite (app_assoc (join _ _)), (app_assoc (pad (S n))). rewrite <- (later_wins_nodup _ ND) at 2. apply jv_object.
    apply padded_members; [apply pad_space|apply pad_space|discriminate|]. rewrite Forall_forall in *. intros [k x] Hx.
    exists (print_string k), (B " " ++ print_pretty (S n) x). split; [reflexivity|]. split; [apply print_string_ok|]. intros z HZ. rewrite <- app_assoc.
    apply jt_element; [repeat constructor; left; reflexivity|apply (IH _ Hx); [apply (HL _ Hx)|apply (HD _ Hx)]|exact HZ].
Qed.
Lemma pretty_reads v : value_ok fl v -> nested 127 v -> read_json fl (print_pretty 0 v) = Some v.
Proof. intros H1 H2. apply read_json_iff. apply bare_element. apply pretty_value; assumption. Qed.
(** ** What is read can be printed *)
Lemma later_nodup (l : obj) : NoDup (okeys (later_wins l)).
Proof.
  unfold later_wins. enough (forall m : obj, NoDup (okeys m) -> NoDup (okeys (fold_left (fun m kv => oset (fst kv) (snd kv) m) l m))) as H by (apply H; constructor).
  induction l as [|[k v] l IH]; intros m H; [exact H|]. cbn [fold_left fst snd]. apply IH. clear IH.
  induction m as [|[k' v'] m IHm]; cbn [oset]; [constructor; [intros []|constructor]|]. inversion H as [|? ? N1 N2]; subst. destruct (beq k k') eqn:E.
  - apply beq_eq in E. subst. constructor; assumption.
  - constructor; [|apply IHm; exact N2]. change (~ In k' (okeys (oset k v m))). intro HI. apply N1. clear - HI E.
    induction m as [|[k2 v2] m IH]; cbn [oset okeys map] in HI; [destruct HI as [HI|[]]; cbn in HI; subst; rewrite beq_refl in E; discriminate|].
    destruct (beq k k2) eqn:E2; [apply beq_eq in E2; subst; exact HI|]. destruct HI as [HI|HI]; [left; exact HI|right; apply IH; exact HI].
Qed.
Lemma read_ok fl' : (forall t x g, number_token t -> (forall n, ~ integer_token t n) -> fl t = Some (x, g) -> number_ok fl' (NFloat x g)) ->
  (forall d t v, jvalue fl d t v -> value_ok fl' v) /\ (forall d t v, jelement fl d t v -> value_ok fl' v) /\
  (forall d t l, jelements fl d t l -> Forall (value_ok fl') l) /\
  (forall d t kv, jmember fl d t kv -> value_ok fl' (snd kv)) /\ (forall d t l, jmembers fl d t l -> Forall (fun kv => value_ok fl' (snd kv)) l).
Proof.
  intro HF. apply json_mutind; intros; try (constructor; auto; fail); auto.
  - constructor. inversion H as [? ? HI|? x g H1 H2 H3]; subst; [|eapply HF; eassumption]. inversion HI; subst; cbn [number_ok]; assumption.
  - constructor; [constructor|constructor].
  - constructor; [apply later_nodup|]. apply (later_in (value_ok fl')). assumption.
Qed.
(** whatever the floats are: distinct keys, and integers of 64 bits *)
Definition shaped (v : json) : Prop := wf_json v /\ forall n, number_in n v -> match n with NFloat _ _ => True | _ => number_ok fl n end.
Lemma read_shaped : (forall d t v, jvalue fl d t v -> shaped v) /\ (forall d t v, jelement fl d t v -> shaped v) /\
  (forall d t l, jelements fl d t l -> Forall shaped l) /\
  (forall d t kv, jmember fl d t kv -> shaped (snd kv)) /\ (forall d t l, jmembers fl d t l -> Forall (fun kv => shaped (snd kv)) l).
Proof.
  apply json_mutind; intros; try (constructor; auto; fail); auto; try (split; [constructor; auto|intros n HN; inversion HN; subst; auto; fail]; fail).
  - split; [constructor|]. intros m HM. inversion HM; subst. inversion H as [? ? HI|? x g H1 H2 H3]; subst; [|exact I]. inversion HI; subst; cbn [number_ok]; assumption.
  - split; [constructor; constructor|]. intros n HN. inversion HN as [|? ? HI|]; subst. destruct HI.
  - rewrite Forall_forall in *. split; [constructor; apply Forall_forall; intros x Hx; exact (proj1 (H0 x Hx))|]. intros n HN. inversion HN as [|w ? HI HX|]; subst. exact (proj2 (H0 w HI) n HX).
  - split; [constructor; constructor|]. intros n HN. inversion HN as [| |? ? ? HI]; subst. destruct HI.
  - apply (later_in shaped) in H0. pose proof (later_nodup l) as ND. rewrite Forall_forall in *. split; [constructor; [exact ND|apply Forall_forall; intros x Hx; exact (proj1 (H0 x Hx))]|].
    intros n HN. inversion HN as [| |k w ? HI HX]; subst. exact (proj2 (H0 _ HI) n HX).
Qed.
Lemma shaped_ok v : shaped v -> (forall x g, number_in (NFloat x g) v -> number_ok fl (NFloat x g)) -> value_ok fl v.
Proof.
  intros [HW HI] HF. induction v as [|b|n|s|l IH|m IH] using json_ind'; try constructor.
  - pose proof (HI n (ni_here n)) as X. destruct n; [exact X|exact X|apply HF; constructor].
  - inversion HW as [| | | |? HL|]; subst. rewrite Forall_forall in *. intros x Hx. apply IH; [exact Hx|apply HL; exact Hx| |].
    + intros n HN. apply HI. eapply ni_arr; eassumption.
    + intros y g HN. apply HF. eapply ni_arr; eassumption.
  - inversion HW; subst. assumption.
  - inversion HW as [| | | | |? ND HL]; subst. rewrite Forall_forall in *. intros [k x] Hx. apply (IH _ Hx); [apply (HL _ Hx)| |].
    + intros n HN. apply HI. eapply ni_obj; eassumption.
    + intros y g HN. apply HF. eapply ni_obj; eassumption.
Qed.
End pretty.
