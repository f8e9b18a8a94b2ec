(** * The digests compute what their standards say *)

From Verif Require Import Bytes BytesFacts State Digest SpecDigest TextProofs.
Open Scope N_scope.

(** ** Words *)
Lemma w32_pow : w32 = 2 ^ 32. Proof. reflexivity. Qed.
Lemma land_apart a b k : a < 2 ^ k -> N.land a (b * 2 ^ k) = 0.
Proof.
  intro H. apply N.bits_inj. intro i. rewrite N.land_spec, N.bits_0. destruct (N.lt_ge_cases i k) as [L|G].
  - rewrite N.mul_pow2_bits_low by exact L. apply andb_false_r.
  - assert (N.testbit a i = false) as ->; [|reflexivity]. destruct (N.eq_dec a 0) as [->|NZ]; [apply N.bits_0|].
    apply N.bits_above_log2. apply N.lt_le_trans with k; [|exact G]. apply N.log2_lt_pow2; [lia|exact H].
Qed.
Lemma lor_apart a b k : a < 2 ^ k -> N.lor a (b * 2 ^ k) = a + b * 2 ^ k.
Proof. intro H. pose proof (land_apart a b k H) as Z. rewrite <- N.lxor_lor by exact Z. symmetry. apply N.add_nocarry_lxor. exact Z. Qed.
Lemma rotr_turned n x : n <= 32 -> x < 2 ^ 32 -> rotr n x = turned_right n x.
Proof.
  intros HN HX. unfold rotr, turned_right. rewrite N.shiftr_div_pow2, N.shiftl_mul_pow2, w32_pow.
  assert (2 ^ 32 = 2 ^ n * 2 ^ (32 - n)) as E by (rewrite <- N.pow_add_r; f_equal; lia).
  assert ((x * 2 ^ (32 - n)) mod 2 ^ 32 = (x mod 2 ^ n) * 2 ^ (32 - n)) as ->.
  { rewrite E. apply N.mul_mod_distr_r; apply N.pow_nonzero; discriminate. }
  apply lor_apart. apply N.div_lt_upper_bound; [apply N.pow_nonzero; discriminate|]. rewrite <- E. exact HX.
Qed.
Lemma turned_lt n x : n <= 32 -> x < 2 ^ 32 -> turned_right n x < 2 ^ 32.
Proof.
  intros HN HX. unfold turned_right. assert (2 ^ 32 = 2 ^ n * 2 ^ (32 - n)) as E by (rewrite <- N.pow_add_r; f_equal; lia).
  assert (x / 2 ^ n < 2 ^ (32 - n)) as A by (apply N.div_lt_upper_bound; [apply N.pow_nonzero; discriminate|rewrite <- E; exact HX]).
  assert (x mod 2 ^ n < 2 ^ n) as C by (apply N.mod_lt, N.pow_nonzero; discriminate).
  rewrite E. set (p := 2 ^ n) in *. set (q := 2 ^ (32 - n)) in *. set (u := x mod p) in *. set (v := x / p) in *.
  assert (u + 1 <= p) as D by lia. apply N.mul_le_mono_r with (p := q) in D. lia.
Qed.
Lemma rotl_turned n x : n <= 32 -> x < 2 ^ 32 -> rotl n x = turned_left n x.
Proof.
  intros HN HX. unfold rotl. rewrite rotr_turned by (lia || exact HX). unfold turned_right, turned_left.
  replace (32 - (32 - n)) with n by lia. rewrite N.add_comm. f_equal.
  assert (2 ^ 32 = 2 ^ (32 - n) * 2 ^ n) as E by (rewrite <- N.pow_add_r; f_equal; lia).
  rewrite E. symmetry. apply N.mul_mod_distr_r; apply N.pow_nonzero; discriminate.
Qed.
Lemma not_inverted x : x < 2 ^ 32 -> not32 x = inverted x.
Proof.
  intro H. unfold not32, inverted. change (w32 - 1) with (N.ones 32). change (N.lxor x (N.ones 32)) with (N.lnot x 32).
  rewrite N.lnot_sub_low; [reflexivity|]. destruct (N.eq_dec x 0) as [->|NZ]; [reflexivity|]. apply N.log2_lt_pow2; [lia|exact H].
Qed.
Lemma add_sum a b : add32 a b = sum32 [a; b].
Proof. unfold add32, sum32. cbn [fold_right]. rewrite w32_pow. f_equal. lia. Qed.
Lemma sum_lt l : sum32 l < 2 ^ 32.
Proof. unfold sum32. apply N.mod_lt. discriminate. Qed.
Lemma add_lt a b : add32 a b < 2 ^ 32.
Proof. rewrite add_sum. apply sum_lt. Qed.
Lemma mod_strip a e : a mod 2 ^ 32 = e mod 2 ^ 32 -> (a mod 2 ^ 32) mod 2 ^ 32 = e mod 2 ^ 32.
Proof. intro H. rewrite N.mod_mod by discriminate. exact H. Qed.
Lemma mod_cong a b e f : a mod 2 ^ 32 = e mod 2 ^ 32 -> b mod 2 ^ 32 = f mod 2 ^ 32 -> (a + b) mod 2 ^ 32 = (e + f) mod 2 ^ 32.
Proof. intros H1 H2. rewrite N.add_mod, H1, H2, <- N.add_mod by discriminate. reflexivity. Qed.
Ltac mods := repeat first [apply mod_strip|apply mod_cong]; reflexivity.
Ltac sums := unfold add32, sum32; cbn [fold_right app]; rewrite ?w32_pow;
  match goal with |- ?x mod ?m = ?y mod ?m =>
    let e := fresh in let f := fresh in evar (e : N); evar (f : N);
    apply eq_trans with (e mod m); unfold e; clear e; [mods|]; symmetry; apply eq_trans with (f mod m); unfold f; clear f; [mods|] end; f_equal; lia.

(** ** Numbers of bytes *)
Lemma byte_lt c : N_of_ascii c < 256.
Proof. apply N_ascii_bounded. Qed.
Lemma byte_back n : n < 256 -> N_of_ascii (ascii_of_N n) = n.
Proof. apply N_ascii_embedding. Qed.
Lemma be_length n v : length (be_bytes n v) = n.
Proof. revert v. induction n as [|n IH]; intro v; [reflexivity|]. cbn [be_bytes]. rewrite app_length, IH. cbn [length]. lia. Qed.
Lemma be_snoc l c : be_value (l ++ [c]) = be_value l * 256 + N_of_ascii c.
Proof. unfold be_value. rewrite fold_left_app. reflexivity. Qed.
Lemma be_back n v : v < 256 ^ N.of_nat n -> be_value (be_bytes n v) = v.
Proof.
  revert v. induction n as [|n IH]; intros v H; [cbn in *; unfold be_value; cbn; lia|]. cbn [be_bytes]. rewrite be_snoc, IH.
  - rewrite byte_back by (apply N.mod_lt; discriminate). pose proof (N.div_mod v 256 ltac:(discriminate)). lia.
  - apply N.div_lt_upper_bound; [discriminate|]. rewrite Nat2N.inj_succ, N.pow_succ_r' in H. exact H.
Qed.
Lemma big64_value l : length l = 8%nat -> big64 l = be_value l.
Proof.
  intro H. do 8 (destruct l as [|? l]; [discriminate|]). destruct l; [|discriminate]. reflexivity.
Qed.
Definition four (a b c d : ascii) : N := N_of_ascii a * 2 ^ 24 + N_of_ascii b * 2 ^ 16 + N_of_ascii c * 2 ^ 8 + N_of_ascii d.
Lemma be_four a b c d : be_value [a; b; c; d] = four a b c d.
Proof. unfold be_value, four. cbn [fold_left]. change (2 ^ 24) with 16777216. change (2 ^ 16) with 65536. change (2 ^ 8) with 256. lia. Qed.
Lemma four_lt a b c d : four a b c d < 2 ^ 32.
Proof.
  pose proof (byte_lt a). pose proof (byte_lt b). pose proof (byte_lt c). pose proof (byte_lt d). unfold four.
  change (2 ^ 24) with 16777216. change (2 ^ 16) with 65536. change (2 ^ 8) with 256. change (2 ^ 32) with 4294967296. lia.
Qed.
Lemma be_cut v : v < 2 ^ 32 -> exists a b c d, be_bytes 4 v = [a; b; c; d] /\ four a b c d = v.
Proof.
  intro H. pose proof (be_length 4 v) as L. pose proof (be_back 4 v H) as V.
  destruct (be_bytes 4 v) as [|a [|b [|c [|d [|? ?]]]]]; try discriminate. exists a, b, c, d. split; [reflexivity|]. rewrite <- be_four. exact V.
Qed.
Lemma words_nth f n l t : (t < n)%nat -> nth t (words_of f n l) 0 = f (firstn 4 (skipn (4 * t) l)).
Proof.
  revert l t. induction n as [|n IH]; intros l t H; [lia|]. destruct t as [|t]; [reflexivity|]. cbn [words_of nth]. rewrite IH by lia.
  rewrite skipn_skipn. do 3 f_equal. lia.
Qed.
Lemma words_length f n l : length (words_of f n l) = n.
Proof. revert l. induction n as [|n IH]; intro l; [reflexivity|]. cbn [words_of length]. rewrite IH. reflexivity. Qed.
Lemma at_four l t : length l = 64%nat -> (t < 16)%nat -> exists a b c d, firstn 4 (skipn (4 * t) l) = [a; b; c; d] /\
  octet l (4 * t) = N_of_ascii a /\ octet l (4 * t + 1) = N_of_ascii b /\ octet l (4 * t + 2) = N_of_ascii c /\ octet l (4 * t + 3) = N_of_ascii d.
Proof.
  intros HL HT. assert (forall k, octet l (4 * t + k) = N_of_ascii (nth k (skipn (4 * t) l) "000"%char)) as HB.
  { intro k. unfold octet. f_equal. rewrite <- (firstn_skipn (4 * t) l) at 1. rewrite app_nth2; rewrite firstn_length_le by lia; [f_equal; lia|lia]. }
  pose proof (HB 0%nat) as H0. rewrite Nat.add_0_r in H0. rewrite H0, !HB. pose proof (skipn_length (4 * t) l) as LS.
  destruct (skipn (4 * t) l) as [|a [|b [|c [|d r]]]]; cbn [length] in LS; try lia. exists a, b, c, d. repeat split.
Qed.
Lemma big_words b t : length b = 64%nat -> (t < 16)%nat -> nth t (words_of be_value 16 b) 0 = big_word b t.
Proof.
  intros HL HT. rewrite words_nth by exact HT. destruct (at_four b t HL HT) as (x & y & z & w & E & E0 & E1 & E2 & E3).
  rewrite E, be_four. unfold big_word, four. congruence.
Qed.
Lemma small_words b t : length b = 64%nat -> (t < 16)%nat -> nth t (words_of (fun l => be_value (rev l)) 16 b) 0 = small_word b t.
Proof.
  intros HL HT. rewrite words_nth by exact HT. destruct (at_four b t HL HT) as (x & y & z & w & E & E0 & E1 & E2 & E3).
  rewrite E. cbn [rev app]. rewrite be_four. unfold small_word, four. rewrite E0, E1, E2, E3. lia.
Qed.
Definition word (x : N) : Prop := x < 2 ^ 32.
Lemma words_small f n l : (forall l, (length l <= 4)%nat -> word (f l)) -> Forall word (words_of f n l).
Proof. intro H. revert l. induction n as [|n IH]; intro l; [constructor|]. constructor; [apply H; apply firstn_le_length|apply IH]. Qed.
Lemma be_word l : (length l <= 4)%nat -> word (be_value l).
Proof.
  intro H. unfold word. destruct l as [|a [|b [|c [|d [|? ?]]]]]; cbn [length] in H; try lia; unfold be_value; cbn [fold_left];
  repeat match goal with |- context [N_of_ascii ?x] => pose proof (byte_lt x); generalize dependent (N_of_ascii x); intros end;
  change (2 ^ 32) with 4294967296; lia.
Qed.

(** ** Padding and blocks *)
Lemma pads_padded number len m : (forall n, length (len n) = 8%nat) -> (forall n, n < 2 ^ 64 -> number (len n) = n) -> pads number m (padded len m).
Proof.
  intros HL HN. unfold padded. set (n := N.of_nat (length m)). set (z := N.to_nat ((119 - n mod 64) mod 64)).
  exists z, (len ((8 * n) mod (w32 * w32))). split; [reflexivity|]. split; [apply HL|].
  change (w32 * w32) with (2 ^ 64). split; [apply HN; apply N.mod_lt; discriminate|].
  assert ((119 - n mod 64) mod 64 < 64) as Z by (apply N.mod_lt; discriminate). split; [unfold z; lia|].
  rewrite app_length. cbn [length app]. rewrite app_length, repeat_length, HL.
  apply Nat2N.inj. rewrite Nat2N.inj_mod, !Nat2N.inj_add, Nat2N.inj_succ, Nat2N.inj_add. fold n. unfold z. rewrite N2Nat.id.
  change (N.of_nat 64) with 64. change (N.of_nat 0) with 0. change (N.of_nat 8) with 8.
  pose proof (N.div_mod n 64 ltac:(discriminate)) as D. assert (n mod 64 < 64) as M by (apply N.mod_lt; discriminate).
  pose proof (N.div_mod (119 - n mod 64) 64 ltac:(discriminate)) as D2.
  assert ((119 - n mod 64) / 64 <= 1) as Q by (apply N.lt_succ_r; apply N.div_lt_upper_bound; [discriminate|]; apply N.le_lt_trans with 119; [apply N.le_sub_l|reflexivity]).
  set (u := n mod 64) in *. set (q := n / 64) in *. set (a := (119 - u) / 64) in *. set (c := (119 - u) mod 64) in *. clearbody a c u q n. clear z HL HN.
  assert (n + N.succ (c + 8) = (2 + q - a) * 64) as -> by lia. apply N.mod_mul. discriminate.
Qed.
Lemma cut_blocks p : Nat.modulo (length p) 64 = 0%nat -> exists blocks, cut p blocks /\ (length p = 64 * length blocks)%nat.
Proof.
  intro H. apply Nat.mod_divides in H as [k H]; [|discriminate]. revert p H. induction k as [|k IH]; intros p H.
  - exists []. destruct p; [|cbn [length] in H; lia]. split; [split; [reflexivity|constructor]|reflexivity].
  - destruct (IH (skipn 64 p)) as (bl & [E F] & L); [rewrite skipn_length; lia|]. exists (firstn 64 p :: bl). split; [split|].
    + cbn [concat]. rewrite <- E. symmetry. apply firstn_skipn.
    + constructor; [apply firstn_length_le; lia|exact F].
    + cbn [length]. rewrite skipn_length in L. lia.
Qed.
Lemma absorb_blocks {S} (f : S -> bytes -> S) blocks fuel st : Forall (fun b => length b = 64%nat) blocks -> (length blocks < fuel)%nat ->
  absorb f fuel st (concat blocks) = fold_left f blocks st.
Proof.
  revert fuel st. induction blocks as [|b bl IH]; intros fuel st F L; destruct fuel as [|fuel]; cbn [length] in L; try lia; [reflexivity|].
  inversion F as [|? ? HB F']; subst. cbn [concat fold_left].
  assert (absorb f (Datatypes.S fuel) st (b ++ concat bl) = absorb f fuel (f st (firstn 64 (b ++ concat bl))) (skipn 64 (b ++ concat bl))) as ->
    by (destruct b; [discriminate|reflexivity]).
  rewrite firstn_app, skipn_app, HB, Nat.sub_diag, firstn_O, app_nil_r, firstn_all2, skipn_all2 by lia. cbn [app]. rewrite skipn_O.
  apply IH; [exact F'|lia].
Qed.
Lemma chain_fold f (block : bytes -> list N -> list N -> Prop) (P : list N -> Prop) blocks st :
  (forall b h, length b = 64%nat -> P h -> block b h (f h b) /\ P (f h b)) -> Forall (fun b => length b = 64%nat) blocks -> P st ->
  chain block blocks st (fold_left f blocks st) /\ P (fold_left f blocks st).
Proof.
  intros H F. revert st. induction F as [|b bl HB F IH]; intros st HP; [split; [constructor|exact HP]|].
  destruct (H b st HB HP) as [H1 H2]. destruct (IH _ H2) as [I1 I2]. cbn [fold_left]. split; [econstructor; eassumption|exact I2].
Qed.

(** ** SHA-256 *)
Lemma in_word l t : Forall word l -> word (nth t l 0).
Proof.
  intro F. destruct (Nat.lt_ge_cases t (length l)) as [L|G]; [|rewrite nth_overflow by exact G; unfold word; reflexivity].
  rewrite Forall_forall in F. apply F, nth_In, L.
Qed.
Definition next16 (w : list N) : N := add32 (add32 (s1 (nth 1 w 0)) (nth 6 w 0)) (add32 (s0 (nth 14 w 0)) (nth 15 w 0)).
Lemma schedule_nth n pre win t : firstn 16 (rev pre) = win -> (16 <= length pre)%nat -> (length pre <= t + 16 < length pre + n)%nat ->
  let L := pre ++ schedule n win in
  nth (t + 16) L 0 = add32 (add32 (s1 (nth (t + 14) L 0)) (nth (t + 9) L 0)) (add32 (s0 (nth (t + 1) L 0)) (nth t L 0)).
Proof.
  revert pre win. induction n as [|n IH]; intros pre win HW HP HT; [lia|]. cbn [schedule]. fold (next16 win). set (x := next16 win).
  replace (pre ++ x :: schedule n (x :: firstn 15 win)) with ((pre ++ [x]) ++ schedule n (x :: firstn 15 win)) by (rewrite <- app_assoc; reflexivity).
  destruct (Nat.eq_dec (t + 16) (length pre)) as [E|NE].
  - cbv zeta. assert (forall k, (k < length pre)%nat -> nth k ((pre ++ [x]) ++ schedule n (x :: firstn 15 win)) 0 = nth (length pre - 1 - k) (rev pre) 0) as A.
    { intros k HK. rewrite <- app_assoc, app_nth1 by exact HK. rewrite rev_nth by lia. f_equal. lia. }
    assert (nth (t + 16) ((pre ++ [x]) ++ schedule n (x :: firstn 15 win)) 0 = x) as ->.
    { rewrite E, <- app_assoc, app_nth2, Nat.sub_diag by lia. reflexivity. }
    rewrite !A by lia. unfold x, next16. rewrite <- HW.
    assert (forall k, (k < 16)%nat -> nth k (firstn 16 (rev pre)) 0 = nth k (rev pre) 0) as C.
    { intros k HK. rewrite <- (firstn_skipn 16 (rev pre)) at 2. rewrite app_nth1; [reflexivity|]. rewrite firstn_length_le; rewrite ?rev_length; lia. }
    rewrite !C by lia. repeat f_equal; lia.
  - apply IH.
    + rewrite rev_app_distr. change (rev [x] ++ rev pre) with (x :: rev pre). rewrite firstn_cons. f_equal. rewrite <- HW, firstn_firstn. reflexivity.
    + rewrite app_length. cbn [length]. lia.
    + rewrite app_length. cbn [length]. lia.
Qed.
Lemma schedule_words n win : Forall word (schedule n win).
Proof. revert win. induction n as [|n IH]; intro win; [constructor|]. cbn [schedule]. constructor; [apply add_lt|apply IH]. Qed.
Lemma schedule_length n win : length (schedule n win) = n.
Proof. revert win. induction n as [|n IH]; intro win; [reflexivity|]. cbn [schedule length]. rewrite IH. reflexivity. Qed.
Lemma s0_is x : word x -> s0 x = sigma0 x.
Proof. intro H. unfold s0, sigma0. rewrite !rotr_turned by (exact H || discriminate). rewrite N.shiftr_div_pow2. reflexivity. Qed.
Lemma s1_is x : word x -> s1 x = sigma1 x.
Proof. intro H. unfold s1, sigma1. rewrite !rotr_turned by (exact H || discriminate). rewrite N.shiftr_div_pow2. reflexivity. Qed.
Lemma S0_is x : word x -> S0 x = Sigma0 x.
Proof. intro H. unfold S0, Sigma0. rewrite !rotr_turned by (exact H || discriminate). reflexivity. Qed.
Lemma S1_is x : word x -> S1 x = Sigma1 x.
Proof. intro H. unfold S1, Sigma1. rewrite !rotr_turned by (exact H || discriminate). reflexivity. Qed.
Lemma ch_is x y z : word x -> ch x y z = choice x y z.
Proof. intro H. unfold ch, choice. rewrite not_inverted by exact H. reflexivity. Qed.

Definition words8 (v : list N) : Prop := length v = 8%nat /\ Forall word v.
Lemma words8_inv v : words8 v -> exists a b c d e f g h, v = [a; b; c; d; e; f; g; h] /\
  word a /\ word b /\ word c /\ word d /\ word e /\ word f /\ word g /\ word h.
Proof.
  intros [HL F]. do 8 (destruct v as [|? v]; [discriminate|]). destruct v; [|discriminate].
  repeat match goal with H : Forall _ (_ :: _) |- _ => inversion H; clear H; subst end. do 8 eexists. split; [reflexivity|]. repeat split; assumption.
Qed.
Lemma round_words v kw : words8 v -> words8 (round256 v kw).
Proof.
  intro H. destruct (words8_inv v H) as (a & b & c & d & e & f & g & h & -> & ?). cbn [round256]. split; [reflexivity|].
  repeat (constructor; [first [apply add_lt|tauto]|]). constructor.
Qed.
Lemma rounds_words l v : words8 v -> words8 (fold_left round256 l v).
Proof. revert v. induction l as [|x l IH]; intros v H; [exact H|]. cbn [fold_left]. apply IH, round_words, H. Qed.
Lemma firstn_next {A} (l : list A) t d : (t < length l)%nat -> firstn (S t) l = firstn t l ++ [nth t l d].
Proof.
  revert t. induction l as [|x l IH]; intros t H; cbn [length] in H; [lia|]. destruct t as [|t]; [reflexivity|]. cbn [firstn nth app]. f_equal. apply IH. lia.
Qed.
Lemma add_words_length u v : length u = length v -> length (add_words u v) = length u.
Proof. intro H. unfold add_words. rewrite map_length, combine_length. lia. Qed.
Lemma add_words_words u v : Forall word (add_words u v).
Proof. unfold add_words. rewrite Forall_map. apply Forall_forall. intros p _. apply add_lt. Qed.
Lemma add_words_is u v : add_words u v = map (fun p => sum32 [fst p; snd p]) (combine u v).
Proof. unfold add_words. apply map_ext. intro p. apply add_sum. Qed.
Lemma cube_bits : forall t, (t < 64)%nat -> cube_root_bits (nth t primes 0) (nth t K256 0).
Proof.
  assert (forallb (fun t => let p := nth t primes 0 in let x := nth t K256 0 in let a := N.sqrt_up p in
    (x <? 2 ^ 32) && existsb (fun a => ((a * 2 ^ 32 + x) ^ 3 <=? p * 2 ^ 96) && (p * 2 ^ 96 <? (a * 2 ^ 32 + x + 1) ^ 3)) [0; 1; 2; 3; 4; 5; 6; 7]) (seq 0 64) = true) as A
    by (vm_compute; reflexivity).
  intros t HT. rewrite forallb_forall in A. specialize (A t ltac:(apply in_seq; lia)). cbv zeta in A. apply andb_true_iff in A as [A1 A2].
  apply existsb_exists in A2 as (a & _ & A2). apply andb_true_iff in A2 as [A2 A3]. split; [apply N.ltb_lt; exact A1|].
  exists a. split; [apply N.leb_le; exact A2|apply N.ltb_lt; exact A3].
Qed.
Lemma square_bits : Forall2 square_root_bits (firstn 8 primes) H256.
Proof.
  assert (forall p x a, ((x <? 2 ^ 32) && ((a * 2 ^ 32 + x) ^ 2 <=? p * 2 ^ 64) && (p * 2 ^ 64 <? (a * 2 ^ 32 + x + 1) ^ 2)) = true -> square_root_bits p x) as A.
  { intros p x a H. apply andb_true_iff in H as [H H3]. apply andb_true_iff in H as [H1 H2]. split; [apply N.ltb_lt; exact H1|].
    exists a. split; [apply N.leb_le; exact H2|apply N.ltb_lt; exact H3]. }
  cbn [firstn primes]. unfold H256.
  repeat (constructor; [first [apply A with 1; vm_compute; reflexivity|apply A with 2; vm_compute; reflexivity|apply A with 3; vm_compute; reflexivity|apply A with 4; vm_compute; reflexivity]|]).
  constructor.
Qed.
Lemma compress256_block b h : length b = 64%nat -> words8 h -> sha_block b h (compress256 h b) /\ words8 (compress256 h b).
Proof.
  intros HB HH. unfold compress256. set (w := words_of be_value 16 b). set (L := w ++ schedule 48 (rev w)).
  assert (length w = 16%nat) as LW by apply words_length.
  assert (length L = 64%nat) as LL by (unfold L; rewrite app_length, LW, schedule_length; reflexivity).
  assert (Forall word L) as FL by (apply Forall_app; split; [apply words_small, be_word|apply schedule_words]).
  set (kws := combine K256 L). assert (length kws = 64%nat) as LK by (unfold kws; rewrite combine_length, LL; reflexivity).
  assert (words8 (fold_left round256 kws h)) as HV by (apply rounds_words, HH).
  split; [|split; [rewrite add_words_length; destruct HH, HV; congruence|apply add_words_words]].
  exists (fun t => nth t L 0), (fun t => nth t K256 0), (fun t => fold_left round256 (firstn t kws) h).
  split; [exact cube_bits|]. split.
  { intros t HT. unfold L. rewrite app_nth1 by lia. apply big_words; assumption. }
  split.
  { intros t HT. pose proof (schedule_nth 48 w (rev w) t) as SN. cbv zeta in SN. fold L in SN. cbv beta. rewrite SN.
    - rewrite s0_is, s1_is by (apply in_word; exact FL). sums.
    - apply firstn_all2. rewrite rev_length. lia.
    - lia.
    - lia. }
  split; [reflexivity|]. split.
  - intros t HT. rewrite (firstn_next kws t (0, 0)) by lia. rewrite fold_left_app. cbn [fold_left].
    destruct (words8_inv _ (rounds_words (firstn t kws) h HH)) as (v0 & v1 & v2 & v3 & v4 & v5 & v6 & v7 & -> & W0 & W1 & W2 & W3 & W4 & W5 & W6 & W7).
    exists v0, v1, v2, v3, v4, v5, v6, v7. split; [reflexivity|]. cbv zeta. unfold kws. rewrite combine_nth by (rewrite LL; reflexivity).
    cbn [round256 fst snd]. rewrite S0_is, S1_is, ch_is by assumption. change (maj v0 v1 v2) with (majority v0 v1 v2).
    set (k := nth t K256 0). set (x := nth t L 0). f_equal; [sums|]. f_equal. f_equal. f_equal. f_equal. sums.
  - rewrite firstn_all2 by lia. apply add_words_is.
Qed.
Lemma big_digest v : words8 v -> length (flat_map (be_bytes 4) v) = 32%nat /\ forall t, (t < 8)%nat -> big_word (flat_map (be_bytes 4) v) t = nth t v 0.
Proof.
  intro H. destruct (words8_inv v H) as (a & b & c & d & e & f & g & h & -> & W0 & W1 & W2 & W3 & W4 & W5 & W6 & W7). cbn [flat_map].
  destruct (be_cut a W0) as (? & ? & ? & ? & -> & <-), (be_cut b W1) as (? & ? & ? & ? & -> & <-), (be_cut c W2) as (? & ? & ? & ? & -> & <-),
    (be_cut d W3) as (? & ? & ? & ? & -> & <-), (be_cut e W4) as (? & ? & ? & ? & -> & <-), (be_cut f W5) as (? & ? & ? & ? & -> & <-),
    (be_cut g W6) as (? & ? & ? & ? & -> & <-), (be_cut h W7) as (? & ? & ? & ? & -> & <-).
  split; [reflexivity|]. intros t HT. do 8 (destruct t as [|t]; [reflexivity|]). lia.
Qed.
Lemma sha256_ok m : sha256_is m (sha256 m).
Proof.
  unfold sha256. pose proof (pads_padded big64 (be_bytes 8) m (be_length 8)
    (fun n H => eq_trans (big64_value _ (be_length 8 n)) (be_back 8 n H))) as HP.
  set (p := padded (be_bytes 8) m) in *. destruct HP as (z & len & EP & HP). destruct (cut_blocks p) as (bl & [EC FC] & LC); [tauto|].
  assert (words8 H256) as H0 by (split; [reflexivity|unfold H256; repeat constructor]).
  destruct (chain_fold compress256 sha_block words8 bl H256 compress256_block FC H0) as [HC HW].
  exists p, bl, H256, (fold_left compress256 bl H256). split; [exists z, len; tauto|]. split; [split; assumption|]. split; [exact square_bits|].
  split; [exact HC|]. assert (absorb compress256 (S (length p)) H256 p = fold_left compress256 bl H256) as ->.
  { clear EP HP. clearbody p. subst p. apply absorb_blocks; [exact FC|lia]. }
  apply big_digest. exact HW.
Qed.

(** ** MD5 *)
Definition words4 (v : list N) : Prop := length v = 4%nat /\ Forall word v.
Lemma words4_inv v : words4 v -> exists a b c d, v = [a; b; c; d] /\ word a /\ word b /\ word c /\ word d.
Proof.
  intros [HL F]. do 4 (destruct v as [|? v]; [discriminate|]). destruct v; [|discriminate].
  repeat match goal with H : Forall _ (_ :: _) |- _ => inversion H; clear H; subst end. do 4 eexists. split; [reflexivity|]. repeat split; assumption.
Qed.
Definition func5 (r : nat) (b c d : N) : N :=
  match r with O => N.lor (N.land b c) (N.land (not32 b) d) | 1%nat => N.lor (N.land d b) (N.land (not32 d) c)
  | 2%nat => N.lxor b (N.lxor c d) | _ => N.lxor c (N.lor b (not32 d)) end.
Definition index5 (r i : nat) : nat :=
  match r with O => i | 1%nat => Nat.modulo (5 * i + 1) 16 | 2%nat => Nat.modulo (3 * i + 5) 16 | _ => Nat.modulo (7 * i) 16 end.
Lemma step5_eq w a b c d i t : step5 w [a; b; c; d] (i, t) =
  [d; add32 b (rotl (nth (4 * Nat.div i 16 + Nat.modulo i 4) R5 0) (add32 (add32 a (func5 (Nat.div i 16) b c d)) (add32 t (nth (index5 (Nat.div i 16) i) w 0)))); b; c].
Proof. unfold step5, func5, index5. destruct (Nat.div i 16) as [|[|[|r]]]; reflexivity. Qed.
Lemma func5_mix r b c d : word b -> word c -> word d -> func5 r b c d = mix r b c d.
Proof.
  intros H1 H2 H3. destruct r as [|[|[|r]]]; cbn [func5 mix]; rewrite ?not_inverted by assumption; try reflexivity.
  f_equal; apply N.land_comm.
Qed.
Lemma index5_is i : (i < 64)%nat -> index5 (Nat.div i 16) i = word_of_step (Nat.div i 16) i /\ (word_of_step (Nat.div i 16) i < 16)%nat /\
  nth (4 * Nat.div i 16 + Nat.modulo i 4) R5 0 = shift_of_step (Nat.div i 16) i /\ shift_of_step (Nat.div i 16) i <= 32 /\ nth i T5 0 = nth i sines 0.
Proof.
  intro H. assert (forallb (fun i => Nat.eqb (index5 (Nat.div i 16) i) (word_of_step (Nat.div i 16) i) && Nat.ltb (word_of_step (Nat.div i 16) i) 16 &&
    N.eqb (nth (4 * Nat.div i 16 + Nat.modulo i 4) R5 0) (shift_of_step (Nat.div i 16) i) && N.leb (shift_of_step (Nat.div i 16) i) 32 && N.eqb (nth i T5 0) (nth i sines 0)) (seq 0 64) = true) as A
    by (vm_compute; reflexivity).
  rewrite forallb_forall in A. specialize (A i ltac:(apply in_seq; lia)). rewrite !andb_true_iff, Nat.eqb_eq, Nat.ltb_lt, !N.eqb_eq, N.leb_le in A. tauto.
Qed.
Lemma step_words w v it : words4 v -> words4 (step5 w v it).
Proof.
  intro H. destruct (words4_inv v H) as (a & b & c & d & -> & ?). destruct it as [i t]. rewrite step5_eq. split; [reflexivity|].
  repeat (constructor; [first [apply add_lt|tauto]|]). constructor.
Qed.
Lemma steps_words w l v : words4 v -> words4 (fold_left (step5 w) l v).
Proof. revert v. induction l as [|x l IH]; intros v H; [exact H|]. cbn [fold_left]. apply IH, step_words, H. Qed.
Lemma compress5_block b h : length b = 64%nat -> words4 h -> md5_block b h (compress5 h b) /\ words4 (compress5 h b).
Proof.
  intros HB HH. unfold compress5. set (w := words_of (fun l => be_value (rev l)) 16 b).
  set (its := combine (seq 0 64) T5). assert (length its = 64%nat) as LK by reflexivity.
  assert (words4 (fold_left (step5 w) its h)) as HV by (apply steps_words, HH).
  split; [|split; [rewrite add_words_length; destruct HH, HV; congruence|apply add_words_words]].
  exists (fun t => fold_left (step5 w) (firstn t its) h). split; [reflexivity|]. split.
  - intros i HI. rewrite (firstn_next its i (0%nat, 0)) by lia. rewrite fold_left_app. cbn [fold_left].
    destruct (words4_inv _ (steps_words w (firstn i its) h HH)) as (x0 & x1 & x2 & x3 & -> & W0 & W1 & W2 & W3).
    exists x0, x1, x2, x3. split; [reflexivity|]. cbv zeta. unfold its. rewrite combine_nth by reflexivity. rewrite seq_nth by exact HI.
    rewrite Nat.add_0_l, step5_eq. destruct (index5_is i HI) as (-> & HK & -> & HS & ->). rewrite func5_mix by assumption.
    unfold w. rewrite small_words by assumption. rewrite rotl_turned; [|exact HS|apply add_lt]. 
    set (k := nth i sines 0). set (x := small_word b (word_of_step (i / 16) i)). set (f := mix (i / 16) x1 x2 x3).
    assert (add32 (add32 x0 f) (add32 k x) = sum32 [x0; f; x; k]) as -> by sums. rewrite add_sum. reflexivity.
  - rewrite firstn_all2 by lia. apply add_words_is.
Qed.
Lemma small_digest v : words4 v -> length (flat_map (fun x => rev (be_bytes 4 x)) v) = 16%nat /\
  forall t, (t < 4)%nat -> small_word (flat_map (fun x => rev (be_bytes 4 x)) v) t = nth t v 0.
Proof.
  intro H. destruct (words4_inv v H) as (a & b & c & d & -> & W0 & W1 & W2 & W3). cbn [flat_map].
  destruct (be_cut a W0) as (? & ? & ? & ? & -> & <-), (be_cut b W1) as (? & ? & ? & ? & -> & <-), (be_cut c W2) as (? & ? & ? & ? & -> & <-),
    (be_cut d W3) as (? & ? & ? & ? & -> & <-).
  split; [reflexivity|]. intros t HT. do 4 (destruct t as [|t]; [unfold small_word, four, octet; cbn [nth Nat.mul Nat.add rev app]; lia|]). lia.
Qed.
Lemma small64_back n : n < 2 ^ 64 -> small64 (rev (be_bytes 8 n)) = n.
Proof. intro H. unfold small64. rewrite rev_involutive, big64_value by apply be_length. apply be_back. exact H. Qed.
Lemma md5_ok m : md5_is m (md5 m).
Proof.
  unfold md5. assert (forall n, length (rev (be_bytes 8 n)) = 8%nat) as HL by (intro n; rewrite rev_length; apply be_length).
  pose proof (pads_padded small64 (fun n => rev (be_bytes 8 n)) m HL small64_back) as HP.
  set (p := padded (fun n => rev (be_bytes 8 n)) m) in *. destruct HP as (z & len & EP & HP). destruct (cut_blocks p) as (bl & [EC FC] & LC); [tauto|].
  set (h0 := [1732584193; 4023233417; 2562383102; 271733878]).
  assert (words4 h0) as H0 by (split; [reflexivity|unfold h0; repeat constructor]).
  destruct (chain_fold compress5 md5_block words4 bl h0 compress5_block FC H0) as [HC HW].
  exists p, bl, (fold_left compress5 bl h0). split; [exists z, len; tauto|]. split; [split; assumption|]. split; [exact HC|].
  assert (absorb compress5 (S (length p)) h0 p = fold_left compress5 bl h0) as ->.
  { clear EP HP. clearbody p. subst p. apply absorb_blocks; [exact FC|lia]. }
  apply small_digest. exact HW.
Qed.

(** ** Hexadecimal *)
Lemma hex_char_digit n : n < 16 -> digit_of n (hex_char n).
Proof.
  intro H. assert (In (N.to_nat n) (seq 0 16)) as I by (apply in_seq; lia). rewrite <- (N2Nat.id n). generalize dependent (N.to_nat n). intros k I.
  cbn [seq In] in I. repeat (destruct I as [<-|I]; [reflexivity|]). destruct I.
Qed.
Lemma hex_written l : written_hex l (hex_of l).
Proof.
  induction l as [|x l IH]; [constructor|]. cbn [hex_of flat_map app]. pose proof (byte_lt x) as HX. constructor; [| |exact IH].
  - apply hex_char_digit. apply N.div_lt_upper_bound; [discriminate|exact HX].
  - apply hex_char_digit. apply N.mod_lt. discriminate.
Qed.
Lemma written_length l t : written_hex l t -> length t = (2 * length l)%nat.
Proof. induction 1 as [|x a b l t HA HB HW IH]; [reflexivity|]. cbn [length]. lia. Qed.
Lemma written_unique l t u : written_hex l t -> written_hex l u -> t = u.
Proof.
  intro H. revert u. induction H as [|x a b l t HA HB HW IH]; intros u H; inversion H as [|? a2 b2 ? t2 HA2 HB2 HW2]; subst; [reflexivity|].
  unfold digit_of in *. rewrite (IH _ HW2). congruence.
Qed.

(** ** The standards leave no choice *)
Lemma root_unique k P x y : k <> 0 -> x ^ k <= P < (x + 1) ^ k -> y ^ k <= P < (y + 1) ^ k -> x = y.
Proof.
  intros HK [A1 A2] [B1 B2]. destruct (N.lt_trichotomy x y) as [L|[E|L]]; [exfalso|exact E|exfalso].
  - assert ((x + 1) ^ k <= y ^ k) by (apply N.pow_le_mono_l; lia). lia.
  - assert ((y + 1) ^ k <= x ^ k) by (apply N.pow_le_mono_l; lia). lia.
Qed.
Lemma low_unique a b x y : word x -> word y -> a * 2 ^ 32 + x = b * 2 ^ 32 + y -> x = y.
Proof. unfold word. change (2 ^ 32) with 4294967296. lia. Qed.
Lemma cube_unique p x y : cube_root_bits p x -> cube_root_bits p y -> x = y.
Proof. intros [H1 [a HA]] [H2 [b HB]]. apply (low_unique a b); [exact H1|exact H2|]. apply (root_unique 3 (p * 2 ^ 96)); [discriminate|exact HA|exact HB]. Qed.
Lemma square_unique p x y : square_root_bits p x -> square_root_bits p y -> x = y.
Proof. intros [H1 [a HA]] [H2 [b HB]]. apply (low_unique a b); [exact H1|exact H2|]. apply (root_unique 2 (p * 2 ^ 64)); [discriminate|exact HA|exact HB]. Qed.
Lemma byte_inj a b : N_of_ascii a = N_of_ascii b -> a = b.
Proof. intro H. rewrite <- (ascii_N_embedding a), <- (ascii_N_embedding b). congruence. Qed.
Lemma be_inj l l' : length l = length l' -> be_value l = be_value l' -> l = l'.
Proof.
  revert l'. induction l as [|c l IH] using rev_ind; intros l' HL H.
  - destruct l'; [reflexivity|discriminate].
  - destruct l' as [|c' l' _] using rev_ind; [rewrite app_length in HL; cbn [length] in HL; lia|]. rewrite !be_snoc in H. rewrite !app_length in HL. cbn [length] in HL.
    pose proof (byte_lt c). pose proof (byte_lt c'). assert (be_value l = be_value l' /\ N_of_ascii c = N_of_ascii c') as [E1 E2] by lia.
    apply byte_inj in E2. rewrite (IH l'); [congruence|lia|exact E1].
Qed.
Lemma pads_unique number m p p' : (forall l l', length l = 8%nat -> length l' = 8%nat -> number l = number l' -> l = l') ->
  pads number m p -> pads number m p' -> p = p'.
Proof.
  intros HI (z & len & -> & L & HN & HZ & HM) (z' & len' & -> & L' & HN' & HZ' & HM'). assert (len = len') as <- by (apply HI; congruence).
  assert (z = z') as <-; [|reflexivity]. rewrite !app_length, repeat_length in HM, HM'. cbn [length] in HM, HM'. rewrite L in HM, HM'.
  apply Nat.mod_divides in HM as [k HM]; [|discriminate]. apply Nat.mod_divides in HM' as [k' HM']; [|discriminate]. lia.
Qed.
Lemma cut_unique p bl bl' : cut p bl -> cut p bl' -> bl = bl'.
Proof.
  intros [-> F] [E F']. revert bl' E F'. induction F as [|b bl HB F IH]; intros bl' E F'; destruct F' as [|b' bl' HB' F']; [reflexivity| | |].
  - destruct b'; [discriminate HB'|discriminate E].
  - destruct b; [discriminate HB|discriminate E].
  - cbn [concat] in E. apply app_eq_len in E as [-> E]; [|congruence]. f_equal. apply IH; assumption.
Qed.
Lemma sha_block_unique b h x y : sha_block b h x -> sha_block b h y -> x = y.
Proof.
  intros (W & K & V & HK & H1 & H2 & HV & HS & ->) (W' & K' & V' & HK' & H1' & H2' & HV' & HS' & ->).
  assert (forall t, (t < 64)%nat -> K t = K' t) as EK by (intros t HT; eapply cube_unique; [apply HK; exact HT|apply HK'; exact HT]).
  assert (forall n t, (t < n)%nat -> (t < 64)%nat -> W t = W' t) as EW.
  { induction n as [|n IH]; intros t HN HT; [lia|]. destruct (Nat.lt_ge_cases t 16) as [L|G]; [rewrite H1, H1' by exact L; reflexivity|].
    replace t with ((t - 16) + 16)%nat by lia. rewrite H2, H2' by lia. rewrite !(IH (t - 16 + _)%nat), (IH (t - 16)%nat) by lia. reflexivity. }
  assert (forall t, (t <= 64)%nat -> V t = V' t) as EV.
  { induction t as [|t IH]; intro HT; [congruence|]. destruct (HS t) as (a & b0 & c & d & e & f & g & i & E & ->); [lia|].
    destruct (HS' t) as (a' & b' & c' & d' & e' & f' & g' & i' & E' & ->); [lia|]. rewrite <- IH, E in E' by lia. injection E' as <- <- <- <- <- <- <- <-.
    cbv zeta. rewrite EK, (EW (S t)) by lia. reflexivity. }
  rewrite EV by lia. reflexivity.
Qed.
Lemma md5_block_unique b h x y : md5_block b h x -> md5_block b h y -> x = y.
Proof.
  intros (V & HV & HS & ->) (V' & HV' & HS' & ->). assert (forall t, (t <= 64)%nat -> V t = V' t) as EV; [|rewrite EV by lia; reflexivity].
  induction t as [|t IH]; intro HT; [congruence|]. destruct (HS t) as (a & b0 & c & d & E & ->); [lia|].
  destruct (HS' t) as (a' & b' & c' & d' & E' & ->); [lia|]. rewrite <- IH, E in E' by lia. injection E' as <- <- <- <-. reflexivity.
Qed.
Lemma chain_unique (block : bytes -> list N -> list N -> Prop) bl h x y : (forall b h x y, block b h x -> block b h y -> x = y) -> chain block bl h x -> chain block bl h y -> x = y.
Proof.
  intros HB H. revert y. induction H as [h|b l h h1 h2 H H1 IH]; intros y HY; inversion HY as [|? ? ? k1 ? HK HY1]; subst; [reflexivity|].
  apply IH. rewrite (HB _ _ _ _ H HK). exact HY1.
Qed.
Lemma byte_list n : forall l l' : bytes, length l = n -> length l' = n -> (forall k, (k < n)%nat -> octet l k = octet l' k) -> l = l'.
Proof.
  induction n as [|n IH]; intros [|a l] [|b l'] HL HL' H; try discriminate; [reflexivity|]. f_equal.
  - apply byte_inj. exact (H 0%nat ltac:(lia)).
  - apply IH; [injection HL; auto|injection HL'; auto|]. intros k HK. exact (H (S k) ltac:(lia)).
Qed.
Lemma at_lt l k : octet l k < 256. Proof. apply byte_lt. Qed.
Ltac bytewise l l' t := pose proof (at_lt l (4 * t)); pose proof (at_lt l (4 * t + 1)); pose proof (at_lt l (4 * t + 2)); pose proof (at_lt l (4 * t + 3));
  pose proof (at_lt l' (4 * t)); pose proof (at_lt l' (4 * t + 1)); pose proof (at_lt l' (4 * t + 2)); pose proof (at_lt l' (4 * t + 3)).
Lemma big_bytes l l' t : big_word l t = big_word l' t -> forall j, (j < 4)%nat -> octet l (4 * t + j) = octet l' (4 * t + j).
Proof.
  intros H j HJ. unfold big_word in H. bytewise l l' t. change (2 ^ 24) with 16777216 in H. change (2 ^ 16) with 65536 in H. change (2 ^ 8) with 256 in H.
  destruct j as [|[|[|[|j]]]]; [rewrite Nat.add_0_r|..]; lia.
Qed.
Lemma small_bytes l l' t : small_word l t = small_word l' t -> forall j, (j < 4)%nat -> octet l (4 * t + j) = octet l' (4 * t + j).
Proof.
  intros H j HJ. unfold small_word in H. bytewise l l' t. change (2 ^ 24) with 16777216 in H. change (2 ^ 16) with 65536 in H. change (2 ^ 8) with 256 in H.
  destruct j as [|[|[|[|j]]]]; [rewrite Nat.add_0_r|..]; lia.
Qed.
Lemma by_words (word : bytes -> nat -> N) n l l' : (forall t, word l t = word l' t -> forall j, (j < 4)%nat -> octet l (4 * t + j) = octet l' (4 * t + j)) ->
  length l = (4 * n)%nat -> length l' = (4 * n)%nat -> (forall t, (t < n)%nat -> word l t = word l' t) -> l = l'.
Proof.
  intros HW HL HL' H. apply (byte_list (4 * n)); [exact HL|exact HL'|]. intros k HK.
  pose proof (Nat.div_mod k 4 ltac:(discriminate)) as D. pose proof (Nat.mod_upper_bound k 4 ltac:(discriminate)) as M.
  rewrite D. apply HW; [|exact M]. apply H. apply Nat.div_lt_upper_bound; lia.
Qed.
Lemma sha256_unique m d d' : sha256_is m d -> sha256_is m d' -> d = d'.
Proof.
  intros (p & bl & h0 & h & HP & HC & H0 & HH & L & HD) (p' & bl' & h0' & h' & HP' & HC' & H0' & HH' & L' & HD').
  assert (p = p') as <-. { eapply pads_unique; [|exact HP|exact HP']. intros l l' A A' E. rewrite !big64_value in E by assumption. apply be_inj; congruence. }
  assert (bl = bl') as <- by (eapply cut_unique; eassumption).
  assert (h0 = h0') as <-.
  { clear - H0 H0'. revert h0' H0'. induction H0 as [|q x ps xs HX HF IH]; intros h0' H; inversion H as [|? y ? ys HY HF']; subst; [reflexivity|].
    f_equal; [eapply square_unique; eassumption|apply IH; assumption]. }
  assert (h = h') as <- by (eapply chain_unique; [exact sha_block_unique|exact HH|exact HH']).
  apply (by_words big_word 8); [apply big_bytes|exact L|exact L'|]. intros t HT. rewrite HD, HD' by exact HT. reflexivity.
Qed.
Lemma md5_unique m d d' : md5_is m d -> md5_is m d' -> d = d'.
Proof.
  intros (p & bl & h & HP & HC & HH & L & HD) (p' & bl' & h' & HP' & HC' & HH' & L' & HD').
  assert (p = p') as <-.
  { eapply pads_unique; [|exact HP|exact HP']. intros l l' A A' E. unfold small64 in E. rewrite !big64_value in E by (rewrite rev_length; assumption).
    apply be_inj in E; [|rewrite !rev_length; congruence]. rewrite <- (rev_involutive l), E. apply rev_involutive. }
  assert (bl = bl') as <- by (eapply cut_unique; eassumption).
  assert (h = h') as <- by (eapply chain_unique; [exact md5_block_unique|exact HH|exact HH']).
  apply (by_words small_word 4); [apply small_bytes|exact L|exact L'|]. intros t HT. rewrite HD, HD' by exact HT. reflexivity.
Qed.
