(** * MessagePack: the reader reads the format, the writer writes it *)
From Verif Require Import Bytes Json Utils JsonText MsgPack Spec SpecJson SpecPack BytesFacts JsonProofs MergeProofs.

Lemma cons_inv (a b : ascii) s t : a :: s = b :: t -> a = b /\ s = t.
Proof. intro H. injection H. auto. Qed.
Lemma take_iff k s x r : take k s = Some (x, r) <-> s = x ++ r /\ length x = k.
Proof.
  revert s x r. induction k as [|k IH]; intros s x r; cbn [take].
  - split; [intro H; injection H as <- <-; auto|]. intros (-> & H). destruct x; [reflexivity|discriminate].
  - destruct s as [|c s].
    + split; [discriminate|]. intros (H & HL). destruct x; [discriminate HL|discriminate H].
    + destruct (take k s) as [[x' r']|] eqn:E.
      * apply IH in E as (-> & E). split; [intro H; injection H as <- <-; cbn; split; [reflexivity|congruence]|].
        intros (H & HL). destruct x as [|d x]; [discriminate|]. cbn in H, HL. injection H as -> H. injection HL as HL.
        assert (take k (x' ++ r') = Some (x, r)) as K by (apply IH; auto). assert (take k (x' ++ r') = Some (x', r')) as K' by (apply IH; auto). congruence.
      * split; [discriminate|]. intros (H & HL). destruct x as [|d x]; [discriminate|]. cbn in H, HL. injection H as -> H. injection HL as HL.
        assert (take k s = Some (x, r)) as K by (apply IH; auto). congruence.
Qed.
Lemma take_N_iff n s x r : take_N n s = Some (x, r) <-> s = x ++ r /\ N.of_nat (length x) = n.
Proof.
  unfold take_N. destruct (N.leb_spec n (N.of_nat (length s))) as [L|L].
  - rewrite take_iff. split; intros (H & HL); (split; [exact H|lia]).
  - split; [discriminate|]. intros (-> & HL). rewrite app_length in L. lia.
Qed.
Lemma be_value_snoc t c : be_value (t ++ [c]) = (be_value t * 256 + N_of_ascii c)%N.
Proof. unfold be_value. rewrite fold_left_app. reflexivity. Qed.
Lemma be_iff t n : big_endian t n <-> n = be_value t.
Proof.
  split.
  - intro H. induction H; [reflexivity|]. rewrite be_value_snoc. congruence.
  - intros ->. induction t as [|c t IH] using rev_ind; [constructor|]. rewrite be_value_snoc. constructor. exact IH.
Qed.
Lemma N_below c : (N_of_ascii c < 256)%N. Proof. apply N_ascii_bounded. Qed.
Lemma be_bound t : (be_value t < 2 ^ (8 * N.of_nat (length t)))%N.
Proof.
  induction t as [|c t IH] using rev_ind; [cbn; lia|]. rewrite be_value_snoc, app_length. cbn [length]. pose proof (N_below c).
  replace (8 * N.of_nat (length t + 1))%N with (8 * N.of_nat (length t) + 8)%N by lia. rewrite N.pow_add_r. change (2 ^ 8)%N with 256%N. nia.
Qed.
Lemma read_be_iff k s n r : read_be k s = Some (n, r) <-> exists u, s = u ++ r /\ length u = k /\ big_endian u n.
Proof.
  unfold read_be. destruct (take k s) as [[x r']|] eqn:E.
  - apply take_iff in E as (-> & E). split.
    + intro H. injection H as <- <-. exists x. split; [reflexivity|]. split; [exact E|]. apply be_iff. reflexivity.
    + intros (u & H & HL & HB). apply be_iff in HB. subst n. assert (take k (u ++ r) = Some (u, r)) as K by (apply take_iff; auto).
      rewrite <- H in K. assert (take k (x ++ r') = Some (x, r')) as K' by (apply take_iff; auto). congruence.
  - split; [discriminate|]. intros (u & H & HL & _). assert (take k s = Some (u, r)) as K by (apply take_iff; auto). congruence.
Qed.
Lemma read_be_field m k b s n r : (m < 256)%N -> N_of_ascii b = m -> (read_be k s = Some (n, r) <-> exists t, b :: s = t ++ r /\ field m k t n).
Proof.
  intros Hm Hb. rewrite read_be_iff. split.
  - intros (u & -> & HL & HB). exists (b :: u). split; [reflexivity|]. exists u. split; [|auto]. rewrite <- Hb, ascii_N_embedding. reflexivity.
  - intros (t & E & u & -> & HL & HB). cbn [app] in E. apply cons_inv in E as (_ & ->). eauto.
Qed.
Lemma field_marker m k t n : field m k t n -> (m < 256)%N -> exists u, t = ascii_of_N m :: u /\ length u = k /\ N_of_ascii (ascii_of_N m) = m /\ (n < 2 ^ (8 * N.of_nat k))%N.
Proof.
  intros (u & -> & HL & HB) Hm. exists u. split; [reflexivity|]. split; [exact HL|]. split; [apply N_ascii_embedding; exact Hm|].
  apply be_iff in HB. subst. apply be_bound.
Qed.

Lemma signed_iff bits n z : (0 < bits)%N -> (n < 2 ^ bits)%N -> (signed bits n = z <-> complement bits n z).
Proof.
  intros Hb Hn. unfold signed, complement.
  assert (2 ^ bits = 2 * 2 ^ (bits - 1))%N as EP by (rewrite <- N.pow_succ_r'; f_equal; lia).
  assert (Z.of_N (2 ^ (bits - 1)) = 2 ^ (Z.of_N bits - 1))%Z as EZ by (rewrite N2Z.inj_pow, N2Z.inj_sub by lia; reflexivity).
  assert (2 ^ Z.of_N bits = 2 * 2 ^ (Z.of_N bits - 1))%Z as EQ by (rewrite <- Z.pow_succ_r by lia; f_equal; lia).
  destruct (N.ltb_spec n (2 ^ (bits - 1))) as [L|L]; split; lia.
Qed.
Lemma whole_iff z n : whole_number z n <-> int_num z = n.
Proof.
  split.
  - intros [k|p]; [destruct k; reflexivity|reflexivity].
  - intros <-. destruct z; cbn; [apply (wn_pos 0)|apply (wn_pos (Npos p))|constructor].
Qed.

Ltac deciN := repeat match goal with
  | |- context [(?a <=? ?b)%N] => destruct (N.leb_spec a b); try lia
  | |- context [(?a <? ?b)%N] => destruct (N.ltb_spec a b); try lia
  | |- context [(?a =? ?b)%N] => destruct (N.eqb_spec a b); try lia
  end; cbn [andb negb].
Ltac deciH H := repeat match type of H with
  | context [(?a <=? ?b)%N] => destruct (N.leb_spec a b); try lia
  | context [(?a <? ?b)%N] => destruct (N.ltb_spec a b); try lia
  | context [(?a =? ?b)%N] => destruct (N.eqb_spec a b); try lia
  end; cbn [andb negb] in H.

(** ** Texts *)
Lemma read_utf8_iff n s x r : read_utf8 n s = Some (x, r) <-> s = x ++ r /\ N.of_nat (length x) = n /\ utf8_valid x = true.
Proof.
  unfold read_utf8. destruct (take_N n s) as [[y q]|] eqn:E.
  - split.
    + destruct (utf8_valid y) eqn:V; [|discriminate]. intro H. injection H as <- <-. apply take_N_iff in E as (-> & E). auto.
    + intros (H1 & H2 & H3). assert (take_N n s = Some (x, r)) as K by (apply take_N_iff; auto). rewrite K in E. injection E as <- <-. rewrite H3. reflexivity.
  - split; [discriminate|]. intros (H1 & H2 & H3). assert (take_N n s = Some (x, r)) as K by (apply take_N_iff; auto). congruence.
Qed.
Lemma utf8_len_iff m k b s x r : (m < 256)%N -> N_of_ascii b = m ->
  (read_utf8_len k s = Some (x, r) <-> exists t, b :: s = t ++ r /\ packed_text (field m k) t x).
Proof.
  intros Hm Hb. unfold read_utf8_len. split.
  - destruct (read_be k s) as [[n q]|] eqn:E; [|discriminate]. intro H. apply read_utf8_iff in H as (-> & HL & HV).
    apply (read_be_field m k b s n (x ++ r) Hm Hb) in E as (t & E & HF). exists (t ++ x). rewrite <- app_assoc. split; [exact E|].
    exists t. split; [reflexivity|]. subst n. auto.
  - intros (t & E & h & -> & HF & HV). rewrite <- app_assoc in E.
    assert (read_be k s = Some (N.of_nat (length x), x ++ r)) as K by (apply (read_be_field m k b s _ _ Hm Hb); eauto).
    rewrite K. apply read_utf8_iff. auto.
Qed.
Lemma str_sound b s x r : read_str (N_of_ascii b) s = Some (x, r) -> exists t, b :: s = t ++ r /\ packed_text str_head t x.
Proof.
  unfold read_str. intro H. pose proof (N_below b) as HB.
  destruct ((160 <=? N_of_ascii b)%N && (N_of_ascii b <? 192)%N) eqn:EF.
  - apply andb_true_iff in EF as (E1 & E2). apply N.leb_le in E1. apply N.ltb_lt in E2. apply read_utf8_iff in H as (-> & HL & HV).
    exists (b :: x). split; [reflexivity|]. exists [b]. split; [reflexivity|]. split; [|exact HV]. rewrite HL.
    replace b with (ascii_of_N (160 + (N_of_ascii b - 160))) at 1; [apply sh_fix; lia|].
    replace (160 + (N_of_ascii b - 160))%N with (N_of_ascii b) by lia. apply ascii_N_embedding.
  - clear EF. assert (forall m k, (m < 256)%N -> N_of_ascii b = m -> (forall t n, field m k t n -> str_head t n) -> read_utf8_len k s = Some (x, r) ->
      exists t, b :: s = t ++ r /\ packed_text str_head t x) as K.
    { intros m k Hm Hb HS HR. apply (utf8_len_iff m k b s x r Hm Hb) in HR as (t & E & h & Eh & HF & HV). exists t. split; [exact E|]. exists h. auto. }
    destruct (N.eqb_spec (N_of_ascii b) 217) as [E|_]; [apply (K 217%N 1); auto using sh_8; lia|].
    destruct (N.eqb_spec (N_of_ascii b) 218) as [E|_]; [apply (K 218%N 2); auto using sh_16; lia|].
    destruct (N.eqb_spec (N_of_ascii b) 219) as [E|_]; [apply (K 219%N 4); auto using sh_32; lia|]. discriminate.
Qed.
Lemma marker_split m k t n (u s : bytes) b : field m k t n -> b :: s = t ++ u -> (m < 256)%N -> N_of_ascii b = m.
Proof. intros (w & -> & _) E Hm. cbn [app] in E. apply cons_inv in E as (-> & _). apply N_ascii_embedding. exact Hm. Qed.
Lemma str_complete b s x r t : b :: s = t ++ r -> packed_text str_head t x -> read_str (N_of_ascii b) s = Some (x, r) /\ (160 <= N_of_ascii b)%N /\
  ((N_of_ascii b < 192)%N \/ N_of_ascii b = 217%N \/ N_of_ascii b = 218%N \/ N_of_ascii b = 219%N).
Proof.
  intros E (h & -> & HH & HV). rewrite <- app_assoc in E. inversion HH as [n Hn EH EL|? n HF|? n HF|? n HF]; subst.
  - cbn [app] in E. apply cons_inv in E as (-> & ->). rewrite N_ascii_embedding by lia. split; [|split; lia]. unfold read_str. deciN. apply read_utf8_iff. split; [reflexivity|]. split; [lia|exact HV].
  - pose proof (marker_split _ _ _ _ _ _ _ HF E ltac:(lia)) as M. rewrite M. split; [|split; lia]. unfold read_str. deciN.
    apply (utf8_len_iff 217 1 b s x r); [lia|exact M|]. exists (h ++ x). rewrite <- app_assoc. split; [exact E|]. exists h. auto.
  - pose proof (marker_split _ _ _ _ _ _ _ HF E ltac:(lia)) as M. rewrite M. split; [|split; lia]. unfold read_str. deciN.
    apply (utf8_len_iff 218 2 b s x r); [lia|exact M|]. exists (h ++ x). rewrite <- app_assoc. split; [exact E|]. exists h. auto.
  - pose proof (marker_split _ _ _ _ _ _ _ HF E ltac:(lia)) as M. rewrite M. split; [|split; lia]. unfold read_str. deciN.
    apply (utf8_len_iff 219 4 b s x r); [lia|exact M|]. exists (h ++ x). rewrite <- app_assoc. split; [exact E|]. exists h. auto.
Qed.
Lemma text_nonempty t x : packed_text str_head t x \/ packed_text bin_head t x -> t <> [].
Proof.
  intros [(h & -> & HH & _)|(h & -> & HH & _)].
  - destruct HH as [n _|? n HF|? n HF|? n HF]; [discriminate| | |]; destruct HF as (u & -> & _); discriminate.
  - destruct HH as [HF|[HF|HF]]; destruct HF as (u & -> & _); discriminate.
Qed.
Lemma key_iff first s k r : read_key first s = Some (k, r) <-> exists t, s = t ++ r /\ packed_key first t k.
Proof.
  split.
  - destruct s as [|b s]; [discriminate|]. cbn [read_key]. intro H.
    assert (forall m n, (m < 256)%N -> N_of_ascii b = m -> first = false -> (forall t l, field m n t l -> bin_head t l) -> read_utf8_len n s = Some (k, r) ->
      exists t, b :: s = t ++ r /\ packed_key first t k) as K.
    { intros m n Hm Hb HF HS HR. apply (utf8_len_iff m n b s k r Hm Hb) in HR as (t & E & h & Eh & HFi & HV). exists t. split; [exact E|]. right. split; [exact HF|].
      exists h. auto. }
    destruct first; cbn [negb andb] in H; [apply str_sound in H as (t & E & HT); exists t; split; [exact E|left; exact HT]|].
    destruct (N.eqb_spec (N_of_ascii b) 196) as [E|_]; [apply (K 196%N 1); auto; [lia|intros; left; assumption]|].
    destruct (N.eqb_spec (N_of_ascii b) 197) as [E|_]; [apply (K 197%N 2); auto; [lia|intros; right; left; assumption]|].
    destruct (N.eqb_spec (N_of_ascii b) 198) as [E|_]; [apply (K 198%N 4); auto; [lia|intros; right; right; assumption]|].
    apply str_sound in H as (t & E & HT). exists t. split; [exact E|left; exact HT].
  - intros (t & -> & HK). assert (t <> []) as HN by (apply (text_nonempty t k); destruct HK as [HK|(_ & HK)]; auto).
    destruct t as [|b u]; [congruence|]. cbn [app read_key]. assert (b :: (u ++ r) = (b :: u) ++ r) as E by reflexivity.
    destruct HK as [HK|(-> & HK)].
    + destruct (str_complete _ _ _ _ _ E HK) as (HR & HL & HM).
      destruct (N.eqb_spec (N_of_ascii b) 196); [lia|]. destruct (N.eqb_spec (N_of_ascii b) 197); [lia|]. destruct (N.eqb_spec (N_of_ascii b) 198); [lia|].
      rewrite !andb_false_r. exact HR.
    + destruct HK as (h & EH & HH & HV). cbn [negb andb]. rewrite EH, <- app_assoc in E.
      destruct HH as [HF|[HF|HF]]; pose proof (marker_split _ _ _ _ _ _ _ HF E ltac:(lia)) as M; rewrite M.
      * change ((196 =? 196)%N) with true. apply (utf8_len_iff 196 1 b _ k r ltac:(lia) M). exists (h ++ k). rewrite <- app_assoc. split; [exact E|]. exists h; auto.
      * change ((197 =? 196)%N) with false. change ((197 =? 197)%N) with true. apply (utf8_len_iff 197 2 b _ k r ltac:(lia) M). exists (h ++ k). rewrite <- app_assoc. split; [exact E|]. exists h; auto.
      * change ((198 =? 196)%N) with false. change ((198 =? 197)%N) with false. change ((198 =? 198)%N) with true. apply (utf8_len_iff 198 4 b _ k r ltac:(lia) M). exists (h ++ k). rewrite <- app_assoc. split; [exact E|]. exists h; auto.
Qed.

(** ** Counts *)
Definition arr_mark (c : N) : Prop := ((144 <= c < 160) \/ c = 220 \/ c = 221)%N.
Definition map_mark (c : N) : Prop := ((128 <= c < 144) \/ c = 222 \/ c = 223)%N.
Lemma count_none base e m16 c s : ~ ((base <= c < e) \/ c = m16 \/ c = m16 + 1)%N -> read_count base e m16 c s = None.
Proof. intro H. unfold read_count. deciN; try reflexivity; lia. Qed.
Lemma arr_count b s n r : read_count 144 160 220 (N_of_ascii b) s = Some (n, r) <-> exists t, b :: s = t ++ r /\ array_head t n.
Proof.
  pose proof (N_below b) as HB. split.
  - unfold read_count. intro H. destruct ((144 <=? N_of_ascii b)%N && (N_of_ascii b <? 160)%N) eqn:EF.
    + apply andb_true_iff in EF as (E1 & E2). apply N.leb_le in E1. apply N.ltb_lt in E2. injection H as <- <-. exists [b]. split; [reflexivity|].
      replace b with (ascii_of_N (144 + (N_of_ascii b - 144))) at 1; [apply ah_fix; lia|].
      replace (144 + (N_of_ascii b - 144))%N with (N_of_ascii b) by lia. apply ascii_N_embedding.
    + destruct (N.eqb_spec (N_of_ascii b) 220) as [E|_]; [apply (read_be_field 220 2 b s n r ltac:(lia) E) in H as (t & H & HF); exists t; auto using ah_16|].
      change (220 + 1)%N with 221%N in H. destruct (N.eqb_spec (N_of_ascii b) 221) as [E|_]; [|discriminate].
      apply (read_be_field 221 4 b s n r ltac:(lia) E) in H as (t & H & HF); exists t; auto using ah_32.
  - intros (t & E & HH). inversion HH as [? Hn|? ? HF|? ? HF]; subst.
    + cbn [app] in E. apply cons_inv in E as (-> & ->). rewrite N_ascii_embedding by lia. unfold read_count. deciN. do 2 f_equal. lia.
    + pose proof (marker_split _ _ _ _ _ _ _ HF E ltac:(lia)) as M. rewrite M. unfold read_count. deciN. apply (read_be_field 220 2 b s n r ltac:(lia) M). eauto.
    + pose proof (marker_split _ _ _ _ _ _ _ HF E ltac:(lia)) as M. rewrite M. unfold read_count. deciN. apply (read_be_field 221 4 b s n r ltac:(lia) M). eauto.
Qed.
Lemma map_count b s n r : read_count 128 144 222 (N_of_ascii b) s = Some (n, r) <-> exists t, b :: s = t ++ r /\ map_head t n.
Proof.
  pose proof (N_below b) as HB. split.
  - unfold read_count. intro H. destruct ((128 <=? N_of_ascii b)%N && (N_of_ascii b <? 144)%N) eqn:EF.
    + apply andb_true_iff in EF as (E1 & E2). apply N.leb_le in E1. apply N.ltb_lt in E2. injection H as <- <-. exists [b]. split; [reflexivity|].
      replace b with (ascii_of_N (128 + (N_of_ascii b - 128))) at 1; [apply mh_fix; lia|].
      replace (128 + (N_of_ascii b - 128))%N with (N_of_ascii b) by lia. apply ascii_N_embedding.
    + destruct (N.eqb_spec (N_of_ascii b) 222) as [E|_]; [apply (read_be_field 222 2 b s n r ltac:(lia) E) in H as (t & H & HF); exists t; auto using mh_16|].
      change (222 + 1)%N with 223%N in H. destruct (N.eqb_spec (N_of_ascii b) 223) as [E|_]; [|discriminate].
      apply (read_be_field 223 4 b s n r ltac:(lia) E) in H as (t & H & HF); exists t; auto using mh_32.
  - intros (t & E & HH). inversion HH as [? Hn|? ? HF|? ? HF]; subst.
    + cbn [app] in E. apply cons_inv in E as (-> & ->). rewrite N_ascii_embedding by lia. unfold read_count. deciN. do 2 f_equal. lia.
    + pose proof (marker_split _ _ _ _ _ _ _ HF E ltac:(lia)) as M. rewrite M. unfold read_count. deciN. apply (read_be_field 222 2 b s n r ltac:(lia) M). eauto.
    + pose proof (marker_split _ _ _ _ _ _ _ HF E ltac:(lia)) as M. rewrite M. unfold read_count. deciN. apply (read_be_field 223 4 b s n r ltac:(lia) M). eauto.
Qed.
Lemma map_head_mark t n b s r : map_head t n -> b :: s = t ++ r -> map_mark (N_of_ascii b).
Proof.
  intros HH E. unfold map_mark. inversion HH as [? Hn|? ? HF|? ? HF]; subst.
  - cbn [app] in E. apply cons_inv in E as (-> & _). rewrite N_ascii_embedding by lia. lia.
  - rewrite (marker_split _ _ _ _ _ _ _ HF E) by lia. lia.
  - rewrite (marker_split _ _ _ _ _ _ _ HF E) by lia. lia.
Qed.

(** ** Values that are no containers *)
Section values.
Context (fb : bytes -> option (bytes * bool)).
Lemma scalar_sound b s v r : read_scalar fb (N_of_ascii b) s = Some (v, r) -> exists t, b :: s = t ++ r /\ forall d, packed fb d t v.
Proof.
  unfold read_scalar. intro H. pose proof (N_below b) as HB.
  assert (forall m (w : json), N_of_ascii b = m -> (forall d, packed fb d [ascii_of_N m] w) -> (w, s) = (v, r) -> exists t, b :: s = t ++ r /\ forall d, packed fb d t v) as K1.
  { intros m w Hb HP E. injection E as <- <-. exists [b]. split; [reflexivity|]. intro d. rewrite <- (ascii_N_embedding b), Hb. apply HP. }
  assert (forall m k, (m < 256)%N -> N_of_ascii b = m -> (forall t n, field m k t n -> packed_int t (Z.of_N n)) -> read_unsigned k s = Some (v, r) ->
    exists t, b :: s = t ++ r /\ forall d, packed fb d t v) as KU.
  { intros m k Hm Hb HP HR. unfold read_unsigned in HR. destruct (read_be k s) as [[n q]|] eqn:E; [|discriminate]. injection HR as <- <-.
    apply (read_be_field m k b s n q Hm Hb) in E as (t & E & HF). exists t. split; [exact E|]. intro d. eapply pk_int; [apply HP; exact HF|constructor]. }
  assert (forall m k, (m < 256)%N -> N_of_ascii b = m -> (0 < k) -> (forall t n z, field m k t n -> complement (8 * N.of_nat k) n z -> packed_int t z) -> read_signed k s = Some (v, r) ->
    exists t, b :: s = t ++ r /\ forall d, packed fb d t v) as KS.
  { intros m k Hm Hb Hk HP HR. unfold read_signed in HR. destruct (read_be k s) as [[n q]|] eqn:E; [|discriminate]. injection HR as <- <-.
    apply (read_be_field m k b s n q Hm Hb) in E as (t & E & HF). exists t. split; [exact E|]. intro d. destruct (field_marker _ _ _ _ HF Hm) as (_ & _ & _ & _ & HBo).
    eapply pk_int; [eapply HP; [exact HF|apply signed_iff; [lia|exact HBo|reflexivity]]|apply whole_iff; reflexivity]. }
  assert (forall k m, N_of_ascii b = m -> (forall x, length x = k -> packed_float (ascii_of_N m :: x) x) -> read_f fb k s = Some (v, r) ->
    exists t, b :: s = t ++ r /\ forall d, packed fb d t v) as KF.
  { intros k m Hb HP HR. unfold read_f in HR. destruct (take k s) as [[x q]|] eqn:E; [|discriminate]. apply take_iff in E as (-> & HL).
    injection HR as HV <-. exists (b :: x). split; [reflexivity|]. intro d. specialize (HP x HL). rewrite <- Hb, ascii_N_embedding in HP.
    destruct (fb x) as [[p g]|] eqn:EF; subst v; [eapply pk_float; eassumption|eapply pk_no_number; eassumption]. }
  destruct (N.ltb_spec (N_of_ascii b) 128) as [L|L].
  { injection H as <- <-. exists [b]. split; [reflexivity|]. intro d. eapply pk_int; [|constructor]. rewrite <- (ascii_N_embedding b) at 1. constructor. exact L. }
  destruct (N.leb_spec 224 (N_of_ascii b)) as [L1|L1].
  { injection H as <- <-. exists [b]. split; [reflexivity|]. intro d. eapply (pk_int fb d [b] (- Z.of_N (256 - N_of_ascii b))).
    - rewrite <- (ascii_N_embedding b) at 1. replace (N_of_ascii b) with (256 - (256 - N_of_ascii b))%N at 1 by lia. constructor. lia.
    - apply whole_iff. f_equal. unfold signed. change (2 ^ (8 - 1))%N with 128%N. deciN; change (2 ^ Z.of_N 8)%Z with 256%Z; lia. }
  destruct (N.eqb_spec (N_of_ascii b) 192) as [E|_]; [apply (K1 192%N JNull); [exact E|constructor|congruence]|].
  destruct (N.eqb_spec (N_of_ascii b) 194) as [E|_]; [apply (K1 194%N (JBool false)); [exact E|constructor|congruence]|].
  destruct (N.eqb_spec (N_of_ascii b) 195) as [E|_]; [apply (K1 195%N (JBool true)); [exact E|constructor|congruence]|].
  destruct (N.eqb_spec (N_of_ascii b) 202) as [E|_]; [apply (KF 4 202%N); [exact E|intros; left; auto|exact H]|].
  destruct (N.eqb_spec (N_of_ascii b) 203) as [E|_]; [apply (KF 8 203%N); [exact E|intros; right; auto|exact H]|].
  destruct (N.eqb_spec (N_of_ascii b) 204) as [E|_]; [apply (KU 204%N 1); [lia|exact E|intros; apply pi_u8; assumption|exact H]|].
  destruct (N.eqb_spec (N_of_ascii b) 205) as [E|_]; [apply (KU 205%N 2); [lia|exact E|intros; apply pi_u16; assumption|exact H]|].
  destruct (N.eqb_spec (N_of_ascii b) 206) as [E|_]; [apply (KU 206%N 4); [lia|exact E|intros; apply pi_u32; assumption|exact H]|].
  destruct (N.eqb_spec (N_of_ascii b) 207) as [E|_]; [apply (KU 207%N 8); [lia|exact E|intros; apply pi_u64; assumption|exact H]|].
  destruct (N.eqb_spec (N_of_ascii b) 208) as [E|_]; [apply (KS 208%N 1); [lia|exact E|lia|intros; eapply pi_i8; eassumption|exact H]|].
  destruct (N.eqb_spec (N_of_ascii b) 209) as [E|_]; [apply (KS 209%N 2); [lia|exact E|lia|intros; eapply pi_i16; eassumption|exact H]|].
  destruct (N.eqb_spec (N_of_ascii b) 210) as [E|_]; [apply (KS 210%N 4); [lia|exact E|lia|intros; eapply pi_i32; eassumption|exact H]|].
  destruct (N.eqb_spec (N_of_ascii b) 211) as [E|_]; [apply (KS 211%N 8); [lia|exact E|lia|intros; eapply pi_i64; eassumption|exact H]|].
  destruct (read_str (N_of_ascii b) s) as [[x q]|] eqn:E; [|discriminate]. injection H as <- <-. apply str_sound in E as (t & E & HT).
  exists t. split; [exact E|]. intro d. apply pk_str. exact HT.
Qed.
(** the marker of a value *)
Definition plain_mark (c : N) : Prop := ~ arr_mark c /\ ~ map_mark c.
Lemma scalar_at b s r t v d : packed fb d t v -> (forall l, v <> JArr l) -> (forall m, v <> JObj m) -> b :: s = t ++ r ->
  read_scalar fb (N_of_ascii b) s = Some (v, r) /\ plain_mark (N_of_ascii b).
Proof.
  intros HP HA HO E. unfold plain_mark, arr_mark, map_mark.
  assert (forall k m t n, field m k t n -> b :: s = t ++ r -> (m < 256)%N -> N_of_ascii b = m /\ read_be k s = Some (n, r)) as KB.
  { intros k m u n HF EU Hm. pose proof (marker_split _ _ _ _ _ _ _ HF EU Hm) as M. split; [exact M|]. apply (read_be_field m k b s n r Hm M). eauto. }
  inversion HP as [|?|?|? ? z n HI HW|? ? x p g HF HV|? ? x HF HV|? ? x HT|? ? ? l|? ? ? l]; subst; try (exfalso; eapply HA; reflexivity); try (exfalso; eapply HO; reflexivity).
  - cbn [app] in E. apply cons_inv in E as (-> & ->). split; [reflexivity|split; vm_compute; intuition discriminate].
  - cbn [app] in E. apply cons_inv in E as (-> & ->). split; [reflexivity|split; vm_compute; intuition discriminate].
  - cbn [app] in E. apply cons_inv in E as (-> & ->). split; [reflexivity|split; vm_compute; intuition discriminate].
  - apply whole_iff in HW. subst n. inversion HI as [k Hk|k Hk|? k HF|? k HF|? k HF|? k HF|? k ? HF HC|? k ? HF HC|? k ? HF HC|? k ? HF HC]; subst.
    + cbn [app] in E. apply cons_inv in E as (-> & ->). rewrite N_ascii_embedding by lia. split; [|lia]. unfold read_scalar. deciN. destruct k; reflexivity.
    + cbn [app] in E. apply cons_inv in E as (-> & ->). rewrite N_ascii_embedding by lia. split; [|lia]. unfold read_scalar. deciN. do 4 f_equal. unfold signed. change (2 ^ (8 - 1))%N with 128%N. deciN; change (2 ^ Z.of_N 8)%Z with 256%Z; lia.
    + destruct (KB _ _ _ _ HF E ltac:(lia)) as (M & R). rewrite M. split; [|lia]. unfold read_scalar, read_unsigned. deciN. rewrite R. destruct k; reflexivity.
    + destruct (KB _ _ _ _ HF E ltac:(lia)) as (M & R). rewrite M. split; [|lia]. unfold read_scalar, read_unsigned. deciN. rewrite R. destruct k; reflexivity.
    + destruct (KB _ _ _ _ HF E ltac:(lia)) as (M & R). rewrite M. split; [|lia]. unfold read_scalar, read_unsigned. deciN. rewrite R. destruct k; reflexivity.
    + destruct (KB _ _ _ _ HF E ltac:(lia)) as (M & R). rewrite M. split; [|lia]. unfold read_scalar, read_unsigned. deciN. rewrite R. destruct k; reflexivity.
    + destruct (KB _ _ _ _ HF E ltac:(lia)) as (M & R). rewrite M. split; [|lia]. destruct (field_marker _ _ _ _ HF ltac:(lia)) as (_ & _ & _ & _ & HB).
      apply (proj2 (signed_iff 8 k z ltac:(lia) HB)) in HC. subst z. unfold read_scalar, read_signed. deciN. rewrite R. reflexivity.
    + destruct (KB _ _ _ _ HF E ltac:(lia)) as (M & R). rewrite M. split; [|lia]. destruct (field_marker _ _ _ _ HF ltac:(lia)) as (_ & _ & _ & _ & HB).
      apply (proj2 (signed_iff 16 k z ltac:(lia) HB)) in HC. subst z. unfold read_scalar, read_signed. deciN. rewrite R. reflexivity.
    + destruct (KB _ _ _ _ HF E ltac:(lia)) as (M & R). rewrite M. split; [|lia]. destruct (field_marker _ _ _ _ HF ltac:(lia)) as (_ & _ & _ & _ & HB).
      apply (proj2 (signed_iff 32 k z ltac:(lia) HB)) in HC. subst z. unfold read_scalar, read_signed. deciN. rewrite R. reflexivity.
    + destruct (KB _ _ _ _ HF E ltac:(lia)) as (M & R). rewrite M. split; [|lia]. destruct (field_marker _ _ _ _ HF ltac:(lia)) as (_ & _ & _ & _ & HB).
      apply (proj2 (signed_iff 64 k z ltac:(lia) HB)) in HC. subst z. unfold read_scalar, read_signed. deciN. rewrite R. reflexivity.
  - destruct HF as [(HL & ->)|(HL & ->)]; cbn [app] in E; apply cons_inv in E as (-> & ->); (split; [|split; vm_compute; intuition discriminate]);
    [change (read_f fb 4 (x ++ r) = Some (JNum (NFloat p g), r))|change (read_f fb 8 (x ++ r) = Some (JNum (NFloat p g), r))];
    unfold read_f; rewrite (proj2 (take_iff _ (x ++ r) x r) (conj eq_refl HL)), HV; reflexivity.
  - destruct HF as [(HL & ->)|(HL & ->)]; cbn [app] in E; apply cons_inv in E as (-> & ->); (split; [|split; vm_compute; intuition discriminate]);
    [change (read_f fb 4 (x ++ r) = Some (JNull, r))|change (read_f fb 8 (x ++ r) = Some (JNull, r))];
    unfold read_f; rewrite (proj2 (take_iff _ (x ++ r) x r) (conj eq_refl HL)), HV; reflexivity.
  - destruct (str_complete _ _ _ _ _ E HT) as (HR & HL & HM). split; [|lia]. unfold read_scalar. deciN. rewrite HR. reflexivity.
Qed.

(** ** All values *)
Scheme packed_m := Minimality for packed Sort Prop with packed_items_m := Minimality for packed_items Sort Prop
  with packed_entries_m := Minimality for packed_entries Sort Prop.
Combined Scheme packed_mutind from packed_m, packed_items_m, packed_entries_m.
Notation ins := (fun (m : obj) (kv : bytes * json) => oset (fst kv) (snd kv) m).
Lemma unpack_sound fuel :
  (forall d s v r, unpack fb fuel d s = Some (v, r) -> exists t, s = t ++ r /\ packed fb d t v) /\
  (forall d n s l r, unpack_items fb fuel d n s = Some (l, r) -> exists t, s = t ++ r /\ packed_items fb d t l /\ N.of_nat (length l) = n) /\
  (forall d f n s m m' r, unpack_entries fb fuel d f n s m = Some (m', r) ->
     exists t l, s = t ++ r /\ packed_entries fb d f t l /\ N.of_nat (length l) = n /\ m' = fold_left ins l m).
Proof.
  induction fuel as [|fuel (IV & II & IE)]; [split; [|split]; discriminate|]. split; [|split].
  - intros d s v r H. cbn [unpack] in H. destruct s as [|b s]; [discriminate|]. cbv zeta in H.
    destruct (read_count 144 160 220 (N_of_ascii b) s) as [[n r1]|] eqn:EA.
    { destruct d as [|d]; [discriminate|]. destruct (unpack_items fb fuel d n r1) as [[l r2]|] eqn:EI; [|discriminate]. injection H as <- <-.
      apply arr_count in EA as (h & EA & HH). apply II in EI as (t & -> & HI & HL). exists (h ++ t). rewrite <- app_assoc. split; [exact EA|].
      apply pk_array; [rewrite HL; exact HH|exact HI]. }
    destruct (read_count 128 144 222 (N_of_ascii b) s) as [[n r1]|] eqn:EM.
    { destruct d as [|d]; [discriminate|]. destruct (unpack_entries fb fuel d true n r1 []) as [[m r2]|] eqn:EI; [|discriminate]. injection H as <- <-.
      apply map_count in EM as (h & EM & HH). apply IE in EI as (t & l & -> & HI & HL & ->). exists (h ++ t). rewrite <- app_assoc. split; [exact EM|].
      apply (pk_map fb d h t l); [rewrite HL; exact HH|exact HI]. }
    apply scalar_sound in H as (t & E & HP). exists t. split; [exact E|apply HP].
  - intros d n s l r H. cbn [unpack_items] in H. destruct (N.eqb_spec n 0) as [->|Hn]; [injection H as <- <-; exists []; split; [reflexivity|]; split; [constructor|reflexivity]|].
    destruct (unpack fb fuel d s) as [[v r1]|] eqn:EV; [|discriminate]. destruct (unpack_items fb fuel d (n - 1) r1) as [[l' r2]|] eqn:EI; [|discriminate].
    injection H as <- <-. apply IV in EV as (t & -> & HV). apply II in EI as (u & -> & HI & HL). exists (t ++ u). rewrite <- app_assoc. split; [reflexivity|].
    split; [constructor; assumption|cbn [length]; lia].
  - intros d f n s m m' r H. cbn [unpack_entries] in H. destruct (N.eqb_spec n 0) as [->|Hn].
    { injection H as <- <-; exists [], []; split; [reflexivity|]; split; [constructor|split; reflexivity]. }
    destruct (read_key f s) as [[k r1]|] eqn:EK; [|discriminate]. destruct (unpack fb fuel d r1) as [[v r2]|] eqn:EV; [|discriminate].
    apply key_iff in EK as (t & -> & HK). apply IV in EV as (u & -> & HV). apply IE in H as (w & l & -> & HE & HL & ->).
    exists (t ++ u ++ w), ((k, v) :: l). rewrite <- !app_assoc. split; [reflexivity|]. split; [constructor; assumption|]. split; [cbn [length]; lia|reflexivity].
Qed.
Lemma array_head_mark t n b s r : array_head t n -> b :: s = t ++ r -> arr_mark (N_of_ascii b).
Proof.
  intros HH E. unfold arr_mark. inversion HH as [? Hn|? ? HF|? ? HF]; subst.
  - cbn [app] in E. apply cons_inv in E as (-> & _). rewrite N_ascii_embedding by lia. lia.
  - rewrite (marker_split _ _ _ _ _ _ _ HF E) by lia. lia.
  - rewrite (marker_split _ _ _ _ _ _ _ HF E) by lia. lia.
Qed.
Lemma array_head_nonempty t n : array_head t n -> t <> [].
Proof. intros [k _|u k HF|u k HF]; [discriminate| |]; destruct HF as (w & -> & _); discriminate. Qed.
Lemma map_head_nonempty t n : map_head t n -> t <> [].
Proof. intros [k _|u k HF|u k HF]; [discriminate| |]; destruct HF as (w & -> & _); discriminate. Qed.
Lemma packed_nonempty d t v : packed fb d t v -> t <> [].
Proof.
  intros [| | |? ? ? ? HI|? ? ? ? ? HF|? ? ? HF|? ? ? HT|? h u l HH|? h u l HH]; try discriminate.
  - destruct HI as [| |? ? HF|? ? HF|? ? HF|? ? HF|? ? ? HF|? ? ? HF|? ? ? HF|? ? ? HF]; try discriminate; destruct HF as (u & -> & _); discriminate.
  - destruct HF as [(_ & ->)|(_ & ->)]; discriminate.
  - destruct HF as [(_ & ->)|(_ & ->)]; discriminate.
  - eapply text_nonempty. left. exact HT.
  - apply array_head_nonempty in HH. destruct h; [congruence|discriminate].
  - apply map_head_nonempty in HH. destruct h; [congruence|discriminate].
Qed.
Lemma scalar_unpack fuel d t v r : packed fb d t v -> (forall l, v <> JArr l) -> (forall m, v <> JObj m) -> unpack fb (S fuel) d (t ++ r) = Some (v, r).
Proof.
  intros HP HA HO. pose proof (packed_nonempty _ _ _ HP) as HN. destruct t as [|b u]; [congruence|]. cbn [app unpack]. cbv zeta.
  destruct (scalar_at b (u ++ r) r (b :: u) v d HP HA HO eq_refl) as (HR & HM1 & HM2). unfold arr_mark, map_mark in *. rewrite !count_none by lia. exact HR.
Qed.
Lemma unpack_complete :
  (forall d t v, packed fb d t v -> forall fuel r, 2 * length t <= fuel -> unpack fb fuel d (t ++ r) = Some (v, r)) /\
  (forall d t l, packed_items fb d t l -> forall fuel r, 2 * length t + 1 <= fuel -> unpack_items fb fuel d (N.of_nat (length l)) (t ++ r) = Some (l, r)) /\
  (forall d f t l, packed_entries fb d f t l -> forall fuel r m, 2 * length t + 1 <= fuel ->
     unpack_entries fb fuel d f (N.of_nat (length l)) (t ++ r) m = Some (fold_left ins l m, r)).
Proof.
  assert (forall d t v, packed fb d t v -> (forall l, v <> JArr l) -> (forall m, v <> JObj m) ->
    forall fuel r, 2 * length t <= fuel -> unpack fb fuel d (t ++ r) = Some (v, r)) as K.
  { intros d t v HP HA HO fuel r HL. pose proof (packed_nonempty _ _ _ HP) as HN. destruct fuel as [|fuel]; [destruct t; [congruence|cbn in HL; lia]|].
    apply scalar_unpack; assumption. }
  apply packed_mutind.
  - intros d. apply K; [constructor|discriminate..].
  - intros d. apply K; [constructor|discriminate..].
  - intros d. apply K; [constructor|discriminate..].
  - intros d t z n HI HW. apply K; [econstructor; eassumption|discriminate..].
  - intros d t x p g HF HV. apply K; [eapply pk_float; eassumption|discriminate..].
  - intros d t x HF HV. apply K; [eapply pk_no_number; eassumption|discriminate..].
  - intros d t s HT. apply K; [apply pk_str; assumption|discriminate..].
  - intros d h t l HH HI IH fuel r HL. pose proof (array_head_nonempty _ _ HH) as HN. destruct h as [|b h]; [congruence|]. destruct fuel as [|fuel]; [cbn in HL; lia|].
    cbn [app unpack]. cbv zeta. assert (read_count 144 160 220 (N_of_ascii b) ((h ++ t) ++ r) = Some (N.of_nat (length l), t ++ r)) as EC.
    { apply arr_count. exists (b :: h). split; [cbn [app]; rewrite <- app_assoc; reflexivity|exact HH]. }
    rewrite EC. cbn [app length] in HL. rewrite app_length in HL. rewrite IH by lia. reflexivity.
  - intros d h t l HH HI IH fuel r HL. pose proof (map_head_nonempty _ _ HH) as HN. destruct h as [|b h]; [congruence|]. destruct fuel as [|fuel]; [cbn in HL; lia|].
    cbn [app unpack]. cbv zeta. assert (read_count 128 144 222 (N_of_ascii b) ((h ++ t) ++ r) = Some (N.of_nat (length l), t ++ r)) as EC.
    { apply map_count. exists (b :: h). split; [cbn [app]; rewrite <- app_assoc; reflexivity|exact HH]. }
    pose proof (map_head_mark _ _ b ((h ++ t) ++ r) (t ++ r) HH ltac:(cbn [app]; rewrite <- app_assoc; reflexivity)) as HM. unfold map_mark in HM.
    rewrite (count_none 144 160 220) by lia. rewrite EC. cbn [app length] in HL. rewrite app_length in HL. rewrite IH by lia. reflexivity.
  - intros d fuel r HL. destruct fuel; [cbn in HL; lia|]. reflexivity.
  - intros d t v u l HV IV HI II fuel r HL. pose proof (packed_nonempty _ _ _ HV) as HN. assert (0 < length t) by (destruct t; [congruence|cbn; lia]).
    rewrite app_length in HL. destruct fuel as [|fuel]; [lia|]. cbn [unpack_items length]. destruct (N.eqb_spec (N.of_nat (S (length l))) 0); [lia|].
    rewrite <- app_assoc, IV by lia. replace (N.of_nat (S (length l)) - 1)%N with (N.of_nat (length l)) by lia. rewrite II by lia. reflexivity.
  - intros d f fuel r m HL. destruct fuel; [cbn in HL; lia|]. reflexivity.
  - intros d f t k u v w l HK HV IV HE IE fuel r m HL. pose proof (packed_nonempty _ _ _ HV) as HN. assert (0 < length u) by (destruct u; [congruence|cbn; lia]).
    rewrite !app_length in HL. destruct fuel as [|fuel]; [lia|]. cbn [unpack_entries length]. destruct (N.eqb_spec (N.of_nat (S (length l))) 0); [lia|].
    rewrite <- !app_assoc. rewrite (proj2 (key_iff f (t ++ u ++ w ++ r) k (u ++ w ++ r))) by eauto. rewrite IV by lia.
    replace (N.of_nat (S (length l)) - 1)%N with (N.of_nat (length l)) by lia. rewrite IE by lia. reflexivity.
Qed.
Lemma from_slice_iff c v : from_slice fb c = Some v <-> pack_of fb c v.
Proof.
  unfold from_slice, pack_of. split.
  - destruct (unpack fb _ 1023 c) as [[w r]|] eqn:E; [|discriminate]. intro H. injection H as <-. apply (proj1 (unpack_sound _)) in E as (t & E & HP). eauto.
  - intros (t & rest & -> & HP). rewrite (proj1 unpack_complete 1023 t v HP) by (rewrite app_length; lia). reflexivity.
Qed.
Lemma packed_deeper : (forall d t v, packed fb d t v -> forall e, d <= e -> packed fb e t v) /\
  (forall d t l, packed_items fb d t l -> forall e, d <= e -> packed_items fb e t l) /\
  (forall d f t l, packed_entries fb d f t l -> forall e, d <= e -> packed_entries fb e f t l).
Proof.
  apply packed_mutind; intros; try (destruct e as [|e]; [lia|]); try (econstructor; eauto; fail).
  - apply pk_array; [assumption|]. apply H1. lia.
  - apply pk_map; [assumption|]. apply H1. lia.
Qed.
Lemma packed_unique d t v r d' t' v' r' : packed fb d t v -> packed fb d' t' v' -> t ++ r = t' ++ r' -> t = t' /\ v = v'.
Proof.
  intros H H' E. apply (proj1 packed_deeper) with (e := d + d') in H; [|lia]. apply (proj1 packed_deeper) with (e := d + d') in H'; [|lia].
  pose proof (proj1 unpack_complete _ _ _ H (2 * length t + 2 * length t') r ltac:(lia)) as K.
  pose proof (proj1 unpack_complete _ _ _ H' (2 * length t + 2 * length t') r' ltac:(lia)) as K'. rewrite E in K. rewrite K in K'. injection K' as -> ->.
  apply app_inv_tail in E. auto.
Qed.
Definition sound_value (d : nat) (v : json) : Prop := nested d v /\ wf_json v /\ forall x, string_in x v -> utf8_valid x = true.
Lemma later_keys (l : obj) k v : In (k, v) (later_wins l) -> In k (okeys l).
Proof.
  unfold later_wins. enough (forall m : obj, In k (okeys (fold_left ins l m)) -> In k (okeys m) \/ In k (okeys l)) as H.
  { intro HI. assert (In k (okeys (fold_left ins l []))) as HK by (apply (in_map fst) in HI; exact HI). apply H in HK as [[]|HK]. exact HK. }
  induction l as [|[k' v'] l IH]; intros m HI; [left; exact HI|]. cbn [fold_left fst snd] in HI. apply IH in HI as [HI|HI]; [|right; right; exact HI].
  clear IH. induction m as [|[k2 v2] m IHm]; cbn [oset okeys map fst] in HI; [destruct HI as [<-|[]]; right; left; reflexivity|].
  destruct (beq k' k2) eqn:E; cbn [okeys map fst] in HI; [left; exact HI|]. destruct HI as [HI|HI]; [left; left; exact HI|].
  apply IHm in HI as [HI|HI]; [left; right; exact HI|right; exact HI].
Qed.
Lemma key_utf8 f t k : packed_key f t k -> utf8_valid k = true.
Proof. intros [(h & _ & _ & H)|(_ & h & _ & _ & H)]; exact H. Qed.
Lemma packed_facts :
  (forall d t v, packed fb d t v -> sound_value d v) /\ (forall d t l, packed_items fb d t l -> Forall (sound_value d) l) /\ (forall d f t l, packed_entries fb d f t l -> Forall (fun kv => sound_value d (snd kv)) l /\ Forall (fun k => utf8_valid k = true) (okeys l)).
Proof.
  apply packed_mutind; intros; try (split; [constructor|split; [constructor|let HX := fresh in intros ? HX; inversion HX]]; fail); try (constructor; auto; fail).
  - destruct H as (h & _ & _ & HV). split; [constructor|split; [constructor|]]. intros x HX. inversion HX; subst. exact HV.
  - rewrite Forall_forall in H1. split; [|split].
    + constructor. rewrite Forall_forall. intros x Hx; apply (H1 x Hx).
    + constructor. rewrite Forall_forall. intros x Hx; apply (H1 x Hx).
    + intros x HX. inversion HX as [|v l' HI HX'| |]; subst. apply (H1 _ HI). exact HX'.
  - destruct H1 as (H1 & H2). apply (later_in (sound_value d)) in H1. rewrite Forall_forall in H1, H2. split; [|split].
    + constructor. rewrite Forall_forall. intros x Hx; apply (H1 x Hx).
    + constructor; [apply later_nodup|]. rewrite Forall_forall. intros x Hx; apply (H1 x Hx).
    + intros x HX. inversion HX as [| |v m HI|k v m HI HX']; subst; [apply H2; eapply later_keys; exact HI|]. apply (H1 _ HI). exact HX'.
  - split; constructor.
  - destruct H3 as (H3 & H4). split; constructor; try assumption. eapply key_utf8. exact H.
Qed.
End values.

(** ** The writer *)
Lemma be_bytes_ok k n : length (be_bytes k n) = k /\ ((n < 2 ^ (8 * N.of_nat k))%N -> big_endian (be_bytes k n) n).
Proof.
  revert n. induction k as [|k IH]; intro n; cbn [be_bytes].
  - split; [reflexivity|]. intro H. cbn in H. replace n with 0%N by lia. constructor.
  - destruct (IH (n / 256)%N) as (HL & HB). rewrite app_length, HL. split; [cbn; lia|]. intro H.
    assert (n = n / 256 * 256 + n mod 256)%N as E by (rewrite N.mul_comm; apply N.div_mod'). pose proof (N.mod_lt n 256 ltac:(lia)) as HM.
    rewrite E at 3. replace (n mod 256)%N with (N_of_ascii (byte (n mod 256))) at 2 by (apply N_ascii_embedding; exact HM). constructor. apply HB.
    clear E HB HL IH.
    replace (8 * N.of_nat (S k))%N with (8 * N.of_nat k + 8)%N in H by lia. rewrite N.pow_add_r in H. change (2 ^ 8)%N with 256%N in H. apply N.div_lt_upper_bound; [discriminate|]. rewrite N.mul_comm. exact H.
Qed.
Lemma field_bytes m k n : (n < 2 ^ (8 * N.of_nat k))%N -> field m k (byte m :: be_bytes k n) n.
Proof. intro H. destruct (be_bytes_ok k n) as (HL & HB). exists (be_bytes k n). auto. Qed.
Lemma uint_packed n : (n < 2 ^ 64)%N -> packed_int (write_uint n) (Z.of_N n).
Proof.
  intro H. unfold write_uint. deciN.
  - apply pi_fix. assumption.
  - apply pi_u8, field_bytes. assumption.
  - apply pi_u16, field_bytes. assumption.
  - apply pi_u32, field_bytes. assumption.
  - apply pi_u64, field_bytes. assumption.
Qed.
Lemma neg_packed p : (Npos p <= 2 ^ 63)%N -> packed_int (write_neg (Npos p)) (Zneg p).
Proof.
  intro H. unfold write_neg. deciN.
  - apply (pi_negfix (Npos p)). lia.
  - eapply pi_i8; [apply field_bytes; cbn [N.of_nat N.mul]; lia|]. unfold complement. lia.
  - eapply pi_i16; [apply field_bytes; cbn [N.of_nat N.mul]; lia|]. unfold complement. lia.
  - eapply pi_i32; [apply field_bytes; cbn [N.of_nat N.mul]; lia|]. unfold complement. lia.
  - eapply pi_i64; [apply field_bytes; cbn [N.of_nat N.mul]; lia|]. unfold complement. lia.
Qed.
Lemma str_packed s : str_packs s -> packed_text str_head (write_str s) s.
Proof.
  intros (HV & HL). unfold write_str. eexists. split; [reflexivity|]. split; [|exact HV]. deciN.
  - apply sh_fix. assumption.
  - apply sh_8, field_bytes. assumption.
  - apply sh_16, field_bytes. assumption.
  - apply sh_32, field_bytes. assumption.
Qed.
Lemma arr_written n : (n < 2 ^ 32)%N -> array_head (write_count 144 220 n) n.
Proof. intro H. unfold write_count. deciN; [apply ah_fix; assumption|apply ah_16, field_bytes; assumption|apply ah_32, field_bytes; assumption]. Qed.
Lemma map_written n : (n < 2 ^ 32)%N -> map_head (write_count 128 222 n) n.
Proof. intro H. unfold write_count. deciN; [apply mh_fix; assumption|apply mh_16, field_bytes; assumption|apply mh_32, field_bytes; assumption]. Qed.
Section writing.
Context (fb : bytes -> option (bytes * bool)) (fw : bytes -> bool -> bytes).
Lemma written_packed v : packs fb fw v -> forall d, nested d v -> packed fb d (to_vec fw v) v.
Proof.
  induction v as [|b|n|s|l IH|m IH] using json_ind'; intros HV d HN.
  - constructor.
  - destruct b; constructor.
  - inversion HV as [| |? HP| | |]; subst. destruct n as [n|p|x g]; cbn [num_packs] in HP.
    + eapply pk_int; [apply uint_packed; exact HP|constructor].
    + eapply pk_int; [apply neg_packed; exact HP|constructor].
    + destruct HP as (HL & HF). eapply pk_float; [right; split; [exact HL|reflexivity]|exact HF].
  - inversion HV; subst. apply pk_str, str_packed. assumption.
  - inversion HV as [| | | |? HC HL|]; subst. inversion HN as [| | | |d' ? HD|]; subst. cbn [to_vec]. apply pk_array; [apply arr_written; exact HC|].
    clear HC HV HN. induction l as [|v l IHl]; [constructor|]. cbn [map concat]. constructor.
    + apply (Forall_inv IH); [apply (Forall_inv HL)|apply (Forall_inv HD)].
    + apply IHl; eauto using Forall_inv_tail.
  - inversion HV as [| | | | |? HC HU HK HL]; subst. inversion HN as [| | | | |d' ? HD]; subst. cbn [to_vec]. rewrite <- (later_wins_nodup m HU) at 3.
    apply pk_map; [apply map_written; exact HC|]. clear HC HV HN HU.
    assert (forall f, packed_entries fb d' f (concat (map (fun kv => write_str (fst kv) ++ to_vec fw (snd kv)) m)) m) as G; [|apply G].
    induction m as [|[k v] m IHm]; intro f; [constructor|]. cbn [map concat fst snd]. rewrite <- app_assoc. constructor.
    + left. apply str_packed. apply (Forall_inv HK).
    + apply (Forall_inv IH); [apply (Forall_inv HL)|apply (Forall_inv HD)].
    + apply IHm; eauto using Forall_inv_tail.
Qed.
End writing.
