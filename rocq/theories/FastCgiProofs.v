(** * The FastCGI codec (bif/exec_php.rs 306-507) *)

From Verif Require Import Bytes BytesFacts FastCgi Spec.

(** ** Specification: the FastCGI 1.0 record and name-value formats, decoding side *)

(** ** Bytes *)
Lemma val_u8 n : val (u8 n) = (n mod 256)%N.
Proof. unfold val, u8. apply N_ascii_embedding. apply N.mod_lt. discriminate. Qed.
Lemma val_u8_small n : (n < 256)%N -> val (u8 n) = n.
Proof. intros H. rewrite val_u8. apply N.mod_small; auto. Qed.
Lemma val_bound a : (val a < 256)%N.
Proof. unfold val. apply N_ascii_bounded. Qed.
Lemma land255 n : N.land n 255 = (n mod 256)%N.
Proof. change 255%N with (N.ones 8). rewrite N.land_ones. auto. Qed.
Lemma shiftr8 n : N.shiftr n 8 = (n / 256)%N.
Proof. rewrite N.shiftr_div_pow2. auto. Qed.
Lemma shiftr16 n : N.shiftr n 16 = (n / 65536)%N.
Proof. rewrite N.shiftr_div_pow2. auto. Qed.
Lemma shiftr24 n : N.shiftr n 24 = (n / 16777216)%N.
Proof. rewrite N.shiftr_div_pow2. auto. Qed.
Lemma lor128 n : (n < 128)%N -> N.lor n 128 = (n + 128)%N.
Proof.
  intros H.
  assert (forall k, k < 128 -> N.lor (N.of_nat k) 128 = (N.of_nat k + 128)%N) as X.
  { assert (forallb (fun k => (N.lor (N.of_nat k) 128 =? N.of_nat k + 128)%N) (seq 0 128) = true) as F
      by (vm_compute; reflexivity).
    rewrite forallb_forall in F. intros k Hk. apply N.eqb_eq, F. apply in_seq. lia. }
  rewrite <- (N2Nat.id n). apply X. lia.
Qed.
Lemma divmod256 n : (n / 256 * 256 + n mod 256)%N = n.
Proof. pose proof (N.div_mod n 256). lia. Qed.

(** ** C61 *)

Lemma write_record_shape rtype id content r : write_record rtype id content = Some r ->
  (blen content <= 65535)%N.
Proof.
  unfold write_record. destruct (65535 <? blen content)%N eqn:E; [discriminate|].
  intros _. apply N.ltb_ge; auto.
Qed.
Lemma write_record_refuses rtype id content :
  write_record rtype id content = None <-> (65535 < blen content)%N.
Proof.
  unfold write_record. destruct (65535 <? blen content)%N eqn:E.
  - apply N.ltb_lt in E. tauto.
  - apply N.ltb_ge in E. split; [discriminate|lia].
Qed.

Lemma skipn_app_l {A} (u v : list A) n : n = length u -> skipn n (u ++ v) = v.
Proof. intros ->. rewrite skipn_app, skipn_all, Nat.sub_diag. auto. Qed.
Lemma firstn_app_l {A} (u v : list A) n : n = length u -> firstn n (u ++ v) = u.
Proof. intros ->. rewrite firstn_app, firstn_all, Nat.sub_diag. cbn. apply app_nil_r. Qed.

Lemma decode_record_intro v t i1 i0 c1 c0 p z content padding rest :
  N.to_nat (val c1 * 256 + val c0) = length content ->
  N.to_nat (val p) = length padding ->
  decode_record (v :: t :: i1 :: i0 :: c1 :: c0 :: p :: z :: content ++ padding ++ rest)
  = Some (Rec (val v) (val t) (val i1 * 256 + val i0) content padding, rest).
Proof.
  intros H1 H2. unfold decode_record. rewrite H1, H2.
  destruct (Nat.leb_spec (length content + length padding) (length (content ++ padding ++ rest))) as [L|L].
  - rewrite firstn_app_l by auto. rewrite skipn_app_l by auto. rewrite firstn_app_l by auto.
    rewrite app_assoc, skipn_app_l by (rewrite app_length; auto). auto.
  - rewrite !app_length in L. lia.
Qed.

Lemma write_record_decodes rtype id content r rest :
  (rtype < 256)%N -> (id < 65536)%N -> write_record rtype id content = Some r ->
  decode_record (r ++ rest) =
    Some (Rec 1 rtype id content (repeat (u8 0) (pad_of content)), rest).
Proof.
  intros Ht Hi H. pose proof (write_record_shape _ _ _ _ H) as L. unfold write_record in H.
  destruct (65535 <? blen content)%N; [discriminate|].
  cbv zeta in H. match type of H with Some ?x = _ => assert (r = x) as -> by congruence end. clear H.
  cbn [app]. rewrite <- !app_assoc.
  rewrite decode_record_intro.
  - rewrite !val_u8, !land255, !shiftr8. f_equal. f_equal.
    assert (id / 256 < 256)%N by (apply N.div_lt_upper_bound; lia).
    rewrite (N.mod_small (id / 256)) by lia. rewrite N.mod_mod by lia. rewrite divmod256.
    f_equal. apply N.mod_small; auto.
  - rewrite !val_u8, !land255, !shiftr8.
    assert (blen content / 256 < 256)%N by (apply N.div_lt_upper_bound; lia).
    rewrite (N.mod_small (blen content / 256)) by lia. rewrite N.mod_mod by lia.
    rewrite (N.mod_small (blen content / 256)) by lia.
    rewrite divmod256. unfold blen. apply Nat2N.id.
  - rewrite repeat_length, val_u8_small; auto.
    assert ((8 - blen content mod 8) mod 8 < 8)%N by (apply N.mod_lt; lia). lia.
Qed.
Lemma write_record_aligned rtype id content r :
  write_record rtype id content = Some r -> Nat.modulo (length r) 8 = 0.
Proof.
  intros H. unfold write_record in H. destruct (65535 <? blen content)%N; [discriminate|].
  cbv zeta in H. match type of H with Some ?x = _ => assert (r = x) as -> by congruence end.
  rewrite !app_length, repeat_length. cbn [length].
  set (n := length content). unfold blen. fold n.
  assert (Nat.modulo n 8 + N.to_nat ((8 - N.of_nat n mod 8) mod 8) = 0 \/
          Nat.modulo n 8 + N.to_nat ((8 - N.of_nat n mod 8) mod 8) = 8) as [E|E].
  { assert (N.of_nat n mod 8 = N.of_nat (Nat.modulo n 8))%N as ->.
    { rewrite Nat2N.inj_mod. auto. }
    assert (Nat.modulo n 8 < 8) by (apply Nat.mod_upper_bound; lia).
    set (k := Nat.modulo n 8) in *.
    do 8 (destruct k as [|k]; [vm_compute; auto|]). lia. }
  - replace (8 + (n + N.to_nat ((8 - N.of_nat n mod 8) mod 8)))
      with ((Nat.modulo n 8 + N.to_nat ((8 - N.of_nat n mod 8) mod 8)) + (1 + Nat.div n 8) * 8).
    + rewrite E. rewrite Nat.mod_add by lia. auto.
    + pose proof (Nat.div_mod n 8). lia.
  - replace (8 + (n + N.to_nat ((8 - N.of_nat n mod 8) mod 8)))
      with ((Nat.modulo n 8 + N.to_nat ((8 - N.of_nat n mod 8) mod 8)) + (1 + Nat.div n 8) * 8).
    + rewrite E. rewrite Nat.mod_add by lia. auto.
    + pose proof (Nat.div_mod n 8). lia.
Qed.

(** ** C62 *)
Lemma write_length_decodes n b rest : write_length n = Some b ->
  decode_length (b ++ rest) = Some (n, rest).
Proof.
  unfold write_length. destruct (n <? 128)%N eqn:E1.
  - intros H; inversion H; subst. cbn [app decode_length]. apply N.ltb_lt in E1.
    rewrite val_u8_small by lia. apply N.ltb_lt in E1. rewrite E1. auto.
  - destruct (2147483647 <? n)%N eqn:E2; [discriminate|]. intros H.
    match type of H with Some ?x = _ => assert (b = x) as -> by congruence end.
    apply N.ltb_ge in E1, E2. cbn [app decode_length]. rewrite !shiftr24, !shiftr16, !shiftr8.
    assert (n / 16777216 < 128)%N as L by (apply N.div_lt_upper_bound; lia).
    rewrite (N.mod_small (n / 16777216)) by lia. rewrite lor128 by auto.
    rewrite (val_u8_small (n / 16777216 + 128)) by lia.
    assert ((n / 16777216 + 128 <? 128)%N = false) as -> by (apply N.ltb_ge; rewrite N.add_comm; apply N.le_add_r).
    rewrite !val_u8. do 2 f_equal. rewrite N.add_sub.
    replace (n / 16777216)%N with (n / 256 / 256 / 256)%N by (rewrite !N.div_div by lia; auto).
    replace (n / 65536)%N with (n / 256 / 256)%N by (rewrite N.div_div by lia; auto).
    pose proof (divmod256 n) as D1. pose proof (divmod256 (n / 256)) as D2.
    pose proof (divmod256 (n / 256 / 256)) as D3.
    revert D1 D2 D3. generalize (n / 256 / 256 / 256)%N, ((n / 256 / 256) mod 256)%N, (n / 256 / 256)%N, ((n / 256) mod 256)%N,
      (n / 256)%N, (n mod 256)%N. intros a b c d e f D1 D2 D3. clear - D1 D2 D3. subst. lia.
Qed.
Lemma write_length_ok n : (n <= 2147483647)%N <-> exists b, write_length n = Some b.
Proof.
  unfold write_length. destruct (n <? 128)%N eqn:E1.
  - apply N.ltb_lt in E1. split; [eauto|lia].
  - destruct (2147483647 <? n)%N eqn:E2.
    + apply N.ltb_lt in E2. split; [lia|intros [? ?]; discriminate].
    + apply N.ltb_ge in E2. split; [eauto|lia].
Qed.
Lemma write_length_ne n b : write_length n = Some b -> 1 <= length b.
Proof.
  intros H. destruct b as [|c r]; [|cbn [length]; lia]. exfalso. revert H.
  unfold write_length. destruct (n <? 128)%N; [discriminate|].
  destruct (2147483647 <? n)%N; discriminate.
Qed.

Lemma write_params_decodes l : forall b fuel, write_params l = Some b -> length b <= fuel ->
  decode_pairs fuel b = Some l.
Proof.
  induction l as [|[k v] l IH]; intros b fuel H Hf; cbn in H.
  - inversion H; subst. destruct fuel; auto.
  - unfold write_name_value_pair in H.
    destruct (write_length (blen k)) as [a1|] eqn:E1; [|discriminate].
    destruct (write_length (blen v)) as [a2|] eqn:E2; [|discriminate].
    destruct (write_params l) as [b'|] eqn:E3; [|discriminate]. inversion H; subst. clear H.
    pose proof (write_length_ne _ _ E1) as L1. rewrite <- !app_assoc in *.
    assert (length a1 + (length a2 + (length k + (length v + length b'))) <= fuel) as Hf2.
    { rewrite !app_length in Hf. auto. }
    destruct fuel as [|fuel]; [lia|].
    assert (exists c r, a1 ++ a2 ++ k ++ v ++ b' = c :: r) as (c & r & Ec).
    { destruct a1; [cbn in L1; lia|]. cbn. eauto. }
    unfold decode_pairs; fold decode_pairs. rewrite Ec, <- Ec. clear Ec.
    rewrite (write_length_decodes _ _ _ E1), (write_length_decodes _ _ _ E2).
    destruct (blen k + blen v <=? N.of_nat (length (k ++ v ++ b')))%N eqn:EL.
    + assert (skipn (N.to_nat (blen k + blen v)) (k ++ v ++ b') = b') as ->.
      { rewrite app_assoc. apply skipn_app_l. rewrite app_length. unfold blen. lia. }
      rewrite (IH b' fuel) by (auto; lia). unfold blen. rewrite !Nat2N.id.
      rewrite firstn_app_l, skipn_app_l, firstn_app_l by auto. auto.
    + apply N.leb_gt in EL. rewrite !app_length in EL. unfold blen in EL. lia.
Qed.
Lemma write_params_ok l :
  (exists b, write_params l = Some b) <->
  (forall k v, In (k, v) l -> (blen k <= 2147483647)%N /\ (blen v <= 2147483647)%N).
Proof.
  induction l as [|[k v] l IH]; cbn; [split; [intros _ ? ? []|eauto]|].
  unfold write_name_value_pair. split.
  - intros [b H]. destruct (write_length (blen k)) as [a1|] eqn:E1; [|discriminate].
    destruct (write_length (blen v)) as [a2|] eqn:E2; [|discriminate].
    destruct (write_params l) as [b'|] eqn:E3; [|discriminate].
    intros k' v' [E|I].
    + inversion E; subst. split; apply write_length_ok; eauto.
    + apply (proj1 IH); eauto.
  - intros H. destruct (H k v (or_introl eq_refl)) as [H1 H2].
    apply write_length_ok in H1 as [a1 ->]. apply write_length_ok in H2 as [a2 ->].
    destruct (proj2 IH) as [b' ->]; [intros; apply H; auto|eauto].
Qed.

(** ** The whole request *)

Lemma write_record_some t id content : fits content -> exists r, write_record t id content = Some r.
Proof.
  intros F. destruct (write_record t id content) eqn:E; eauto.
  apply write_record_refuses in E. unfold fits in F. lia.
Qed.
Lemma records_cons t content r s l : (t < 256)%N ->
  write_record t FCGI_REQUEST_ID content = Some r -> records s l ->
  records (r ++ s) (rec_of t content :: l).
Proof.
  intros Ht H R. econstructor; [|exact R]. unfold rec_of. apply write_record_decodes with (id := 1%N); auto. lia.
Qed.

Lemma params_ne body bridge pb : write_params (request_params body bridge) = Some pb -> is_empty pb = false.
Proof.
  intros H. destruct pb; auto. apply write_params_decodes with (fuel := 0) in H; auto.
  discriminate H.
Qed.

Lemma request_decodes body bridge out : send_fastcgi_request body bridge = Some out ->
  exists params, decode_pairs (length params) params = Some (request_params body bridge) /\
  records out (request_records params body).
Proof.
  unfold send_fastcgi_request, obind. intros H.
  destruct (write_record FCGI_BEGIN_REQUEST FCGI_REQUEST_ID _) as [r1|] eqn:E1; [|discriminate].
  destruct (write_params (request_params body bridge)) as [pb|] eqn:E2; [|discriminate].
  rewrite (params_ne _ _ _ E2) in H.
  destruct (write_record FCGI_PARAMS FCGI_REQUEST_ID pb) as [r2|] eqn:E3; [|discriminate].
  destruct (write_record FCGI_PARAMS FCGI_REQUEST_ID []) as [r3|] eqn:E4; [|discriminate].
  destruct (if is_empty body then Some [] else write_record FCGI_STDIN FCGI_REQUEST_ID body) as [r4|] eqn:E5; [|discriminate].
  destruct (write_record FCGI_STDIN FCGI_REQUEST_ID []) as [r5|] eqn:E6; [|discriminate].
  inversion H; subst. exists pb. split; [apply write_params_decodes; auto|].
  unfold request_records. cbn [app].
  apply records_cons; [lia|exact E1|]. apply records_cons; [lia|exact E3|]. apply records_cons; [lia|exact E4|].
  assert (records r5 [rec_of 5 []]) as R5.
  { rewrite <- (app_nil_r r5). apply records_cons; [lia|exact E6|constructor]. }
  destruct (is_empty body); [inversion E5; subst; exact R5|].
  apply records_cons; [lia|exact E5|exact R5].
Qed.
Lemma request_refused body bridge :
  send_fastcgi_request body bridge = None <->
  ~ exists params, write_params (request_params body bridge) = Some params /\ fits params /\ fits body.
Proof.
  unfold send_fastcgi_request, obind. split.
  - intros H (pb & E2 & F1 & F2).
    destruct (write_record FCGI_BEGIN_REQUEST FCGI_REQUEST_ID _) as [r1|] eqn:E1.
    2:{ apply write_record_refuses in E1. vm_compute in E1. discriminate. }
    rewrite E2, (params_ne _ _ _ E2) in H.
    destruct (write_record_some FCGI_PARAMS FCGI_REQUEST_ID pb F1) as [r2 E]. rewrite E in H. clear E.
    destruct (write_record_some FCGI_PARAMS FCGI_REQUEST_ID []) as [r3 E]; [unfold fits; cbn; lia|].
    rewrite E in H. clear E.
    destruct (write_record_some FCGI_STDIN FCGI_REQUEST_ID []) as [r5 E]; [unfold fits; cbn; lia|].
    rewrite E in H. clear E.
    destruct (write_record_some FCGI_STDIN FCGI_REQUEST_ID body F2) as [r4 E]. rewrite E in H.
    destruct (is_empty body); discriminate.
  - intros N.
    destruct (write_record FCGI_BEGIN_REQUEST FCGI_REQUEST_ID _) as [r1|]; auto.
    destruct (write_params (request_params body bridge)) as [pb|] eqn:E2; auto.
    rewrite (params_ne _ _ _ E2).
    destruct (write_record FCGI_PARAMS FCGI_REQUEST_ID pb) as [r2|] eqn:E3; auto.
    destruct (write_record FCGI_PARAMS FCGI_REQUEST_ID []) as [r3|] eqn:E4; auto.
    destruct (if is_empty body then Some [] else write_record FCGI_STDIN FCGI_REQUEST_ID body) as [r4|] eqn:E5; auto.
    exfalso. apply N. exists pb. split; auto.
    split; [eapply write_record_shape; eauto|].
    destruct body; [unfold fits; cbn; lia|]. eapply write_record_shape. exact E5.
Qed.

(** ** C63 *)

Lemma read_exact_app n u v : n = length u -> read_exact n (u ++ v) = Some (u, v).
Proof.
  intros ->. unfold read_exact. rewrite app_length.
  destruct (length u + length v <? length u) eqn:E; [apply Nat.ltb_lt in E; lia|].
  rewrite firstn_app_l, skipn_app_l; auto.
Qed.
Lemma byte_val_u8 l i n : nth_error l i = Some (u8 n) -> byte_val l i = (n mod 256)%N.
Proof. unfold byte_val. intros ->. apply val_u8. Qed.

Lemma read_wire w rest fuel so se : wire_ok w ->
  read_loop (S fuel) (wire_bytes w ++ rest) so se =
  if negb (w_id w =? 1)%N then read_loop fuel rest so se
  else if (w_type w =? 6)%N then read_loop fuel rest (so ++ w_content w) se
  else if (w_type w =? 7)%N then read_loop fuel rest so (se ++ w_content w)
  else if (w_type w =? 3)%N then ReadOk so se
  else read_loop fuel rest so se.
Proof.
  intros (H1 & H2 & H3 & H4). unfold wire_bytes. rewrite <- !app_assoc.
  set (h := [u8 1; u8 (w_type w); u8 (w_id w / 256); u8 (w_id w); u8 (blen (w_content w) / 256);
             u8 (blen (w_content w)); u8 (blen (w_padding w)); w_reserved w]).
  cbn [read_loop]. rewrite read_exact_app by reflexivity.
  rewrite (byte_val_u8 h 0 1 eq_refl). change (1 mod 256 =? FCGI_VERSION_1)%N with true. cbn [negb].
  rewrite (byte_val_u8 h 1 _ eq_refl), (byte_val_u8 h 2 _ eq_refl), (byte_val_u8 h 3 _ eq_refl),
    (byte_val_u8 h 4 _ eq_refl), (byte_val_u8 h 5 _ eq_refl), (byte_val_u8 h 6 _ eq_refl).
  rewrite (N.mod_small (w_type w)) by auto.
  assert (w_id w / 256 < 256)%N by (apply N.div_lt_upper_bound; lia).
  rewrite (N.mod_small (w_id w / 256)), divmod256 by lia.
  assert (blen (w_content w) / 256 < 256)%N by (apply N.div_lt_upper_bound; lia).
  rewrite (N.mod_small (blen (w_content w) / 256)), divmod256 by lia.
  rewrite (N.mod_small (blen (w_padding w))) by lia.
  rewrite (read_exact_app (N.to_nat (blen (w_content w)))) by (unfold blen; lia).
  rewrite (read_exact_app (N.to_nat (blen (w_padding w)))) by (unfold blen; lia).
  auto.
Qed.

Lemma read_wires l : forall fuel so se rest,
  Forall wire_ok l -> (forall w, In w l -> ~ is_end w) ->
  read_loop (length l + fuel) (flat_map wire_bytes l ++ rest) so se =
  read_loop fuel rest (so ++ stream_of 6 l) (se ++ stream_of 7 l).
Proof.
  induction l as [|w l IH]; intros fuel so se rest F N.
  - cbn. rewrite !app_nil_r. auto.
  - apply Forall_cons_iff in F as [Fw F]. cbn [flat_map length plus]. rewrite <- app_assoc, read_wire by auto.
    assert (~ is_end w) as Nw by (apply N; left; auto).
    assert (forall w0, In w0 l -> ~ is_end w0) as Nl by (intros; apply N; right; auto).
    unfold stream_of; cbn [flat_map].
    destruct (w_id w =? 1)%N eqn:Ei; cbn [negb andb]; [|rewrite IH; auto].
    destruct (w_type w =? 6)%N eqn:E6.
    { rewrite IH by auto. apply N.eqb_eq in E6. rewrite E6. cbn. rewrite !app_assoc. auto. }
    destruct (w_type w =? 7)%N eqn:E7; [rewrite IH by auto; cbn; rewrite !app_assoc; auto|].
    destruct (w_type w =? 3)%N eqn:E3.
    { exfalso. apply Nw. split; apply N.eqb_eq; auto. }
    rewrite IH; auto.
Qed.

Lemma wire_len w : 8 <= length (wire_bytes w).
Proof. unfold wire_bytes. rewrite app_length. cbn [length]. lia. Qed.
Lemma wires_len l : length l <= length (flat_map wire_bytes l).
Proof.
  induction l as [|w l IH]; cbn; auto. rewrite app_length. pose proof (wire_len w). lia.
Qed.

Lemma read_response_end l e rest :
  Forall wire_ok l -> (forall w, In w l -> ~ is_end w) -> wire_ok e -> is_end e ->
  read_fastcgi_response (flat_map wire_bytes l ++ wire_bytes e ++ rest) =
  ReadOk (stream_of 6 l) (stream_of 7 l).
Proof.
  intros F N We [E1 E2]. unfold read_fastcgi_response.
  set (s := flat_map wire_bytes l ++ wire_bytes e ++ rest).
  assert (exists k, S (length s) = length l + S k) as [k ->].
  { exists (length s - length l). unfold s. rewrite !app_length. pose proof (wires_len l). lia. }
  unfold s. rewrite read_wires by auto. rewrite read_wire by auto. rewrite E1, E2. auto.
Qed.

Lemma read_truncated s fuel so se : truncated s -> read_loop (S fuel) s so se = eof_result so se.
Proof.
  intros (w & r & (H1 & H2 & H3 & H4) & E & NE). cbn [read_loop].
  unfold read_exact at 1. destruct (length s <? 8) eqn:E8; auto. apply Nat.ltb_ge in E8.
  assert (exists s', s = firstn 8 (wire_bytes w) ++ s' /\ s' ++ r = w_content w ++ w_padding w) as (s' & Es & Er).
  { exists (skipn 8 s). split.
    - rewrite E, firstn_app. replace (8 - length s) with 0 by lia. change (firstn 0 r) with (@nil ascii). rewrite app_nil_r.
      rewrite firstn_skipn. auto.
    - apply (f_equal (skipn 8)) in E. rewrite skipn_app in E. replace (8 - length s) with 0 in E by lia.
      change (skipn 0 r) with r in E. unfold wire_bytes in E. rewrite skipn_app_l in E by reflexivity. auto. }
  set (h := [u8 1; u8 (w_type w); u8 (w_id w / 256); u8 (w_id w); u8 (blen (w_content w) / 256);
             u8 (blen (w_content w)); u8 (blen (w_padding w)); w_reserved w]) in *.
  assert (firstn 8 (wire_bytes w) = h) as Eh by (unfold wire_bytes; apply firstn_app_l; reflexivity).
  rewrite Eh in Es. rewrite Es. rewrite firstn_app_l, skipn_app_l by reflexivity.
  rewrite (byte_val_u8 h 0 1 eq_refl). change (1 mod 256 =? FCGI_VERSION_1)%N with true. cbn [negb].
  rewrite (byte_val_u8 h 4 _ eq_refl), (byte_val_u8 h 5 _ eq_refl), (byte_val_u8 h 6 _ eq_refl).
  assert (blen (w_content w) / 256 < 256)%N by (apply N.div_lt_upper_bound; lia).
  rewrite (N.mod_small (blen (w_content w) / 256)), divmod256 by lia.
  rewrite (N.mod_small (blen (w_padding w))) by lia.
  assert (length s' + length r = length (w_content w) + length (w_padding w)) as EL.
  { apply (f_equal (@length _)) in Er. rewrite !app_length in Er. auto. }
  assert (0 < length r) by (destruct r; [congruence|cbn; lia]).
  unfold read_exact. unfold blen. rewrite !Nat2N.id.
  destruct (length s' <? length (w_content w)) eqn:E1; auto. apply Nat.ltb_ge in E1.
  rewrite skipn_length.
  destruct (length s' - length (w_content w) <? length (w_padding w)) eqn:E2; auto.
  apply Nat.ltb_ge in E2. lia.
Qed.
Lemma read_response_closed l s :
  Forall wire_ok l -> (forall w, In w l -> ~ is_end w) -> truncated s ->
  read_fastcgi_response (flat_map wire_bytes l ++ s) =
  if is_empty (stream_of 6 l) && is_empty (stream_of 7 l) then ReadEof
  else ReadOk (stream_of 6 l) (stream_of 7 l).
Proof.
  intros F N T. unfold read_fastcgi_response.
  set (b := flat_map wire_bytes l ++ s).
  assert (exists k, S (length b) = length l + S k) as [k ->].
  { exists (length b - length l). unfold b. rewrite !app_length. pose proof (wires_len l). lia. }
  unfold b. rewrite read_wires by auto. rewrite read_truncated by auto. unfold eof_result. cbn [app].
  destruct (stream_of 6 l), (stream_of 7 l); auto.
Qed.

Lemma read_response_foreign l h rest :
  Forall wire_ok l -> (forall w, In w l -> ~ is_end w) -> length h = 8 -> byte_val h 0 <> 1%N ->
  read_fastcgi_response (flat_map wire_bytes l ++ h ++ rest) = if starts_with (B "HTTP/") h then ReadHttp else ReadVersion (byte_val h 0).
Proof.
  intros F N LH HB. unfold read_fastcgi_response.
  set (b := flat_map wire_bytes l ++ h ++ rest).
  assert (exists k, S (length b) = length l + S k) as [k ->].
  { exists (length b - length l). unfold b. rewrite !app_length. pose proof (wires_len l). lia. }
  unfold b. rewrite read_wires by auto. cbn [read_loop]. unfold read_exact at 1. rewrite app_length, LH. replace (8 + length rest <? 8) with false by (symmetry; apply Nat.ltb_ge; lia).
  rewrite firstn_app_l by (symmetry; exact LH). apply N.eqb_neq in HB. change FCGI_VERSION_1 with 1%N. rewrite HB. reflexivity.
Qed.

(** extract_http_body *)
Lemma http_body_crlf u v : ~ occurs [CR; LF; CR; LF] (u ++ [CR; LF; CR]) ->
  extract_http_body (u ++ [CR; LF; CR; LF] ++ v) = v.
Proof.
  intros N. unfold extract_http_body.
  assert (find [CR; LF; CR; LF] (u ++ [CR; LF; CR; LF] ++ v) = Some (length u)) as ->.
  { apply find_unique; [exists u, v; auto|]. intros j L (u2 & v2 & E & <-). apply N.
    exists u2.
    assert (exists w, u ++ [CR; LF; CR] = (u2 ++ [CR; LF; CR; LF]) ++ w) as [w Ew].
    { exists (skipn (length u2 + 4) (u ++ [CR; LF; CR])).
      rewrite <- (firstn_skipn (length u2 + 4) (u ++ [CR; LF; CR])) at 1. f_equal.
      transitivity (firstn (length u2 + 4) (u ++ [CR; LF; CR; LF] ++ v)).
      - replace (u ++ [CR; LF; CR; LF] ++ v) with ((u ++ [CR; LF; CR]) ++ LF :: v) by (rewrite <- app_assoc; auto).
        rewrite (firstn_app (length u2 + 4) (u ++ [CR; LF; CR])).
        replace (length u2 + 4 - length (u ++ [CR; LF; CR])) with 0 by (rewrite app_length; cbn; lia).
        cbn [firstn]. rewrite app_nil_r. auto.
      - rewrite E. rewrite app_assoc. apply firstn_app_l. rewrite app_length. auto. }
    exists w. rewrite Ew, <- app_assoc. auto. }
  rewrite app_assoc. apply skipn_app_l. rewrite app_length. auto.
Qed.
Lemma record_decodes rtype id content r rest :
  (rtype < 256)%N -> (id < 65536)%N -> write_record rtype id content = Some r ->
  exists padding, decode_record (r ++ rest) = Some (Rec 1 rtype id content padding, rest)
                  /\ Nat.modulo (length r) 8 = 0 /\ length r = 8 + length content + length padding
                  /\ length padding < 8.
Proof.
  intros H1 H2 W. exists (repeat (u8 0) (pad_of content)).
  pose proof (write_record_decodes rtype id content r rest H1 H2 W) as D.
  pose proof (write_record_aligned rtype id content r W) as A.
  split; [exact D|]. split; [exact A|].
  assert (length (repeat (u8 0) (pad_of content)) < 8) as P.
  { rewrite repeat_length. unfold pad_of.
    pose proof (N.mod_lt (8 - blen content mod 8) 8). lia. }
  split; [|exact P].
  pose proof (write_record_decodes rtype id content r [] H1 H2 W) as D0. rewrite app_nil_r in D0.
  clear - D0. unfold decode_record in D0.
  destruct r as [|v [|t [|i1 [|i0 [|c1 [|c0 [|p [|z x]]]]]]]]; try discriminate.
  destruct (Nat.leb _ _) eqn:E in D0; [|discriminate]. apply Nat.leb_le in E.
  match type of D0 with Some (Rec _ _ _ ?a ?b, ?c) = _ =>
    assert (a = content) as Ea by congruence; assert (b = repeat (u8 0) (pad_of content)) as Eb by congruence;
    assert (c = []) as Ec by congruence end.
  rewrite <- Eb, <- Ea. cbn [length]. apply (f_equal (@length _)) in Ec. rewrite skipn_length in Ec. cbn [length] in Ec.
  rewrite !firstn_length, skipn_length. lia.
Qed.
