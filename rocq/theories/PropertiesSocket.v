(** * Property theorems: the connection to the PHP server (C105) *)

From Verif Require Import Bytes Json Utils State FastCgi Spec BytesFacts FastCgiProofs PhpExec SpecPhp PropertiesPhp Socket SpecSocket.

Lemma fill_enough late l s f : delivers late l s f -> forall k, k <= length s ->
  exists t l', fill late k l = (t, Full (firstn k s) l') /\ delivers late l' (skipn k s) f.
Proof.
  induction 1 as [|t r T|t d r s f T ND A IH|t r s f T A IH|t e r T|t a r T]; intros k K.
  - destruct k; [|cbn in K; lia]. exists 0%N, []. split; [reflexivity|constructor].
  - destruct k; [|cbn in K; lia]. exists 0%N, ((t, Came []) :: r). split; [reflexivity|constructor; exact T].
  - destruct k as [|k]; [exists 0%N, ((t, Came d) :: r); split; [reflexivity|constructor; assumption]|].
    cbn [fill]. destruct (TIMEOUT <=? t)%N eqn:E; [apply N.leb_le in E; unfold TIMEOUT in E; lia|].
    destruct d as [|c d]; [congruence|]. set (D := c :: d) in *.
    destruct (S k <=? length D) eqn:L.
    + apply Nat.leb_le in L. rewrite firstn_app, skipn_app. replace (S k - length D) with 0 by lia. change (firstn 0 s) with (@nil ascii). change (skipn 0 s) with s. rewrite app_nil_r.
      eexists. eexists. split; [reflexivity|]. destruct (S k <? length D) eqn:L2.
      * apply Nat.ltb_lt in L2. constructor; [lia| |exact A]. intro Z. apply (f_equal (@length _)) in Z. rewrite skipn_length in Z. change (length (@nil ascii)) with 0 in Z. lia.
      * apply Nat.ltb_ge in L2. rewrite (skipn_all2 D) by lia. exact A.
    + apply Nat.leb_gt in L. rewrite app_length in K. destruct (IH (S k - length D)) as (t2 & l' & F & A'); [lia|].
      rewrite F. exists (t + t2)%N, l'. rewrite firstn_app, skipn_app. rewrite (firstn_all2 D) by lia. rewrite (skipn_all2 D) by lia. split; [reflexivity|exact A'].
  - destruct k as [|k]; [exists 0%N, ((t, Signal) :: r); split; [reflexivity|constructor; assumption]|].
    cbn [fill]. destruct (TIMEOUT <=? t)%N eqn:E; [apply N.leb_le in E; unfold TIMEOUT in E; lia|].
    destruct (IH (S k) K) as (t2 & l' & F & A'). rewrite F. exists (t + t2)%N, l'. split; [reflexivity|exact A'].
  - destruct k; [|cbn in K; lia]. exists 0%N, ((t, Fails e) :: r). split; [reflexivity|constructor; exact T].
  - destruct k; [|cbn in K; lia]. exists 0%N, ((t, a) :: r). split; [reflexivity|constructor; exact T].
Qed.

Lemma fill_short late l s f : delivers late l s f -> forall k, length s < k ->
  exists t, fill late k l = (t, match f with Closed => Short | Fault e => Broke e end).
Proof.
  induction 1 as [|t r T|t d r s f T ND A IH|t r s f T A IH|t e r T|t a r T]; intros k K; (destruct k as [|k]; [lia|]);
    cbn [fill]; try (destruct (TIMEOUT <=? t)%N eqn:E; unfold TIMEOUT in E; [apply N.leb_le in E|apply N.leb_gt in E]; try lia); try (eexists; reflexivity).
  - destruct d as [|c d]; [congruence|]. set (D := c :: d) in *. rewrite app_length in K.
    destruct (S k <=? length D) eqn:L; [apply Nat.leb_le in L; lia|]. apply Nat.leb_gt in L.
    destruct (IH (S k - length D)) as (t2 & F); [lia|]. rewrite F. eexists. destruct f; reflexivity.
  - destruct (IH (S k) K) as (t2 & F). rewrite F. eexists. reflexivity.
Qed.

Lemma delivers_supply late l s f : delivers late l s f -> length s <= supply l.
Proof.
  induction 1; cbn [supply length]; rewrite ?app_length; try lia.
Qed.

Lemma read_exact_some k s b s' : read_exact k s = Some (b, s') -> k <= length s /\ b = firstn k s /\ s' = skipn k s.
Proof. unfold read_exact. destruct (length s <? k) eqn:E; [discriminate|]. apply Nat.ltb_ge in E. intros [= <- <-]. auto. Qed.
Lemma read_exact_none k s : read_exact k s = None -> length s < k.
Proof. unfold read_exact. destruct (length s <? k) eqn:E; [|discriminate]. apply Nat.ltb_lt in E. auto. Qed.

(** read_exact on the stream is fill on the schedule *)
Lemma fill_is late l s f k : delivers late l s f ->
  match read_exact k s with
  | Some (b, s') => exists t l', fill late k l = (t, Full b l') /\ delivers late l' s' f
  | None => exists t, fill late k l = (t, match f with Closed => Short | Fault e => Broke e end)
  end.
Proof.
  intro A. destruct (read_exact k s) as [[b s']|] eqn:E.
  - apply read_exact_some in E as (K & -> & ->). apply (fill_enough _ _ _ _ A _ K).
  - apply read_exact_none in E. apply (fill_short _ _ _ _ A _ E).
Qed.

Lemma receive_closed late fuel : forall l s so se, delivers late l s Closed ->
  snd (receive late fuel l so se) = Reply (read_loop fuel s so se).
Proof.
  induction fuel as [|n IH]; intros l s so se A; [reflexivity|]. cbn [receive read_loop].
  pose proof (fill_is _ _ _ _ 8 A) as F. destruct (read_exact 8 s) as [[h s1]|]; [|destruct F as (t & ->); reflexivity].
  destruct F as (t1 & l1 & -> & A1). destruct (negb (byte_val h 0 =? FCGI_VERSION_1)%N).
  { destruct (starts_with (B "HTTP/") h); reflexivity. }
  pose proof (fill_is _ _ _ _ (N.to_nat (byte_val h 4 * 256 + byte_val h 5)) A1) as F. destruct (read_exact _ s1) as [[content s2]|]; [|destruct F as (t & ->); reflexivity].
  destruct F as (t2 & l2 & -> & A2).
  pose proof (fill_is _ _ _ _ (N.to_nat (byte_val h 6)) A2) as F. destruct (read_exact _ s2) as [[pad s3]|]; [|destruct F as (t & ->); reflexivity].
  destruct F as (t3 & l3 & -> & A3).
  assert (forall x y, snd (let (t4, x4) := receive late n l3 x y in ((t1 + t2 + t3 + t4)%N, x4)) = Reply (read_loop n s3 x y)) as G.
  { intros x y. specialize (IH l3 s3 x y A3). destruct (receive late n l3 x y). exact IH. }
  destruct (negb _); [apply G|]. destruct (_ =? FCGI_STDOUT)%N; [apply G|]. destruct (_ =? FCGI_STDERR)%N; [apply G|].
  destruct (_ =? FCGI_END_REQUEST)%N; [reflexivity|apply G].
Qed.

Lemma read_loop_fuel n : forall m s so se, length s < n -> length s < m -> read_loop n s so se = read_loop m s so se.
Proof.
  induction n as [|n IH]; intros [|m] s so se LN LM; try lia. cbn [read_loop].
  destruct (read_exact 8 s) as [[h s1]|] eqn:E1; [|reflexivity]. apply read_exact_some in E1 as (K1 & -> & ->).
  destruct (negb _); [reflexivity|].
  destruct (read_exact _ (skipn 8 s)) as [[content s2]|] eqn:E2; [|reflexivity]. apply read_exact_some in E2 as (K2 & -> & ->).
  destruct (read_exact _ (skipn _ (skipn 8 s))) as [[pad s3]|] eqn:E3; [|reflexivity]. apply read_exact_some in E3 as (K3 & -> & ->).
  match goal with |- context [read_loop n ?x] => set (s3 := x) end.
  assert (length s3 < n /\ length s3 < m) as (L1 & L2) by (unfold s3; rewrite !skipn_length; lia).
  assert (forall x y, read_loop n s3 x y = read_loop m s3 x y) as G by (intros; apply IH; assumption).
  rewrite !G. reflexivity.
Qed.

(** ** C105: however the bytes travel *)

(** However the answer is cut into pieces, delayed (below the time-out) and interrupted by signals: if the peer closes the connection
    in the end, the result is a function of the bytes alone. *)
Theorem C105_pieces : forall late l s, delivers late l s Closed ->
  snd (receive_response late l) = Reply (read_fastcgi_response s).
Proof.
  intros late l s A. unfold receive_response, read_fastcgi_response. rewrite (receive_closed _ _ _ _ _ _ A). f_equal.
  pose proof (delivers_supply _ _ _ _ A). apply read_loop_fuel; lia.
Qed.
Print Assumptions C105_pieces.

Lemma u8_val a : u8 (val a) = a.
Proof. unfold u8. rewrite N.mod_small by apply val_bound. apply ascii_N_embedding. Qed.
Lemma u8_mod n : u8 (n mod 256) = u8 n.
Proof. unfold u8. rewrite N.mod_mod by discriminate. reflexivity. Qed.

(** what a round takes from the stream is one record *)
Lemma round_wire s : 8 <= length s -> byte_val (firstn 8 s) 0 = 1%N ->
  let clen := N.to_nat (byte_val (firstn 8 s) 4 * 256 + byte_val (firstn 8 s) 5) in
  let plen := N.to_nat (byte_val (firstn 8 s) 6) in
  clen <= length (skipn 8 s) -> plen <= length (skipn clen (skipn 8 s)) ->
  exists w, wire_ok w /\ s = wire_bytes w ++ skipn plen (skipn clen (skipn 8 s)) /\
    w_type w = byte_val (firstn 8 s) 1 /\ w_id w = (byte_val (firstn 8 s) 2 * 256 + byte_val (firstn 8 s) 3)%N /\ w_content w = firstn clen (skipn 8 s).
Proof.
  intros L V. do 8 (destruct s as [|? s]; [cbn [length] in L; lia|]). cbn [firstn skipn] in *.
  unfold byte_val in *. cbn [nth_error] in *. fold (val a) in *. fold (val a0) (val a1) (val a2) (val a3) (val a4) (val a5). intros C P.
  pose proof (val_bound a0). pose proof (val_bound a1). pose proof (val_bound a2). pose proof (val_bound a3). pose proof (val_bound a4). pose proof (val_bound a5).
  set (clen := N.to_nat (val a3 * 256 + val a4)) in *. set (plen := N.to_nat (val a5)) in *.
  set (W := Wire (val a0) (val a1 * 256 + val a2) (firstn clen s) (firstn plen (skipn clen s)) a6).
  assert (blen (firstn clen s) = (val a3 * 256 + val a4)%N) as E1 by (unfold blen; rewrite firstn_length_le by exact C; unfold clen; lia).
  assert (blen (firstn plen (skipn clen s)) = val a5) as E2 by (unfold blen; rewrite firstn_length_le by exact P; unfold plen; lia).
  exists W. split; [|split; [|split; [reflexivity|split; reflexivity]]].
  - unfold wire_ok. cbn [W w_type w_id w_content w_padding]. rewrite E1, E2. lia.
  - unfold wire_bytes. cbn [W w_type w_id w_content w_padding w_reserved]. rewrite E1, E2.
    assert (forall x y, (y < 256)%N -> ((x * 256 + y) / 256 = x)%N /\ u8 (x * 256 + y) = u8 y) as D.
    { intros x y Y. split; [rewrite N.div_add_l by discriminate; rewrite N.div_small by exact Y; lia|].
      rewrite <- (u8_mod (x * 256 + y)). rewrite N.add_comm, N.mod_add by discriminate. apply u8_mod. }
    destruct (D (val a1) (val a2)) as (D1 & D2); [assumption|]. destruct (D (val a3) (val a4)) as (D3 & D4); [assumption|].
    rewrite D1, D2, D3, D4, !u8_val. rewrite <- V, u8_val. cbn [app]. do 8 f_equal.
    rewrite <- app_assoc, firstn_skipn, firstn_skipn. reflexivity.
Qed.

Lemma answered_cons w s : wire_ok w -> ~ is_end w -> answered s -> answered (wire_bytes w ++ s).
Proof.
  intros K N (l & e & rest & F & NE & OE & EE & ->). exists (w :: l), e, rest. split; [constructor; assumption|]. split; [intros x [<-|I]; auto|]. split; [exact OE|]. split; [exact EE|].
  cbn [flat_map]. rewrite app_assoc. reflexivity.
Qed.
Lemma foreign_cons w s : wire_ok w -> ~ is_end w -> foreign s -> foreign (wire_bytes w ++ s).
Proof.
  intros K N (l & e & rest & F & NE & OE & EE & ->). exists (w :: l), e, rest. split; [constructor; assumption|]. split; [intros x [<-|I]; auto|]. split; [exact OE|]. split; [exact EE|].
  cbn [flat_map]. rewrite app_assoc. reflexivity.
Qed.

Lemma receive_lost late fuel : forall l s e so se, delivers late l s (Fault e) -> length s < fuel ->
  answered s \/ foreign s \/ snd (receive late fuel l so se) = Lost e.
Proof.
  induction fuel as [|n IH]; intros l s e so se A LF; [lia|]. cbn [receive].
  pose proof (fill_is _ _ _ _ 8 A) as F. destruct (read_exact 8 s) as [[h s1]|] eqn:R1; [|destruct F as (t & ->); auto].
  apply read_exact_some in R1 as (K1 & -> & ->). destruct F as (t1 & l1 & -> & A1).
  destruct (byte_val (firstn 8 s) 0 =? FCGI_VERSION_1)%N eqn:V.
  2:{ right. left. exists [], (firstn 8 s), (skipn 8 s). split; [constructor|]. split; [intros ? []|]. split; [apply firstn_length_le; exact K1|].
      split; [|symmetry; apply firstn_skipn]. intros (r & E). rewrite E in V. vm_compute in V. discriminate. }
  apply N.eqb_eq in V. cbn [negb].
  set (clen := N.to_nat (byte_val (firstn 8 s) 4 * 256 + byte_val (firstn 8 s) 5)).
  set (plen := N.to_nat (byte_val (firstn 8 s) 6)).
  pose proof (fill_is _ _ _ _ clen A1) as F. destruct (read_exact clen (skipn 8 s)) as [[content s2]|] eqn:R2; [|destruct F as (t & ->); auto].
  apply read_exact_some in R2 as (K2 & -> & ->). destruct F as (t2 & l2 & -> & A2).
  pose proof (fill_is _ _ _ _ plen A2) as F. destruct (read_exact plen _) as [[pad s3]|] eqn:R3; [|destruct F as (t & ->); auto].
  apply read_exact_some in R3 as (K3 & -> & ->). destruct F as (t3 & l3 & -> & A3).
  destruct (round_wire s K1 V K2 K3) as (w & OK & E & ET & EI & _). fold clen plen in E. rewrite <- ET, <- EI.
  set (s3 := skipn plen (skipn clen (skipn 8 s))) in *.
  assert (~ is_end w -> forall x y, answered s \/ foreign s \/ snd (let (t4, x4) := receive late n l3 x y in ((t1 + t2 + t3 + t4)%N, x4)) = Lost e) as G.
  { intros NE x y. destruct (IH l3 s3 e x y A3) as [Z|[Z|Z]]; [unfold s3; rewrite !skipn_length; lia| | |].
    - left. rewrite E. apply answered_cons; assumption.
    - right. left. rewrite E. apply foreign_cons; assumption.
    - right. right. destruct (receive late n l3 x y). exact Z. }
  destruct (w_id w =? FCGI_REQUEST_ID)%N eqn:I; cbn [negb].
  2:{ apply G. intros (Z & _). rewrite Z in I. discriminate. }
  destruct (w_type w =? FCGI_STDOUT)%N eqn:T6; [apply G; intros (_ & Z); rewrite Z in T6; discriminate|].
  destruct (w_type w =? FCGI_STDERR)%N eqn:T7; [apply G; intros (_ & Z); rewrite Z in T7; discriminate|].
  destruct (w_type w =? FCGI_END_REQUEST)%N eqn:T; [|apply G; intros (_ & Z); rewrite Z in T; discriminate].
  left. exists [], w, s3. split; [constructor|]. split; [intros ? []|]. split; [exact OK|]. split; [split; apply N.eqb_eq; assumption|exact E].
Qed.

(** a record at the front of what arrives, whatever the end *)
Lemma receive_wire late n l w rest f so se : delivers late l (wire_bytes w ++ rest) f -> wire_ok w ->
  exists l', delivers late l' rest f /\
  snd (receive late (S n) l so se) =
  if negb (w_id w =? 1)%N then snd (receive late n l' so se)
  else if (w_type w =? 6)%N then snd (receive late n l' (so ++ w_content w) se)
  else if (w_type w =? 7)%N then snd (receive late n l' so (se ++ w_content w))
  else if (w_type w =? 3)%N then Reply (ReadOk so se)
  else snd (receive late n l' so se).
Proof.
  intros A OK. pose proof OK as (H1 & H2 & H3 & H4). unfold wire_bytes in A. rewrite <- !app_assoc in A.
  set (h := [u8 1; u8 (w_type w); u8 (w_id w / 256); u8 (w_id w); u8 (blen (w_content w) / 256);
             u8 (blen (w_content w)); u8 (blen (w_padding w)); w_reserved w]) in *.
  cbn [receive]. pose proof (fill_is _ _ _ _ 8 A) as F. rewrite read_exact_app in F by reflexivity. destruct F as (t1 & l1 & -> & A1).
  rewrite (byte_val_u8 h 0 1 eq_refl). change (1 mod 256 =? FCGI_VERSION_1)%N with true. cbn [negb].
  rewrite (byte_val_u8 h 1 _ eq_refl), (byte_val_u8 h 2 _ eq_refl), (byte_val_u8 h 3 _ eq_refl),
    (byte_val_u8 h 4 _ eq_refl), (byte_val_u8 h 5 _ eq_refl), (byte_val_u8 h 6 _ eq_refl).
  rewrite (N.mod_small (w_type w)) by auto.
  assert (w_id w / 256 < 256)%N by (apply N.div_lt_upper_bound; lia).
  rewrite (N.mod_small (w_id w / 256)), divmod256 by lia.
  assert (blen (w_content w) / 256 < 256)%N by (apply N.div_lt_upper_bound; lia).
  rewrite (N.mod_small (blen (w_content w) / 256)), divmod256 by lia.
  rewrite (N.mod_small (blen (w_padding w))) by lia.
  pose proof (fill_is _ _ _ _ (N.to_nat (blen (w_content w))) A1) as F. rewrite read_exact_app in F by (unfold blen; lia). destruct F as (t2 & l2 & -> & A2).
  pose proof (fill_is _ _ _ _ (N.to_nat (blen (w_padding w))) A2) as F. rewrite read_exact_app in F by (unfold blen; lia). destruct F as (t3 & l3 & -> & A3).
  exists l3. split; [exact A3|].
  assert (forall x y, snd (let (t4, x4) := receive late n l3 x y in ((t1 + t2 + t3 + t4)%N, x4)) = snd (receive late n l3 x y)) as G by (intros x y; destruct (receive late n l3 x y); reflexivity).
  unfold FCGI_REQUEST_ID, FCGI_STDOUT, FCGI_STDERR, FCGI_END_REQUEST. rewrite <- !G.
  destruct (w_id w =? 1)%N; cbn [negb]; [|reflexivity]. destruct (w_type w =? 6)%N; [reflexivity|]. destruct (w_type w =? 7)%N; [reflexivity|]. destruct (w_type w =? 3)%N; reflexivity.
Qed.

Lemma receive_wires late ws : forall l n rest f so se, Forall wire_ok ws -> (forall w, In w ws -> ~ is_end w) ->
  delivers late l (flat_map wire_bytes ws ++ rest) f ->
  exists l', delivers late l' rest f /\ snd (receive late (length ws + n) l so se) = snd (receive late n l' (so ++ stream_of 6 ws) (se ++ stream_of 7 ws)).
Proof.
  induction ws as [|w ws IH]; intros l n rest f so se F N A.
  - exists l. split; [exact A|]. cbn. rewrite !app_nil_r. reflexivity.
  - apply Forall_cons_iff in F as [Fw F]. cbn [flat_map] in A. rewrite <- app_assoc in A. cbn [length plus].
    destruct (receive_wire late (length ws + n) l w _ f so se A Fw) as (l1 & A1 & E). rewrite E.
    assert (~ is_end w) as Nw by (apply N; left; auto).
    assert (forall w0, In w0 ws -> ~ is_end w0) as Nl by (intros; apply N; right; auto).
    unfold stream_of; cbn [flat_map]. fold (stream_of 6 ws) (stream_of 7 ws).
    destruct (w_id w =? 1)%N eqn:Ei; cbn [negb andb].
    2:{ destruct (IH l1 n rest f so se F Nl A1) as (l' & A' & E'). exists l'. split; [exact A'|exact E']. }
    destruct (w_type w =? 6)%N eqn:E6.
    { apply N.eqb_eq in E6. rewrite E6. change (6 =? 7)%N with false. cbn iota. destruct (IH l1 n rest f (so ++ w_content w) se F Nl A1) as (l' & A' & E'). exists l'. split; [exact A'|]. rewrite E', <- !app_assoc. reflexivity. }
    destruct (w_type w =? 7)%N eqn:E7.
    { destruct (IH l1 n rest f so (se ++ w_content w) F Nl A1) as (l' & A' & E'). exists l'. split; [exact A'|]. rewrite E', <- !app_assoc. reflexivity. }
    destruct (w_type w =? 3)%N eqn:E3; [exfalso; apply Nw; split; apply N.eqb_eq; auto|].
    destruct (IH l1 n rest f so se F Nl A1) as (l' & A' & E'). exists l'. split; [exact A'|exact E'].
Qed.

(** A connection that breaks or stalls for five seconds: the answer counts only if it was whole (its end record had come) or already
    refused; otherwise the call reports the failure, and never takes a part for the whole. *)
Theorem C105_broken : forall late l s e, delivers late l s (Fault e) ->
  (forall ws en rest, Forall wire_ok ws -> (forall w, In w ws -> ~ is_end w) -> wire_ok en -> is_end en ->
     s = flat_map wire_bytes ws ++ wire_bytes en ++ rest ->
     snd (receive_response late l) = Reply (ReadOk (stream_of 6 ws) (stream_of 7 ws))) /\
  (foreign s -> exists v, snd (receive_response late l) = Reply (ReadVersion v) \/ snd (receive_response late l) = Reply ReadHttp) /\
  (~ answered s -> ~ foreign s -> snd (receive_response late l) = Lost e).
Proof.
  intros late l s e A. pose proof (delivers_supply _ _ _ _ A) as LS. unfold receive_response. split; [|split].
  - intros ws en rest F N OK EN ->.
    assert (exists k, S (supply l) = length ws + S k) as [k ->].
    { exists (supply l - length ws). rewrite !app_length in LS. pose proof (wires_len ws). lia. }
    destruct (receive_wires late ws l (S k) _ _ [] [] F N A) as (l' & A' & ->).
    destruct (receive_wire late k l' en rest _ ([] ++ stream_of 6 ws) ([] ++ stream_of 7 ws) A' OK) as (l'' & _ & ->).
    destruct EN as (-> & ->). reflexivity.
  - intros (ws & h & rest & F & N & L8 & NV & ->).
    assert (exists k, S (supply l) = length ws + S k) as [k ->].
    { exists (supply l - length ws). rewrite !app_length in LS. pose proof (wires_len ws). lia. }
    destruct (receive_wires late ws l (S k) _ _ [] [] F N A) as (l' & A' & ->).
    cbn [receive]. pose proof (fill_is _ _ _ _ 8 A') as G. rewrite read_exact_app in G by (symmetry; exact L8). destruct G as (t1 & l1 & -> & _).
    destruct (byte_val h 0 =? FCGI_VERSION_1)%N eqn:V.
    + exfalso. apply NV. apply N.eqb_eq in V. destruct h as [|c h]; [discriminate L8|]. exists h. f_equal. rewrite <- (u8_val c). f_equal. exact V.
    + cbn [negb snd]. exists (byte_val h 0). destruct (starts_with (B "HTTP/") h); auto.
  - intros N1 N2. destruct (receive_lost late (S (supply l)) l s e [] [] A) as [Z|[Z|Z]]; [lia|contradiction|contradiction|exact Z].
Qed.
Print Assumptions C105_broken.

(** ** Writing *)

(** either all of [buf] was sent, or an error occurred before its end *)
Definition sends (g : sending) (buf : bytes) : Prop :=
  (g.(g_error) = None /\ g.(g_sent) = buf) \/ (g.(g_error) <> None /\ exists v, v <> [] /\ buf = g.(g_sent) ++ v).

Lemma push_sends late zero l : forall buf, sends (push late zero buf l) buf.
Proof.
  induction l as [|[t a] l IH]; intros [|c buf]; try (left; split; reflexivity).
  cbn [push]. assert (forall e, sends (mkSending [] l e (Some late)) (c :: buf)) as Z by (intro; right; split; [discriminate|]; exists (c :: buf); split; [discriminate|reflexivity]).
  destruct (TIMEOUT <=? t)%N; [apply Z|]. set (D := c :: buf) in *. destruct a as [[|n]| |e].
  - right. split; [discriminate|]. exists D. split; [discriminate|reflexivity].
  - destruct (length D <=? S n) eqn:L; [left; split; reflexivity|]. specialize (IH (skipn (S n) D)).
    destruct IH as [(E & S1)|(E & v & NV & S1)].
    + left. split; [exact E|]. cbn [g_sent]. rewrite S1. apply firstn_skipn.
    + right. split; [exact E|]. exists v. split; [exact NV|]. cbn [g_sent]. rewrite <- app_assoc, <- S1. symmetry. apply firstn_skipn.
  - exact (IH D).
  - right. split; [discriminate|]. exists D. split; [discriminate|reflexivity].
Qed.

Lemma and_sends g u f v : sends g u -> (forall l, sends (f l) v) -> sends (and_send g f) (u ++ v).
Proof.
  intros [(E & S1)|(E & x & NX & ->)] H; unfold and_send.
  - rewrite E. specialize (H (g_rest g)). destruct H as [(E2 & S2)|(E2 & x & NX & ->)].
    + left. cbn. split; [exact E2|congruence].
    + right. cbn. split; [exact E2|]. exists x. split; [exact NX|]. rewrite S1. apply app_assoc.
  - destruct (g_error g) eqn:E'; [|congruence]. right. split; [rewrite E'; discriminate|]. exists (x ++ v). split; [destruct x; [congruence|discriminate]|]. rewrite app_assoc. reflexivity.
Qed.
(** an error that is certain *)
Lemma and_stops g u f v : sends g u -> (forall l, g_error (f l) <> None /\ prefix (g_sent (f l)) v) ->
  g_error (and_send g f) <> None /\ prefix (g_sent (and_send g f)) (u ++ v).
Proof.
  intros [(E & S1)|(E & x & NX & ->)] H; unfold and_send.
  - rewrite E. destruct (H (g_rest g)) as (E2 & y & ->). cbn. split; [exact E2|]. exists y. rewrite S1. apply app_assoc.
  - destruct (g_error g) eqn:E'; [|congruence]. split; [rewrite E'; discriminate|]. exists (x ++ v). rewrite app_assoc. reflexivity.
Qed.

Lemma put_sends late zero t id content r l : write_record t id content = Some r -> sends (put_record late zero t id content l) r.
Proof.
  unfold write_record, put_record. destruct (65535 <? blen content)%N; [discriminate|]. intros H.
  assert (forall x y : bytes, Some x = Some y -> x = y) as SI by congruence. apply SI in H. rewrite <- H. clear.
  apply and_sends; [apply push_sends|]. intro l1. apply and_sends; [apply push_sends|]. intro l2. apply push_sends.
Qed.
Lemma put_refused late zero t id content l : write_record t id content = None -> put_record late zero t id content l = mkSending [] l 0 (Some (B "fastcgi content too large")).
Proof. unfold write_record, put_record. destruct (65535 <? blen content)%N; [reflexivity|discriminate]. Qed.

Lemma transmit_sends late zero body bridge out l : send_fastcgi_request body bridge = Some out -> sends (transmit late zero body bridge l) out.
Proof.
  unfold send_fastcgi_request, obind, transmit. intros H.
  destruct (write_record FCGI_BEGIN_REQUEST FCGI_REQUEST_ID _) as [r1|] eqn:E1; [|discriminate].
  destruct (write_params (request_params body bridge)) as [pb|] eqn:E2; [|discriminate].
  rewrite (params_ne _ _ _ E2) in *.
  destruct (write_record FCGI_PARAMS FCGI_REQUEST_ID pb) as [r2|] eqn:E3; [|discriminate].
  destruct (write_record FCGI_PARAMS FCGI_REQUEST_ID []) as [r3|] eqn:E4; [|discriminate].
  destruct (if is_empty body then Some [] else write_record FCGI_STDIN FCGI_REQUEST_ID body) as [r4|] eqn:E5; [|discriminate].
  destruct (write_record FCGI_STDIN FCGI_REQUEST_ID []) as [r5|] eqn:E6; [|discriminate].
  assert (out = r1 ++ r2 ++ r3 ++ r4 ++ r5) as -> by congruence.
  apply and_sends; [apply put_sends; exact E1|]. intro l1. apply and_sends; [apply put_sends; exact E3|]. intro l2.
  apply and_sends; [apply put_sends; exact E4|]. intro l3. apply and_sends; [|intro l4; apply put_sends; exact E6].
  destruct (is_empty body); [left; split; [reflexivity|cbn; congruence]|apply put_sends; exact E5].
Qed.

Lemma transmit_refused late zero body bridge l : send_fastcgi_request body bridge = None ->
  g_error (transmit late zero body bridge l) <> None /\
  exists out rs, records out rs /\ prefix (g_sent (transmit late zero body bridge l)) out /\ forall r, In r rs -> rec_type r <> 5%N.
Proof.
  unfold send_fastcgi_request, obind, transmit. intros H.
  destruct (write_record FCGI_BEGIN_REQUEST FCGI_REQUEST_ID _) as [r1|] eqn:E1.
  2:{ apply write_record_refuses in E1. vm_compute in E1. discriminate. }
  set (b0 := [u8 (N.shiftr FCGI_RESPONDER 8); u8 (N.land FCGI_RESPONDER 255); u8 0; u8 0; u8 0; u8 0; u8 0; u8 0]) in *.
  assert (records r1 [rec_of 1 b0]) as R1.
  { rewrite <- (app_nil_r r1). apply records_cons; [lia|exact E1|constructor]. }
  assert (forall f, (forall l, g_error (f l) <> None /\ prefix (g_sent (f l)) []) -> g_error (and_send (put_record late zero FCGI_BEGIN_REQUEST FCGI_REQUEST_ID b0 l) f) <> None /\
    exists out rs, records out rs /\ prefix (g_sent (and_send (put_record late zero FCGI_BEGIN_REQUEST FCGI_REQUEST_ID b0 l) f)) out /\ forall r, In r rs -> rec_type r <> 5%N) as S1.
  { intros f HF. destruct (and_stops _ _ f [] (put_sends late zero _ _ _ _ l E1) HF) as (X & Y). split; [exact X|]. rewrite app_nil_r in Y.
    exists r1, [rec_of 1 b0]. split; [exact R1|]. split; [exact Y|]. intros r [<-|[]]. discriminate. }
  destruct (write_params (request_params body bridge)) as [pb|] eqn:E2.
  2:{ apply S1. intro l1. split; [discriminate|]. exists []. reflexivity. }
  rewrite (params_ne _ _ _ E2) in *.
  destruct (write_record FCGI_PARAMS FCGI_REQUEST_ID pb) as [r2|] eqn:E3.
  2:{ apply S1. intro l1. rewrite (put_refused _ _ _ _ _ _ E3). split; [discriminate|]. exists []. reflexivity. }
  destruct (write_record FCGI_PARAMS FCGI_REQUEST_ID []) as [r3|] eqn:E4; [|apply write_record_refuses in E4; vm_compute in E4; discriminate].
  destruct (write_record FCGI_STDIN FCGI_REQUEST_ID []) as [r5|] eqn:E6; [|apply write_record_refuses in E6; vm_compute in E6; discriminate].
  destruct (is_empty body) eqn:EB; [discriminate|].
  destruct (write_record FCGI_STDIN FCGI_REQUEST_ID body) as [r4|] eqn:E5; [discriminate|].
  assert (records (r1 ++ r2 ++ r3) [rec_of 1 b0; rec_of 4 pb; rec_of 4 []]) as R.
  { apply records_cons; [lia|exact E1|]. apply records_cons; [lia|exact E3|]. rewrite <- (app_nil_r r3). apply records_cons; [lia|exact E4|constructor]. }
  match goal with |- g_error ?g <> None /\ _ => assert (g_error g <> None /\ prefix (g_sent g) (r1 ++ r2 ++ r3)) as (X & Y) end.
  { apply and_stops; [apply put_sends; exact E1|]. intro l1. apply and_stops; [apply put_sends; exact E3|]. intro l2. rewrite <- (app_nil_r r3).
    apply and_stops; [apply put_sends; exact E4|]. intro l3. rewrite (put_refused _ _ _ _ _ _ E5). split; [discriminate|]. exists []. reflexivity. }
  split; [exact X|]. exists (r1 ++ r2 ++ r3), [rec_of 1 b0; rec_of 4 pb; rec_of 4 []]. split; [exact R|]. split; [exact Y|].
  intros r I. repeat (destruct I as [<-|I]; [discriminate|]). destruct I.
Qed.

(** However the writes are cut and interrupted, what reaches the peer is the request or, if the call reports an error, a proper part of its
    beginning; a request that does not fit is given up before any part of the body is sent. *)
Theorem C105_request : forall late zero body bridge l,
  let g := transmit late zero body bridge l in
  (forall out, send_fastcgi_request body bridge = Some out ->
     prefix g.(g_sent) out /\ (g.(g_error) = None <-> g.(g_sent) = out)) /\
  (send_fastcgi_request body bridge = None ->
     g.(g_error) <> None /\
     exists out rs, records out rs /\ prefix g.(g_sent) out /\ forall r, In r rs -> rec_type r <> 5%N).
Proof.
  intros late zero body bridge l g. split; [|apply transmit_refused].
  intros out E. destruct (transmit_sends late zero body bridge out l E) as [(H & S1)|(H & v & NV & S1)]; fold g in H, S1.
  - split; [exists []; rewrite app_nil_r; congruence|]. tauto.
  - split; [exists v; exact S1|]. split; [congruence|]. intro Z. rewrite Z in S1. exfalso. apply NV. rewrite <- (app_nil_r out) in S1 at 1. apply app_inv_head in S1. congruence.
Qed.
Print Assumptions C105_request.

Lemma push_all late zero l : forall buf, takes_all l -> g_error (push late zero buf l) = None /\ takes_all (g_rest (push late zero buf l)).
Proof.
  induction l as [|[t a] l IH]; intros [|c buf] H; try (split; [reflexivity|assumption]).
  apply Forall_cons_iff in H as ((T & K) & H). cbn [fst snd] in *. cbn [push]. destruct (TIMEOUT <=? t)%N eqn:E; [apply N.leb_le in E; unfold TIMEOUT in E; lia|].
  destruct a as [[|n]| |e]; [congruence| |apply IH; exact H|destruct K].
  destruct (length (c :: buf) <=? S n); [split; [reflexivity|exact H]|]. apply IH. exact H.
Qed.
Lemma and_all g f : (g_error g = None /\ takes_all (g_rest g)) -> (forall l, takes_all l -> g_error (f l) = None /\ takes_all (g_rest (f l))) ->
  g_error (and_send g f) = None /\ takes_all (g_rest (and_send g f)).
Proof. intros (E & T) H. unfold and_send. rewrite E. cbn. apply H. exact T. Qed.
Lemma and_error g f e : (g_error g = None /\ takes_all (g_rest g)) -> (forall l, takes_all l -> g_error (f l) = Some e) -> g_error (and_send g f) = Some e.
Proof. intros (E & T) H. unfold and_send. rewrite E. cbn. apply H. exact T. Qed.
Lemma put_all late zero t id content r l : write_record t id content = Some r -> takes_all l ->
  g_error (put_record late zero t id content l) = None /\ takes_all (g_rest (put_record late zero t id content l)).
Proof.
  unfold write_record, put_record. destruct (65535 <? blen content)%N; [discriminate|]. intros _ T.
  apply and_all; [apply push_all; exact T|]. intros l1 T1. apply and_all; [apply push_all; exact T1|]. intros l2 T2. apply push_all. exact T2.
Qed.
Lemma transmit_all late zero body bridge l : takes_all l ->
  g_error (transmit late zero body bridge l) =
  match send_fastcgi_request body bridge with
  | Some _ => None
  | None => Some (match write_params (request_params body bridge) with None => B "fastcgi name/value too large" | Some _ => B "fastcgi content too large" end)
  end.
Proof.
  intro T. unfold send_fastcgi_request, obind, transmit.
  destruct (write_record FCGI_BEGIN_REQUEST FCGI_REQUEST_ID _) as [r1|] eqn:E1.
  2:{ apply write_record_refuses in E1. vm_compute in E1. discriminate. }
  destruct (write_params (request_params body bridge)) as [pb|] eqn:E2.
  2:{ apply and_error; [eapply put_all; eassumption|reflexivity]. }
  rewrite (params_ne _ _ _ E2) in *.
  destruct (write_record FCGI_PARAMS FCGI_REQUEST_ID pb) as [r2|] eqn:E3.
  2:{ apply and_error; [eapply put_all; eassumption|]. intros l1 T1. rewrite (put_refused _ _ _ _ _ _ E3). reflexivity. }
  destruct (write_record FCGI_PARAMS FCGI_REQUEST_ID []) as [r3|] eqn:E4; [|apply write_record_refuses in E4; vm_compute in E4; discriminate].
  destruct (write_record FCGI_STDIN FCGI_REQUEST_ID []) as [r5|] eqn:E6; [|apply write_record_refuses in E6; vm_compute in E6; discriminate].
  destruct (is_empty body) eqn:EB.
  - apply and_all; [eapply put_all; eassumption|]. intros l1 T1. apply and_all; [eapply put_all; eassumption|]. intros l2 T2. apply and_all; [eapply put_all; eassumption|]. intros l3 T3.
    apply and_all; [split; [reflexivity|exact T3]|]. intros l4 T4. eapply put_all; eassumption.
  - destruct (write_record FCGI_STDIN FCGI_REQUEST_ID body) as [r4|] eqn:E5.
    + apply and_all; [eapply put_all; eassumption|]. intros l1 T1. apply and_all; [eapply put_all; eassumption|]. intros l2 T2. apply and_all; [eapply put_all; eassumption|]. intros l3 T3.
      apply and_all; [eapply put_all; eassumption|]. intros l4 T4. eapply put_all; eassumption.
    + apply and_error; [eapply put_all; eassumption|]. intros l1 T1. apply and_error; [eapply put_all; eassumption|]. intros l2 T2. apply and_error; [eapply put_all; eassumption|]. intros l3 T3.
      rewrite (put_refused _ _ _ _ _ _ E5). reflexivity.
Qed.

(** ** The whole call *)

Lemma delivers_ex late l : exists s f, delivers late l s f.
Proof.
  induction l as [|[t a] l (s & f & IH)]; [exists [], Closed; constructor|].
  destruct (N.lt_ge_cases t 5000) as [T|T]; [|exists [], (Fault late); constructor; exact T].
  destruct a as [[|c d]| |e].
  - exists [], Closed. constructor. exact T.
  - exists ((c :: d) ++ s), f. constructor; [exact T|discriminate|exact IH].
  - exists s, f. constructor; assumption.
  - exists [], (Fault e). constructor. exact T.
Qed.

(** On a connection that does not fail, the call is the one of C68: the pieces in which the data travel have no influence. *)
Theorem C105_call : forall w conn a acts r t,
  (forall ep peer, w.(p_connect) ep = inl peer ->
     takes_all (conn ep).(n_out) /\ forall req, delivers (conn ep).(n_late) ((conn ep).(n_in) req) (peer req) Closed) ->
  exec_php_over w conn a = (acts, r, t) ->
  r = snd (exec_php w a) /\
  (forall ep req, In (ASend ep req) (fst (exec_php w a)) -> acts = fst (exec_php w a)).
Proof.
  intros w conn a acts r t HC H. unfold exec_php_over in H. unfold exec_php.
  destruct (bridge_path_for w (x_file a)) as [b|e].
  2:{ assert (inr e = r) as <- by congruence. split; [reflexivity|intros ? ? []]. }
  set (made := if p_exists w b then [] else [AWrite b BRIDGE_SCRIPT]) in *.
  destruct (if p_exists w b then None else p_write w b BRIDGE_SCRIPT) as [e|].
  { split; [cbn [fst snd]; congruence|]. intros ep req _. cbn [fst snd]. congruence. }
  destruct (parse_endpoint w _) as [ep|].
  2:{ split; [cbn [fst snd]; congruence|]. intros ep req _. cbn [fst snd]. congruence. }
  destruct (p_connect w ep) as [peer|e] eqn:EC.
  2:{ split; [cbn [fst snd]; congruence|]. intros ep' req _. cbn [fst snd]. congruence. }
  destruct (HC ep peer EC) as (T & A).
  set (body := p_to_vec w (payload a)) in *. set (g := transmit _ _ _ _ _) in *.
  pose proof (transmit_all (n_late (conn ep)) (n_zero (conn ep)) body b _ T) as TA. fold g in TA. rewrite TA in H.
  destruct (send_fastcgi_request body b) as [out|] eqn:ES.
  - destruct (transmit_sends (n_late (conn ep)) (n_zero (conn ep)) body b out (n_out (conn ep)) ES) as [(_ & SE)|(NE & _)]; [fold g in SE|fold g in NE; congruence].
    rewrite SE in H. pose proof (C105_pieces _ _ _ (A out)) as P. destruct (receive_response (n_late (conn ep)) (n_in (conn ep) out)) as [t' r']. cbn [snd] in P. subst r'.
    split; [cbn [fst snd]; unfold php_answer; congruence|]. intros ep' req _. cbn [fst snd]. congruence.
  - split; [cbn [fst snd]; congruence|]. intros ep' req I. exfalso. cbn [fst] in I. apply in_app_or in I as [I|I]; [unfold made in I; destruct (p_exists w b)|]; cbn in I; intuition discriminate.
Qed.
Print Assumptions C105_call.

(** A value is returned only if the peer got the whole request and its answer was whole or ended by closing the connection. *)
Theorem C105_value : forall w conn a acts v t, exec_php_over w conn a = (acts, inl v, t) ->
  exists ep bridge sent s f, In (ASend ep sent) acts /\ bridge_of w a.(x_file) bridge /\ php_request w a bridge sent /\
    delivers (conn ep).(n_late) ((conn ep).(n_in) sent) s f /\ (answered s \/ f = Closed).
Proof.
  intros w conn a acts v t H. unfold exec_php_over in H.
  destruct (bridge_path_for w (x_file a)) as [b|e] eqn:EB; [|discriminate].
  set (made := if p_exists w b then [] else [AWrite b BRIDGE_SCRIPT]) in *.
  destruct (if p_exists w b then None else p_write w b BRIDGE_SCRIPT) as [e|]; [discriminate|].
  destruct (parse_endpoint w _) as [ep|]; [|discriminate]. destruct (p_connect w ep) as [peer|e] eqn:EC; [|discriminate].
  set (body := p_to_vec w (payload a)) in *. set (g := transmit _ _ _ _ _) in *.
  destruct (g_error g) eqn:EG; [discriminate|].
  destruct (send_fastcgi_request body b) as [out|] eqn:ES.
  2:{ destruct (transmit_refused (n_late (conn ep)) (n_zero (conn ep)) body b (n_out (conn ep)) ES) as (NE & _). fold g in NE. congruence. }
  destruct (transmit_sends (n_late (conn ep)) (n_zero (conn ep)) body b out (n_out (conn ep)) ES) as [(_ & SE)|(NE & _)]; [fold g in SE|fold g in NE; congruence].
  rewrite SE in H. destruct (delivers_ex (n_late (conn ep)) (n_in (conn ep) out)) as (s & f & A).
  exists ep, b, out, s, f.
  assert (acts = made ++ [AConnect ep; ASend ep out]) as -> by (destruct (receive_response _ _); congruence).
  split; [apply in_or_app; right; right; left; reflexivity|]. split; [apply bridge_is; exact EB|]. split; [apply request_is; exact ES|]. split; [exact A|].
  destruct f as [|e]; [right; reflexivity|left].
  destruct (C105_broken _ _ _ _ A) as (_ & HF & _). pose proof (delivers_supply _ _ _ _ A) as LS.
  destruct (receive_lost _ (S (supply (n_in (conn ep) out))) _ _ _ [] [] A) as [Z|[Z|Z]]; [lia|exact Z| |].
  - destruct (HF Z) as (x & K). destruct (receive_response (n_late (conn ep)) (n_in (conn ep) out)) as [t' r']. cbn [snd] in K. destruct K as [->| ->]; discriminate.
  - fold (receive_response (n_late (conn ep)) (n_in (conn ep) out)) in Z. destruct (receive_response (n_late (conn ep)) (n_in (conn ep) out)) as [t' r']. cbn [snd] in Z. subst r'. discriminate.
Qed.
Print Assumptions C105_value.

(** ** Time *)

Lemma waits_cons x t : waits (x :: t) = (N.min x 5000 + waits t)%N.
Proof. reflexivity. Qed.
Lemma fill_time late l : forall k, let (t, x) := fill late k l in
  (t + match x with Full _ l' => waits (map fst l') | _ => 0 end <= waits (map fst l))%N.
Proof.
  induction l as [|[t a] l IH]; intros [|k]; cbn [fill]; try (cbn [map fst waits fold_right]; lia).
  cbn [map fst]. rewrite waits_cons. unfold TIMEOUT. destruct (5000 <=? t)%N eqn:E.
  - apply N.leb_le in E. lia.
  - apply N.leb_gt in E. destruct a as [[|c d]| |e]; try lia.
    + destruct (S k <=? length (c :: d)).
      * destruct (S k <? length (c :: d)); [cbn [map fst]; rewrite waits_cons|]; lia.
      * specialize (IH (S k - length (c :: d))). destruct (fill late (S k - length (c :: d)) l) as [t2 [b l'| |e]]; lia.
    + specialize (IH (S k)). destruct (fill late (S k) l) as [t2 x]. lia.
Qed.
Lemma receive_time late n : forall l so se, (fst (receive late n l so se) <= waits (map fst l))%N.
Proof.
  induction n as [|n IH]; intros l so se; [cbn; lia|]. cbn [receive].
  pose proof (fill_time late l 8) as F1. destruct (fill late 8 l) as [t1 [h l1| |e]]; cbn [fst]; try lia.
  destruct (negb _); [cbn [fst]; lia|].
  match goal with |- context [fill late ?c l1] => pose proof (fill_time late l1 c) as F2; destruct (fill late c l1) as [t2 [content l2| |e]]; cbn [fst]; try lia end.
  match goal with |- context [fill late ?c l2] => pose proof (fill_time late l2 c) as F3; destruct (fill late c l2) as [t3 [pad l3| |e]]; cbn [fst]; try lia end.
  assert (forall x y, (fst (let (t4, x4) := receive late n l3 x y in ((t1 + t2 + t3 + t4)%N, x4)) <= waits (map fst l))%N) as G.
  { intros x y. specialize (IH l3 x y). destruct (receive late n l3 x y). cbn [fst] in *. lia. }
  destruct (negb _); [apply G|]. destruct (_ =? FCGI_STDOUT)%N; [apply G|]. destruct (_ =? FCGI_STDERR)%N; [apply G|].
  destruct (_ =? FCGI_END_REQUEST)%N; [cbn [fst]; lia|apply G].
Qed.
Lemma push_time late zero l : forall buf, (g_time (push late zero buf l) + waits (map fst (g_rest (push late zero buf l))) <= waits (map fst l))%N.
Proof.
  induction l as [|[t a] l IH]; intros [|c buf]; try (cbn; lia).
  cbn [map fst]. rewrite waits_cons. cbn [push]. unfold TIMEOUT. destruct (5000 <=? t)%N eqn:E; [apply N.leb_le in E; cbn [g_time g_rest]; lia|apply N.leb_gt in E].
  destruct a as [[|n]| |e]; try (cbn [g_time g_rest]; lia).
  - destruct (length (c :: buf) <=? S n); [cbn [g_time g_rest]; lia|]. specialize (IH (skipn (S n) (c :: buf))). cbn [g_time g_rest]. lia.
  - specialize (IH (c :: buf)). cbn [g_time g_rest]. lia.
Qed.
Lemma and_time g f (l : outgoing) : (g_time g + waits (map fst (g_rest g)) <= waits (map fst l))%N ->
  (forall l', (g_time (f l') + waits (map fst (g_rest (f l'))) <= waits (map fst l'))%N) ->
  (g_time (and_send g f) + waits (map fst (g_rest (and_send g f))) <= waits (map fst l))%N.
Proof. intros H G. unfold and_send. destruct (g_error g); [exact H|]. cbn [g_time g_rest]. specialize (G (g_rest g)). lia. Qed.
Lemma put_time late zero t id content l : (g_time (put_record late zero t id content l) + waits (map fst (g_rest (put_record late zero t id content l))) <= waits (map fst l))%N.
Proof.
  unfold put_record. destruct (65535 <? blen content)%N; [cbn [g_time g_rest]; lia|].
  apply and_time; [apply push_time|]. intro l1. apply and_time; [apply push_time|]. intro l2. apply push_time.
Qed.
Lemma transmit_time late zero body bridge l : (g_time (transmit late zero body bridge l) + waits (map fst (g_rest (transmit late zero body bridge l))) <= waits (map fst l))%N.
Proof.
  unfold transmit. apply and_time; [apply put_time|]. intro l1. destruct (write_params _) as [pb|]; [|cbn [g_time g_rest]; lia].
  apply and_time; [destruct (is_empty pb); [cbn [g_time g_rest]; lia|apply put_time]|]. intro l2. apply and_time; [apply put_time|]. intro l3.
  apply and_time; [destruct (is_empty body); [cbn [g_time g_rest]; lia|apply put_time]|]. intro l4. apply put_time.
Qed.

(** No single read or write waits longer than five seconds ... *)
Theorem C105_waits : forall w conn a acts r t, exec_php_over w conn a = (acts, r, t) ->
  t = 0%N \/ exists ep sent, In (ASend ep sent) acts /\
    (t <= waits (map fst (conn ep).(n_out)) + waits (map fst ((conn ep).(n_in) sent)))%N.
Proof.
  intros w conn a acts r t H. unfold exec_php_over in H.
  destruct (bridge_path_for w (x_file a)) as [b|e] eqn:EB; [|left; congruence].
  set (made := if p_exists w b then [] else [AWrite b BRIDGE_SCRIPT]) in *.
  destruct (if p_exists w b then None else p_write w b BRIDGE_SCRIPT) as [e|]; [left; congruence|].
  destruct (parse_endpoint w _) as [ep|]; [|left; congruence]. destruct (p_connect w ep) as [peer|e] eqn:EC; [|left; congruence].
  set (body := p_to_vec w (payload a)) in *. pose proof (transmit_time (n_late (conn ep)) (n_zero (conn ep)) body b (n_out (conn ep))) as TT.
  set (g := transmit _ _ _ _ _) in *. right. exists ep, (g_sent g).
  destruct (g_error g) eqn:EG.
  - assert (acts = made ++ [AConnect ep; ASend ep (g_sent g)] /\ t = g_time g) as (-> & ->) by (split; congruence).
    split; [apply in_or_app; right; right; left; reflexivity|]. lia.
  - pose proof (receive_time (n_late (conn ep)) (S (supply (n_in (conn ep) (g_sent g)))) (n_in (conn ep) (g_sent g)) [] []) as RT.
    fold (receive_response (n_late (conn ep)) (n_in (conn ep) (g_sent g))) in RT. destruct (receive_response (n_late (conn ep)) (n_in (conn ep) (g_sent g))) as [t' r']. cbn [fst] in RT.
    assert (acts = made ++ [AConnect ep; ASend ep (g_sent g)] /\ t = (g_time g + t')%N) as (-> & ->) by (split; congruence).
    split; [apply in_or_app; right; right; left; reflexivity|]. lia.
Qed.
Print Assumptions C105_waits.

(** one byte every 4999 milliseconds *)
Definition drip (s : bytes) : incoming := map (fun c => (4999%N, Came [c])) s.
Lemma drip_delivers late s : delivers late (drip s) s Closed.
Proof. induction s as [|c s IH]; [constructor|]. cbn. change (c :: s) with ([c] ++ s). constructor; [lia|discriminate|exact IH]. Qed.
Lemma drip_fill late s : forall k, k <= length s -> fill late k (drip s) = ((4999 * N.of_nat k)%N, Full (firstn k s) (drip (skipn k s))).
Proof.
  induction s as [|c s IH]; intros [|k] K; try reflexivity; try (cbn in K; lia).
  cbn [drip map fill]. change (TIMEOUT <=? 4999)%N with false. cbn iota. change (map _ s) with (drip s). cbn [length firstn skipn].
  destruct k as [|k]; [reflexivity|]. change (S (S k) <=? 1) with false. cbn iota. replace (S (S k) - 1) with (S k) by lia. rewrite IH by (cbn in K; lia).
  f_equal. lia.
Qed.
Lemma drip_idle late n : forall so se m, (39992 * N.of_nat n <= fst (receive late (n + S m) (drip (flat_map wire_bytes (repeat (Wire 6 1 [] [] "0") n) ++ wire_bytes (Wire 3 1 [] [] "0"))) so se))%N.
Proof.
  induction n as [|n IH]; intros so se m; [lia|]. cbn [repeat flat_map plus receive].
  rewrite drip_fill by (rewrite !app_length; cbn; lia).
  set (T := flat_map wire_bytes (repeat (Wire 6 1 [] [] "0") n) ++ wire_bytes (Wire 3 1 [] [] "0")).
  change (firstn 8 ((wire_bytes (Wire 6 1 [] [] "0") ++ flat_map wire_bytes (repeat (Wire 6 1 [] [] "0") n)) ++ wire_bytes (Wire 3 1 [] [] "0"))) with (wire_bytes (Wire 6 1 [] [] "0")).
  change (skipn 8 ((wire_bytes (Wire 6 1 [] [] "0") ++ flat_map wire_bytes (repeat (Wire 6 1 [] [] "0") n)) ++ wire_bytes (Wire 3 1 [] [] "0"))) with T.
  change (negb (byte_val (wire_bytes (Wire 6 1 [] [] "0")) 0 =? FCGI_VERSION_1)%N) with false. cbn iota.
  change (N.to_nat (byte_val (wire_bytes (Wire 6 1 [] [] "0")) 4 * 256 + byte_val (wire_bytes (Wire 6 1 [] [] "0")) 5)) with 0.
  change (N.to_nat (byte_val (wire_bytes (Wire 6 1 [] [] "0")) 6)) with 0.
  rewrite !drip_fill by lia. cbn [skipn firstn].
  change (negb (byte_val (wire_bytes (Wire 6 1 [] [] "0")) 2 * 256 + byte_val (wire_bytes (Wire 6 1 [] [] "0")) 3 =? FCGI_REQUEST_ID)%N) with false. cbn iota.
  change (byte_val (wire_bytes (Wire 6 1 [] [] "0")) 1 =? FCGI_STDOUT)%N with true. cbn iota. rewrite app_nil_r.
  specialize (IH so se m). fold T in IH. destruct (receive late (n + S m) (drip T) so se) as [t4 x4]. cbn [fst] in *. lia.
Qed.
(** ... but no bound holds for a call: a peer that sends a byte every few seconds holds it as long as it likes, and the answer is
    accepted in the end. *)
Theorem C105_slow_refuted : forall late (limit : N), exists l, 
  (limit < fst (receive_response late l))%N /\ snd (receive_response late l) = Reply (ReadOk [] []) /\ Forall (fun x => (fst x < 5000)%N) l.
Proof.
  intros late limit. set (n := S (N.to_nat limit)).
  set (s := flat_map wire_bytes (repeat (Wire 6 1 [] [] "0") n) ++ wire_bytes (Wire 3 1 [] [] "0")).
  exists (drip s). assert (supply (drip s) = length s) as ES.
  { generalize s. clear. induction s as [|c s IH]; [reflexivity|]. change (supply (drip (c :: s))) with (S (supply (drip s))). rewrite IH. reflexivity. }
  split; [|split].
  - unfold receive_response. rewrite ES. assert (exists m, S (length s) = n + S m) as (m & ->).
    { exists (length s - n). assert (n <= length s); [|lia]. unfold s. rewrite app_length. pose proof (wires_len (repeat (Wire 6 1 [] [] "0") n)) as L. rewrite repeat_length in L. lia. }
    pose proof (drip_idle late n [] [] m) as D. fold s in D. unfold n in *. lia.
  - rewrite (C105_pieces late _ _ (drip_delivers late s)). f_equal. unfold s. rewrite <- (app_nil_r (wire_bytes (Wire 3 1 [] [] "0"))).
    rewrite read_response_end.
    + assert (forall t k, stream_of t (repeat (Wire 6 1 [] [] "0") k) = []) as Z; [|rewrite !Z; reflexivity].
      intros t k. induction k as [|k IH]; [reflexivity|]. cbn [repeat]. unfold stream_of in *. cbn [flat_map]. rewrite IH. destruct (_ && _)%bool; reflexivity.
    + apply Forall_forall. intros x I. apply repeat_spec in I. subst x. repeat constructor; cbn; lia.
    + intros x I (_ & Z). apply repeat_spec in I. subst x. discriminate.
    + repeat constructor; cbn; lia.
    + split; reflexivity.
  - apply Forall_forall. intros x I. unfold drip in I. apply in_map_iff in I as (c & <- & _). cbn. lia.
Qed.
Print Assumptions C105_slow_refuted.

(** the answer of C68's example in pieces, with signals, after partial writes; the same connection broken before the end record; a stalled one *)
Definition ex_answer : bytes := flat_map wire_bytes [Wire 6 1 (firstn 5 ex_body) [] "0"; Wire 6 1 (skipn 5 ex_body) (B "pad") "0"] ++ wire_bytes (Wire 3 1 [] [] "0").
Definition ex_connection (cut : nat) (after : incoming) : connection :=
  mkConnection [(10%N, Took 3); (0%N, WSignal); (20%N, Took 100)]
    (fun _ => [(100%N, Came (firstn 3 ex_answer)); (0%N, Signal); (4000%N, Came (skipn 3 (firstn cut ex_answer)))] ++ after) (B "timed out") (B "zero").
Example C105_example :
  (exists acts, exec_php_over ex_world (fun _ => ex_connection 1000 []) ex_args = (acts, inl (JObj []), 4130%N)) /\
  (exists acts, exec_php_over ex_world (fun _ => ex_connection 42 [(6000%N, Came (B "x"))]) ex_args = (acts, inr (B "php-fpm response failed: timed out"), 9130%N)) /\
  (exists acts, exec_php_over ex_world (fun _ => ex_connection 42 [(0%N, Fails (B "reset"))]) ex_args = (acts, inr (B "php-fpm response failed: reset"), 4130%N)) /\
  (exists acts, exec_php_over ex_world (fun _ => ex_connection 42 []) ex_args = (acts, inl (JObj []), 4130%N)).
Proof. repeat split; eexists; vm_compute; reflexivity. Qed.
