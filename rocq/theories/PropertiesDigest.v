(** * Property theorems: the digests (C107) *)

From Verif Require Import Bytes Json Utils ConstantsGen State Engine Template Spec SpecEngine SpecClean SpecDigest BytesFacts TextProofs HandlerProofs
  Samples Digest DigestProofs PropertiesEngine PropertiesHandlers PropertiesCache PropertiesClean.
Open Scope nat_scope.

(** ** The functions are those of the standards, and the standards leave no choice *)
Theorem C107_sha256 : forall m, sha256_is m (sha256 m) /\ forall d, sha256_is m d -> d = sha256 m.
Proof. intro m. split; [apply sha256_ok|]. intros d H. eapply sha256_unique; [exact H|apply sha256_ok]. Qed.
Print Assumptions C107_sha256.
Theorem C107_md5 : forall m, md5_is m (md5 m) /\ forall d, md5_is m d -> d = md5 m.
Proof. intro m. split; [apply md5_ok|]. intros d H. eapply md5_unique; [exact H|apply md5_ok]. Qed.
Print Assumptions C107_md5.
(** A machine has these digests exactly if it writes theirs in hexadecimal. *)
Lemma hex_unique env : digests env -> (forall m, e_sha256 env m = sha256_hex m) /\ (forall m, e_md5 env m = md5_hex m).
Proof.
  intros [H5 H2]. split; intro m.
  - destruct (H2 m) as (d & HD & HW). rewrite (proj2 (C107_sha256 m) d HD) in HW. eapply written_unique; [exact HW|apply hex_written].
  - destruct (H5 m) as (d & HD & HW). rewrite (proj2 (C107_md5 m) d HD) in HW. eapply written_unique; [exact HW|apply hex_written].
Qed.
Theorem C107_machine : forall env, digests env <-> (forall m, e_sha256 env m = sha256_hex m) /\ (forall m, e_md5 env m = md5_hex m).
Proof.
  intro env. split; [apply hex_unique|]. intros [H2 H5]. constructor; intro m.
  - exists (md5 m). rewrite H5. split; [apply md5_ok|apply hex_written].
  - exists (sha256 m). rewrite H2. split; [apply sha256_ok|apply hex_written].
Qed.
Print Assumptions C107_machine.

(** ** What follows for a machine with these digests *)
Lemma written_lower l t : written_hex l t -> Forall (fun c => In c (B "0123456789abcdef")) t.
Proof. induction 1 as [|x a b l t HA HB HW IH]; [constructor|]. constructor; [eapply nth_error_In; exact HA|]. constructor; [eapply nth_error_In; exact HB|exact IH]. Qed.
(** 64 and 32 lower-case hexadecimal digits, whatever the text *)
Theorem C107_shape : forall env m, digests env ->
  length (e_sha256 env m) = 64 /\ Forall (fun c => In c (B "0123456789abcdef")) (e_sha256 env m) /\
  length (e_md5 env m) = 32 /\ Forall (fun c => In c (B "0123456789abcdef")) (e_md5 env m).
Proof.
  intros env m [H5 H2]. destruct (H2 m) as (d & (p & bl & h0 & h & _ & _ & _ & _ & L & _) & HW).
  destruct (H5 m) as (d5 & (p5 & bl5 & h5 & _ & _ & _ & L5 & _) & HW5).
  rewrite (written_length _ _ HW), (written_length _ _ HW5), L, L5. split; [reflexivity|]. split; [eapply written_lower; exact HW|].
  split; [reflexivity|eapply written_lower; exact HW5].
Qed.
Print Assumptions C107_shape.
(** The cache never aborts a rendering by cutting a digest that is too short. *)
Theorem C107_no_slice : forall env fuel t, digests env -> default_shape t.(t_schema) ->
  render env fuel t <> TPanic PHashSlice.
Proof.
  intros env fuel t HD HS E. pose proof (C57_panics env fuel t PHashSlice HS E) as [k HK]. destruct (C107_shape env k HD) as [L _]. lia.
Qed.
Print Assumptions C107_no_slice.
(** Every entry is two levels below the cache: a directory of three digits, and a file of the 64 digits, which begin with them,
    a hyphen and the time to live. *)
Theorem C107_entry : forall env s key expires, digests env ->
  exists base a b, base = s.(cfg).(cache_dir) ++ (match s.(cfg).(cache_prefix) with [] => [] | p => B "/" ++ p end) /\
    length a = 3 /\ length b = 61 /\ Forall (fun c => In c (B "0123456789abcdef")) (a ++ b) /\ (exists d, sha256_is key d /\ written_hex d (a ++ b)) /\
    entry_dir env s key = base ++ B "/" ++ a /\ entry_file env s key expires = base ++ B "/" ++ a ++ B "/" ++ a ++ b ++ B "-" ++ expires.
Proof.
  intros env s key ex HD. destruct (C107_shape env key HD) as (L & F & _). eexists _, (firstn 3 (e_sha256 env key)), (skipn 3 (e_sha256 env key)).
  split; [reflexivity|]. split; [apply firstn_length_le; lia|]. split; [rewrite skipn_length; lia|]. rewrite firstn_skipn. split; [exact F|].
  split; [apply HD|]. unfold entry_file, entry_dir. split; [rewrite <- app_assoc; reflexivity|].
  rewrite <- !app_assoc. do 5 f_equal. rewrite (app_assoc (firstn 3 _)), firstn_skipn. reflexivity.
Qed.
Print Assumptions C107_entry.
(** The entries of any two machines with the same cache are the same files. *)
Theorem C107_shared : forall env env' s key expires, digests env -> digests env' ->
  entry_dir env s key = entry_dir env' s key /\ entry_file env s key expires = entry_file env' s key expires.
Proof.
  intros env env' s key ex HD HD'. unfold entry_file, entry_dir.
  rewrite (proj1 (hex_unique _ HD)), (proj1 (hex_unique _ HD')). split; reflexivity.
Qed.
Print Assumptions C107_shared.
(** Two evaluations that differ in exactly one of the parts of the key use the same file only if their keys collide in SHA-256. *)
Lemma written_back l l' t : written_hex l t -> written_hex l' t -> l = l'.
Proof.
  intro H. revert l'. induction H as [|x a b l t HA HB HW IH]; intros l' H; inversion H as [|x2 ? ? l2 ? HA2 HB2 HW2]; subst; [reflexivity|].
  rewrite (IH _ HW2). f_equal.
  assert (forall n k c, (n < 16)%N -> (k < 16)%N -> digit_of n c -> digit_of k c -> n = k) as DU.
  { unfold digit_of. intros n k c Hn Hk En Ek. apply N2Nat.inj. apply (proj1 (NoDup_nth_error (B "0123456789abcdef"))).
    - apply (NoDup_count_occ' ascii_dec). intros y I. cbn [In B list_ascii_of_string] in I.
      repeat (destruct I as [<-|I]; [reflexivity|]). destruct I.
    - change (length (B "0123456789abcdef")) with 16. lia.
    - congruence. }
  assert (forall y, (N_of_ascii y / 16 < 16)%N /\ (N_of_ascii y mod 16 < 16)%N) as BD.
  { intro y. pose proof (byte_lt y). split; [apply N.div_lt_upper_bound; [discriminate|assumption]|apply N.mod_lt; discriminate]. }
  destruct (BD x) as [X1 X2], (BD x2) as [Y1 Y2]. pose proof (DU _ _ _ X1 Y1 HA HA2) as E1. pose proof (DU _ _ _ X2 Y2 HB HB2) as E2.
  apply byte_inj. rewrite (N.div_mod (N_of_ascii x) 16), (N.div_mod (N_of_ascii x2) 16) by discriminate. rewrite E1, E2. reflexivity.
Qed.
Theorem C107_collision : forall env s0 s i id x code l s0' s' i' id' x' code' l', digests env ->
  s'.(cfg).(cache_dir) = s.(cfg).(cache_dir) -> s'.(cfg).(cache_prefix) = s.(cfg).(cache_prefix) ->
  cache_parts env s0 s i id x code l -> cache_parts env s0' s' i' id' x' code' l' -> one_differs l l' ->
  entry_file env s (concat l) x = entry_file env s' (concat l') x' ->
  concat l <> concat l' /\ exists d, sha256_is (concat l) d /\ sha256_is (concat l') d.
Proof.
  intros env s0 s i id x code l s0' s' i' id' x' code' l' HD E1 E2 HP HP' HO HE.
  destruct (C49_distinct env s0 s i id x code l s0' s' i' id' x' code' l' 64 (fun k => proj1 (C107_shape env k HD)) E1 E2 HP HP' HO) as [HN HC].
  split; [exact HN|]. specialize (HC HE). destruct (dg_sha256 _ HD (concat l)) as (d & D1 & W1), (dg_sha256 _ HD (concat l')) as (d' & D2 & W2).
  rewrite HC in W1. rewrite (written_back _ _ _ W2 W1) in D2. exists d. split; assumption.
Qed.
Print Assumptions C107_collision.
(** The sweep of the cache recognises every entry that the engine makes. *)
Theorem C107_swept : forall env s key expires n, digests env -> decimal expires n -> expires <> [] ->
  cache_prefix (cfg s) <> [] -> (forall b, cache_prefix (cfg s) <> b ++ B "/") ->
  occurs (B "neutral-cache") (cache_dir (cfg s) ++ B "/" ++ cache_prefix (cfg s)) ->
  in_cache (cache_dir (cfg s) ++ B "/" ++ cache_prefix (cfg s)) (entry_file env s key expires) expires n.
Proof.
  intros env s key ex n HD HN HE H1 H2 H3. destruct (C107_shape env key HD) as (L & F & _). apply C94_entries; try assumption; [|lia].
  unfold hexadecimal. eapply Forall_impl; [|exact F]. intros c I. cbn [B list_ascii_of_string In] in *. tauto.
Qed.
Print Assumptions C107_swept.
(** {:hash; text :} is the MD5 of the text, in 32 lower-case digits *)
Theorem C107_hash : forall env s i mods body only c s1 i1, digests env -> Forall modifier mods ->
  ~ In "&"%char mods -> ~ In "!"%char mods -> ~ In "+"%char mods ->
  may_start s -> selected only i mods (B "hash") ->
  eval_text env (B "hash") (started s) (started_in s i) (trim body) only = BOk c s1 i1 ->
  exists hashed d out s2, (c <> [] -> hashed = c /\ s2 = s1) /\
    (c = [] -> hashed = env.(e_rand_bytes) s1.(strace) /\ s2 = add_event (EvRandBytes hashed) s1) /\
    md5_is hashed d /\ written_hex d out /\ length out = 32 /\ Forall (fun ch => In ch (B "0123456789abcdef")) out /\
    eval_bif env s i (bif_text mods (B "hash") body) only = finished mods out s2 i1.
Proof.
  intros env s i mods body only c s1 i1 HD HM HA HG HU HS HO HE. rewrite (C75_hash _ _ _ _ _ _ _ _ _ HM HA HG HU HS HO HE).
  assert (forall h, exists d, md5_is h d /\ written_hex d (e_md5 env h) /\ length (e_md5 env h) = 32 /\ Forall (fun ch => In ch (B "0123456789abcdef")) (e_md5 env h)) as A.
  { intro h. destruct (dg_md5 _ HD h) as (d & D1 & D2). exists d. destruct (C107_shape env h HD) as (_ & _ & L & F). tauto. }
  destruct c as [|ch c].
  - destruct (A (e_rand_bytes env (strace s1))) as (d & D1 & D2 & D3 & D4). eexists _, d, _, _. split; [congruence|]. split; [intros _; split; reflexivity|].
    split; [exact D1|]. split; [exact D2|]. split; [exact D3|]. split; [exact D4|reflexivity].
  - destruct (A (ch :: c)) as (d & D1 & D2 & D3 & D4). exists (ch :: c), d, (e_md5 env (ch :: c)), s1. split; [split; reflexivity|]. split; [discriminate|].
    split; [exact D1|]. split; [exact D2|]. split; [exact D3|]. split; [exact D4|reflexivity].
Qed.
Print Assumptions C107_hash.
(** {:moveto;} registers its content under 32 digits: never under an empty name, and never under one with "/" or "->" *)
Theorem C107_moveto_key : forall env c, digests env -> exists d, md5_is (squeezed c) d /\ written_hex d (env.(e_md5) (squeezed c)) /\
  length (env.(e_md5) (squeezed c)) = 32 /\ ~ In "/"%char (env.(e_md5) (squeezed c)) /\ ~ occurs (B "->") (env.(e_md5) (squeezed c)).
Proof.
  intros env c HD. destruct (dg_md5 _ HD (squeezed c)) as (d & D1 & D2). exists d. destruct (C107_shape env (squeezed c) HD) as (_ & _ & L & F).
  split; [exact D1|]. split; [exact D2|]. split; [exact L|]. rewrite Forall_forall in F. split.
  - intro I. apply F in I. cbn [B list_ascii_of_string In] in I. intuition discriminate.
  - intros (u & v & E). assert (In "-"%char (e_md5 env (squeezed c))) as I by (rewrite E; apply in_or_app; right; left; reflexivity).
    apply F in I. cbn [B list_ascii_of_string In] in I. intuition discriminate.
Qed.
Print Assumptions C107_moveto_key.

(** ** Examples: the test vectors of the standards, and a machine *)
Example C107_vectors :
  sha256_hex (B "abc") = B "ba7816bf8f01cfea414140de5dae2223b00361a396177a9cb410ff61f20015ad" /\
  sha256_hex (B "abcdbcdecdefdefgefghfghighijhijkijkljklmklmnlmnomnopnopq") = B "248d6a61d20638b8e5c026930c3e6039a33ce45964ff2167f6ecedd419db06c1" /\
  sha256_hex [] = B "e3b0c44298fc1c149afbf4c8996fb92427ae41e4649b934ca495991b7852b855" /\
  md5_hex [] = B "d41d8cd98f00b204e9800998ecf8427e" /\ md5_hex (B "abc") = B "900150983cd24fb0d6963f7d28e17f72" /\
  md5_hex (B "12345678901234567890123456789012345678901234567890123456789012345678901234567890") = B "57edf4a22be3c955ac49da2e2107b67a".
Proof. split; [|split; [|split; [|split; [|split]]]]; vm_compute; reflexivity. Qed.
Definition env_digests (env : Env) : Env :=
  mkEnv md5_hex sha256_hex env.(e_lower) env.(e_from_str) env.(e_to_string) env.(e_to_pretty) env.(e_fadd) env.(e_parent) env.(e_date)
        env.(e_cwd) env.(e_tmp) env.(e_exists) env.(e_is_file) env.(e_canon) env.(e_read) env.(e_read_err) env.(e_mkdir) env.(e_create) env.(e_write)
        env.(e_mtime) env.(e_age) env.(e_now) env.(e_local_now) env.(e_rand) env.(e_rand_bytes) env.(e_python) env.(e_php).
Example C107_example : digests (env_digests env1) /\ output_in (env_digests env1) "{:hash; abc :}" = B "900150983cd24fb0d6963f7d28e17f72" /\
  output_in (env_digests env1) "{:hash; {:;name:} :}" = md5_hex (B "World").
Proof. split; [apply C107_machine; split; reflexivity|]. split; vm_compute; reflexivity. Qed.
