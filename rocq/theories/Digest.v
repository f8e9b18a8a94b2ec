(** * The digests: MD5 (RFC 1321) and SHA-256 (FIPS 180-4) of the crates md-5 and sha2, in lower-case hexadecimal *)

From Verif Require Import Bytes.
Open Scope N_scope.

(** 32-bit words *)
Definition w32 : N := 4294967296.
Definition add32 (a b : N) : N := (a + b) mod w32.
Definition not32 (a : N) : N := N.lxor a (w32 - 1).
Definition rotr (n x : N) : N := N.lor (N.shiftr x n) (N.shiftl x (32 - n) mod w32).
Definition rotl (n x : N) : N := rotr (32 - n) x.
(** the low [n] bytes of a number, high byte first *)
Fixpoint be_bytes (n : nat) (v : N) : bytes :=
  match n with O => [] | S n => be_bytes n (v / 256) ++ [ascii_of_N (v mod 256)] end.
Definition be_value (l : bytes) : N := fold_left (fun a c => a * 256 + N_of_ascii c) l 0.

(** "{:x}" of a digest (parse_bif_hash.rs 29, 33; parse_bif_moveto.rs 44; parse_bif_cache.rs 103) *)
Definition hex_char (n : N) : ascii := if n <? 10 then ascii_of_N (48 + n) else ascii_of_N (87 + n).
Definition hex_of (l : bytes) : bytes := flat_map (fun c => [hex_char (N_of_ascii c / 16); hex_char (N_of_ascii c mod 16)]) l.

(** the message, a byte 128, zeros, and the number of bits in 8 bytes: a multiple of 64 bytes *)
Definition padded (len : N -> bytes) (m : bytes) : bytes :=
  let n := N.of_nat (length m) in
  m ++ "128"%char :: repeat "000"%char (N.to_nat ((119 - n mod 64) mod 64)) ++ len ((8 * n) mod (w32 * w32)).
(** the message in blocks of 64 bytes, each taken into the state *)
Fixpoint absorb {S} (compress : S -> bytes -> S) (fuel : nat) (st : S) (m : bytes) : S :=
  match fuel, m with
  | O, _ | _, [] => st
  | Datatypes.S fuel, _ => absorb compress fuel (compress st (firstn 64 m)) (skipn 64 m)
  end.
(** a block as words of 4 bytes *)
Fixpoint words_of (value : bytes -> N) (n : nat) (l : bytes) : list N :=
  match n with O => [] | S n => value (firstn 4 l) :: words_of value n (skipn 4 l) end.

(** ** SHA-256 *)
Definition K256 : list N :=
  [1116352408; 1899447441; 3049323471; 3921009573; 961987163; 1508970993; 2453635748; 2870763221;
   3624381080; 310598401; 607225278; 1426881987; 1925078388; 2162078206; 2614888103; 3248222580;
   3835390401; 4022224774; 264347078; 604807628; 770255983; 1249150122; 1555081692; 1996064986;
   2554220882; 2821834349; 2952996808; 3210313671; 3336571891; 3584528711; 113926993; 338241895;
   666307205; 773529912; 1294757372; 1396182291; 1695183700; 1986661051; 2177026350; 2456956037;
   2730485921; 2820302411; 3259730800; 3345764771; 3516065817; 3600352804; 4094571909; 275423344;
   430227734; 506948616; 659060556; 883997877; 958139571; 1322822218; 1537002063; 1747873779;
   1955562222; 2024104815; 2227730452; 2361852424; 2428436474; 2756734187; 3204031479; 3329325298].
Definition H256 : list N :=
  [1779033703; 3144134277; 1013904242; 2773480762; 1359893119; 2600822924; 528734635; 1541459225].
Definition s0 (x : N) : N := N.lxor (rotr 7 x) (N.lxor (rotr 18 x) (N.shiftr x 3)).
Definition s1 (x : N) : N := N.lxor (rotr 17 x) (N.lxor (rotr 19 x) (N.shiftr x 10)).
Definition S0 (x : N) : N := N.lxor (rotr 2 x) (N.lxor (rotr 13 x) (rotr 22 x)).
Definition S1 (x : N) : N := N.lxor (rotr 6 x) (N.lxor (rotr 11 x) (rotr 25 x)).
Definition ch (x y z : N) : N := N.lxor (N.land x y) (N.land (not32 x) z).
Definition maj (x y z : N) : N := N.lxor (N.land x y) (N.lxor (N.land x z) (N.land y z)).
(** the message schedule: [w] holds the last 16 words, newest first *)
Fixpoint schedule (n : nat) (w : list N) : list N :=
  match n with
  | O => []
  | S n =>
      let x := add32 (add32 (s1 (nth 1 w 0)) (nth 6 w 0)) (add32 (s0 (nth 14 w 0)) (nth 15 w 0)) in
      x :: schedule n (x :: firstn 15 w)
  end.
Definition round256 (v : list N) (kw : N * N) : list N :=
  match v with
  | [a; b; c; d; e; f; g; h] =>
      let t1 := add32 (add32 h (S1 e)) (add32 (ch e f g) (add32 (fst kw) (snd kw))) in
      let t2 := add32 (S0 a) (maj a b c) in
      [add32 t1 t2; a; b; c; add32 d t1; e; f; g]
  | _ => v
  end.
Definition add_words (u v : list N) : list N := map (fun p => add32 (fst p) (snd p)) (combine u v).
Definition compress256 (st : list N) (block : bytes) : list N :=
  let w := words_of be_value 16 block in
  add_words st (fold_left round256 (combine K256 (w ++ schedule 48 (rev w))) st).
Definition sha256 (m : bytes) : bytes :=
  let p := padded (be_bytes 8) m in
  flat_map (be_bytes 4) (absorb compress256 (S (length p)) H256 p).
(** Sha256::new, update, finalize, "{:x}" (parse_bif_cache.rs 101-103) *)
Definition sha256_hex (m : bytes) : bytes := hex_of (sha256 m).

(** ** MD5 *)
Definition T5 : list N :=
  [3614090360; 3905402710; 606105819; 3250441966; 4118548399; 1200080426; 2821735955; 4249261313;
   1770035416; 2336552879; 4294925233; 2304563134; 1804603682; 4254626195; 2792965006; 1236535329;
   4129170786; 3225465664; 643717713; 3921069994; 3593408605; 38016083; 3634488961; 3889429448;
   568446438; 3275163606; 4107603335; 1163531501; 2850285829; 4243563512; 1735328473; 2368359562;
   4294588738; 2272392833; 1839030562; 4259657740; 2763975236; 1272893353; 4139469664; 3200236656;
   681279174; 3936430074; 3572445317; 76029189; 3654602809; 3873151461; 530742520; 3299628645;
   4096336452; 1126891415; 2878612391; 4237533241; 1700485571; 2399980690; 4293915773; 2240044497;
   1873313359; 4264355552; 2734768916; 1309151649; 4149444226; 3174756917; 718787259; 3951481745].
Definition R5 : list N := [7; 12; 17; 22; 5; 9; 14; 20; 4; 11; 16; 23; 6; 10; 15; 21].
(** step [i] of the 64: the constant is [t] *)
Definition step5 (w : list N) (v : list N) (it : nat * N) : list N :=
  match v with
  | [a; b; c; d] =>
      let '(i, t) := it in
      let r := Nat.div i 16 in
      let '(f, k) := match r with
        | O => (N.lor (N.land b c) (N.land (not32 b) d), i)
        | 1%nat => (N.lor (N.land d b) (N.land (not32 d) c), Nat.modulo (5 * i + 1) 16)
        | 2%nat => (N.lxor b (N.lxor c d), Nat.modulo (3 * i + 5) 16)
        | _ => (N.lxor c (N.lor b (not32 d)), Nat.modulo (7 * i) 16)
        end in
      [d; add32 b (rotl (nth (4 * r + Nat.modulo i 4) R5 0) (add32 (add32 a f) (add32 t (nth k w 0)))); b; c]
  | _ => v
  end.
Definition compress5 (st : list N) (block : bytes) : list N :=
  let w := words_of (fun l => be_value (rev l)) 16 block in
  add_words st (fold_left (step5 w) (combine (seq 0 64) T5) st).
Definition md5 (m : bytes) : bytes :=
  let p := padded (fun n => rev (be_bytes 8 n)) m in
  flat_map (fun x => rev (be_bytes 4 x)) (absorb compress5 (S (length p)) [1732584193; 4023233417; 2562383102; 271733878] p).
(** Md5::new, update, finalize, "{:x}" (parse_bif_hash.rs 25-34, parse_bif_moveto.rs 39-44) *)
Definition md5_hex (m : bytes) : bytes := hex_of (md5 m).
