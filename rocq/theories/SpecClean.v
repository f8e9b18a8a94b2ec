(** * Specification vocabulary for clean-cache (C94) *)

From Verif Require Import Bytes Spec CleanCache.

Definition hexadecimal (s : bytes) : Prop := Forall (fun c => In c (B "0123456789abcdefABCDEF")) s.
Definition made_of (c : ascii) (s : bytes) : Prop := Forall (eq c) s.

(** the name of an entry of the cache that expires after [n] seconds: HASH-SECONDS *)
Definition entry_name (name seconds : bytes) (n : N) : Prop :=
  exists hash, name = hash ++ B "-" ++ seconds /\ hexadecimal hash /\ hash <> [] /\ decimal seconds n /\ seconds <> [].

(** the seconds are written as bash reads them: without leading zeros, below 2^63 *)
Definition plain_seconds (seconds : bytes) (n : N) : Prop :=
  (n < 2 ^ 63)%N /\ (seconds = B "0" \/ forall s, seconds <> B "0" ++ s).

(** digits 0-7 and the number they stand for in base 8 *)
Inductive octal : bytes -> N -> Prop :=
| oct_nil : octal [] 0
| oct_digit s n d : octal s n -> (d < 8)%N -> octal (s ++ [ascii_of_N (48 + d)]) (8 * n + d).

(** [path] is in the cache [arg]: a file NAME of a directory of three hexadecimal digits; the script does not see line feeds at
    the end of names *)
Definition in_cache_dir (arg dir : bytes) : Prop := exists base slashes name feeds,
  arg = base ++ slashes /\ made_of "/" slashes /\ (forall b, base <> b ++ B "/") /\ occurs (B "neutral-cache") base /\
  dir = base ++ B "/" ++ name ++ feeds /\ made_of "010" feeds /\ hexadecimal name /\ length name = 3.
Definition in_cache (arg path seconds : bytes) (n : N) : Prop := exists dir name feeds,
  in_cache_dir arg dir /\ path = dir ++ B "/" ++ name ++ feeds /\ made_of "010" feeds /\ entry_name name seconds n.

(** the names in a directory *)
Definition holds (w : Dirs) (dir name : bytes) : Prop := In name (w.(d_names) dir) \/ In name (w.(d_hidden) dir).

(** names have no slashes *)
Definition proper (w : Dirs) : Prop := forall dir n, In n (w.(d_names) dir) -> ~ In "/"%char n.

(** [path] is an entry that is there *)
Definition entry_at (w : Dirs) (arg path seconds : bytes) (n : N) : Prop := exists base slashes d f1 name f2,
  arg = base ++ slashes /\ made_of "/" slashes /\ (forall b, base <> b ++ B "/") /\ occurs (B "neutral-cache") base /\
  In (d ++ f1) (w.(d_names) base) /\ w.(d_is_dir) (base ++ B "/" ++ d ++ f1) = true /\ hexadecimal d /\ length d = 3 /\ made_of "010" f1 /\
  In (name ++ f2) (w.(d_names) (base ++ B "/" ++ d ++ f1)) /\ entry_name name seconds n /\ made_of "010" f2 /\
  path = (base ++ B "/" ++ d ++ f1) ++ B "/" ++ name ++ f2 /\ w.(d_is_file) path = true.
