(** * Model of the script clean-cache (/repo/cache-utils/clean-cache), which removes old entries of the cache *)

From Verif Require Import Bytes.

(** The directories as the script sees them while it runs; unspecified.  [d_names] is what dir/* stands for, [d_all] what
    ls -A prints at the end, less what was removed; the clock is read for every file.  stat succeeds (a file that another
    process removes at this moment is not modelled). *)
Record Dirs := mkDirs {
  d_names : bytes -> list bytes;     (* dir/*: the names that do not begin with a dot; none if nothing matches *)
  d_hidden : bytes -> list bytes;    (* the other names in a directory *)
  d_is_dir : bytes -> bool;          (* [ -d path ] *)
  d_is_file : bytes -> bool;         (* [ -f path ] *)
  d_mtime : bytes -> Z;              (* stat -c %Y *)
  d_clock : bytes -> Z;              (* date +%s when the file is examined *)
  d_rm : bytes -> bool }.            (* whether rm succeeds *)

(** what the script removes, oldest first *)
Inductive removal := RmFile (path : bytes) | RmDir (path : bytes).

Definition hex_digit (a : ascii) : bool :=
  let n := N_of_ascii a in
  ((48 <=? n) && (n <=? 57) || (65 <=? n) && (n <=? 70) || (97 <=? n) && (n <=? 102))%N.
Definition dec_digit (a : ascii) : bool := match digit a with Some _ => true | None => false end.

(** $(...) removes line feeds at the end: [basename "$x"] of a name without slashes (clean-cache 10, 37) *)
Definition chomp (s : bytes) : bytes :=
  rev ((fix go (r : bytes) := match r with c :: r' => if aeqb c "010"%char then go r' else r | [] => [] end) (rev s)).

(** is_hex_3chars (clean-cache 4-6) *)
Definition is_hex_3chars (name : bytes) : bool := (length name =? 3) && forallb hex_digit name.

(** ${filename##*-}: after the last hyphen; and what is before it (clean-cache 12) *)
Fixpoint split_last (s : bytes) : option (bytes * bytes) :=
  match s with
  | [] => None
  | c :: r => match split_last r with
              | Some (u, v) => Some (c :: u, v)
              | None => if aeqb c "-"%char then Some ([], r) else None
              end
  end.
(** ^[0-9a-fA-F]+-[0-9]+$ (clean-cache 11) *)
Definition expiration (name : bytes) : option bytes :=
  match split_last name with
  | Some (h, d) => if negb (is_empty h) && forallb hex_digit h && negb (is_empty d) && forallb dec_digit d then Some d else None
  | None => None
  end.

(** A number in [[ -ge ]]: octal after a leading zero ([None]: a digit 8 or 9 in it, the comparison fails), modulo 2^64 *)
Definition wrap64 (z : Z) : Z := ((z + 2 ^ 63) mod 2 ^ 64 - 2 ^ 63)%Z.
Fixpoint octal_val (acc : N) (s : bytes) : option N :=
  match s with
  | [] => Some acc
  | a :: r => match digit a with
              | Some d => if (d <? 8)%N then octal_val (acc * 8 + d)%N r else None
              | None => None
              end
  end.
Definition bash_number (s : bytes) : option Z :=
  match s with
  | c :: (_ :: _) as r => if aeqb c "0"%char then option_map (fun n => wrap64 (Z.of_N n)) (octal_val 0 (tl s))
                          else option_map (fun n => wrap64 (Z.of_N n)) (digits1 s)
  | _ => option_map (fun n => wrap64 (Z.of_N n)) (digits1 s)
  end.

(** is_expired (clean-cache 9-20) *)
Definition is_expired (w : Dirs) (path name : bytes) : bool :=
  match expiration (chomp name) with
  | Some d => match bash_number d with
              | Some n => (n <=? w.(d_clock) path - w.(d_mtime) path)%Z
              | None => false
              end
  | None => false
  end.

(** remove_trailing_slash (clean-cache 22-25); the argument has no line feed and is not an option of echo *)
Definition strip_slashes (s : bytes) : bytes :=
  rev ((fix go (r : bytes) := match r with c :: r' => if aeqb c "/"%char then go r' else r | [] => [] end) (rev s)).

(** the files of one directory (clean-cache 38-43) *)
Definition clean_files (w : Dirs) (dir : bytes) : list bytes :=
  filter (fun n => w.(d_is_file) (dir ++ B "/" ++ n) && is_expired w (dir ++ B "/" ++ n) n) (w.(d_names) dir).
(** one directory (clean-cache 36-49) *)
Definition clean_dir (w : Dirs) (base name : bytes) : list removal :=
  let dir := base ++ B "/" ++ name in
  if w.(d_is_dir) dir && is_hex_3chars (chomp name) then
    let gone := filter (fun n => w.(d_rm) (dir ++ B "/" ++ n)) (clean_files w dir) in
    map (fun n => RmFile (dir ++ B "/" ++ n)) gone
    ++ (if is_empty (w.(d_hidden) dir) && forallb (fun n => existsb (beq n) gone) (w.(d_names) dir) then [RmDir dir] else [])
  else [].
(** the script (clean-cache 27-53): [None] is the refusal, exit status 1 *)
Definition clean_cache (w : Dirs) (arg : bytes) : option (list removal) :=
  let base := strip_slashes arg in
  if contains (B "neutral-cache") base then Some (flat_map (clean_dir w base) (w.(d_names) base)) else None.
