(** * chrono 0.4.41 (a dependency, Cargo.toml 19) as parse_bif_date.rs 25-35 uses it: Utc::now().format(..).to_string(), from its
      documentation (chrono::format::strftime) and the algorithms of NaiveDate, IsoWeek and DelayedFormat.
      The clock is the seconds since 1970-01-01T00:00:00Z and the nanoseconds of the current second. *)

From Verif Require Import Bytes.
Open Scope N_scope.

(** ** The calendar (chrono::NaiveDate, internals.rs); the days of a cycle of 400 years are counted from 1 January of year 0 *)
Definition leap_year (y : N) : bool := (y mod 4 =? 0) && (negb (y mod 100 =? 0) || (y mod 400 =? 0)).
(** YEAR_DELTAS: the leap days before year [y] of the cycle *)
Definition year_delta (y : N) : N := (y + 3) / 4 - (y + 99) / 100 + (y + 399) / 400.
(** cycle_to_yo; the second number is the day of the year, from 0 *)
Definition cycle_to_yo (c : N) : N * N :=
  let y := c / 365 in
  let o := c mod 365 in
  if o <? year_delta y then (y - 1, o + 365 - year_delta (y - 1)) else (y, o - year_delta y).
Definition month_lengths (leap : bool) : list N := [31; if leap then 29 else 28; 31; 30; 31; 30; 31; 31; 30; 31; 30; 31].
(** Mdf::from_of: month and day *)
Fixpoint month_day (m : N) (lens : list N) (o : N) : N * N :=
  match lens with
  | [] => (m, o + 1)
  | l :: r => if o <? l then (m, o + 1) else month_day (m + 1) r (o - l)
  end.
(** NaiveDate::from_num_days_from_ce_opt: year, month, day, day of the year (from 0); [k]: days since 1 January of year 0 *)
Definition date_of (k : N) : N * N * N * N :=
  let '(y, o) := cycle_to_yo (k mod 146097) in
  let '(m, d) := month_day 1 (month_lengths (leap_year y)) o in
  (400 * (k / 146097) + y, m, d, o).
(** Weekday::num_days_from_sunday; 1 January of year 0 was a Saturday *)
Definition weekday (k : N) : N := (k + 6) mod 7.
(** NaiveDate::weeks_from (Weekday::Sun: [first] = 0, Weekday::Mon: 1) *)
Definition weeks_from (first o w : N) : N := (o + 7 - (w + 7 - first) mod 7) / 7.
(** YearFlags: the weekday of 1 January (Monday = 0), isoweek_delta and nisoweeks *)
Definition new_year (y : N) : N := (365 * (y mod 400) + year_delta (y mod 400) + 5) mod 7.
Definition isoweek_delta (y : N) : N := let x := (new_year y + 6) mod 7 in if x <? 3 then x + 7 else x.
Definition nisoweeks (y : N) : N := if (new_year y =? 3) || leap_year y && (new_year y =? 2) then 53 else 52.
(** IsoWeek::from_yof *)
Definition iso_week (y o : N) : N * N :=
  let raw := (o + 1 + isoweek_delta y) / 7 in
  if raw <? 1 then (y - 1, nisoweeks (y - 1))
  else if nisoweeks y <? raw then (y + 1, 1) else (y, raw).

(** ** A moment (DateTime::from_timestamp) *)
Record Moment := mkMoment {
  t_year : N; t_month : N; t_day : N; t_ord : N; t_wday : N; t_hour : N; t_min : N; t_sec : N; t_nano : N; t_stamp : N
}.
Definition moment (now ns : N) : Moment :=
  let k := now / 86400 + 719528 in
  let t := now mod 86400 in
  let '(y, m, d, o) := date_of k in
  mkMoment y m d o (weekday k) (t / 3600) (t / 60 mod 60) (t mod 60) ns now.

(** ** Writing numbers (DelayedFormat::format_numeric) *)
Inductive pad := PadNone | PadZero | PadSpace.
Inductive style := One | Two | Year4 | Wide (n : nat).
Definition pad_left (c : ascii) (n : nat) (t : bytes) : bytes := repeat c (n - length t) ++ t.
Definition write_n (n : nat) (v : N) (p : pad) (sign : bool) : bytes :=
  match p, sign with
  | PadNone, false => dec_N v
  | PadZero, false => pad_left "0" n (dec_N v)
  | PadSpace, false => pad_left " " n (dec_N v)
  | PadNone, true => B "+" ++ dec_N v
  | PadZero, true => B "+" ++ pad_left "0" n (dec_N v)
  | PadSpace, true => pad_left " " (S n) (B "+" ++ dec_N v)
  end.
Definition low_digit (v : N) : ascii := ascii_of_N (48 + v).
(** write_two, for a value cut to 8 bits *)
Definition write_two (v : N) (p : pad) : bytes :=
  let v := v mod 256 in
  match v / 10, p with
  | 0, PadNone => [low_digit (v mod 10)]
  | 0, PadSpace => B " " ++ [low_digit (v mod 10)]
  | t, _ => [low_digit t; low_digit (v mod 10)]
  end.
Definition write_number (s : style) (v : N) (p : pad) : bytes :=
  match s with
  | One => [low_digit v]
  | Two => write_two v p
  | Year4 => write_n 4 v p (10000 <=? v)
  | Wide n => write_n n v p false
  end.

(** ** The specifiers (StrftimeItems) *)
Definition hour12 (m : Moment) : N := let h := m.(t_hour) mod 12 in if h =? 0 then 12 else h.
Definition iso_of (m : Moment) : N * N := iso_week m.(t_year) m.(t_ord).
Definition numerics : list (ascii * (style * pad * (Moment -> N))) :=
  [("Y", (Year4, PadZero, t_year)); ("C", (Two, PadZero, fun m => m.(t_year) / 100)); ("y", (Two, PadZero, fun m => m.(t_year) mod 100));
   ("q", (One, PadNone, fun m => (m.(t_month) - 1) / 3 + 1)); ("m", (Two, PadZero, t_month)); ("d", (Two, PadZero, t_day)); ("e", (Two, PadSpace, t_day));
   ("w", (One, PadNone, t_wday)); ("u", (One, PadNone, fun m => (m.(t_wday) + 6) mod 7 + 1));
   ("U", (Two, PadZero, fun m => weeks_from 0 m.(t_ord) m.(t_wday))); ("W", (Two, PadZero, fun m => weeks_from 1 m.(t_ord) m.(t_wday)));
   ("G", (Year4, PadZero, fun m => fst (iso_of m))); ("g", (Two, PadZero, fun m => fst (iso_of m) mod 100)); ("V", (Two, PadZero, fun m => snd (iso_of m)));
   ("j", (Wide 3, PadZero, fun m => m.(t_ord) + 1));
   ("H", (Two, PadZero, t_hour)); ("k", (Two, PadSpace, t_hour)); ("I", (Two, PadZero, hour12)); ("l", (Two, PadSpace, hour12));
   ("M", (Two, PadZero, t_min)); ("S", (Two, PadZero, t_sec)); ("f", (Wide 9, PadZero, t_nano)); ("s", (Wide 9, PadNone, t_stamp))]%char.
Fixpoint clookup {A} (c : ascii) (l : list (ascii * A)) : option A :=
  match l with
  | [] => None
  | (k, v) :: r => if aeqb k c then Some v else clookup c r
  end.

Definition weekday_names : list bytes := [B "Sunday"; B "Monday"; B "Tuesday"; B "Wednesday"; B "Thursday"; B "Friday"; B "Saturday"].
Definition weekday_short : list bytes := [B "Sun"; B "Mon"; B "Tue"; B "Wed"; B "Thu"; B "Fri"; B "Sat"].
Definition month_names : list bytes :=
  [B "January"; B "February"; B "March"; B "April"; B "May"; B "June"; B "July"; B "August"; B "September"; B "October"; B "November"; B "December"].
Definition month_short : list bytes :=
  [B "Jan"; B "Feb"; B "Mar"; B "Apr"; B "May"; B "Jun"; B "Jul"; B "Aug"; B "Sep"; B "Oct"; B "Nov"; B "Dec"].
Definition nth_name (l : list bytes) (n : N) : bytes := nth (N.to_nat n) l [].
(** the digits of the current second's fraction (Fixed::Nanosecond and its variants) *)
Definition cut_nanos (n : nat) (ns : N) : bytes := firstn n (pad_left "0" 9 (dec_N ns)).
Definition auto_nanos (ns : N) : bytes :=
  if ns =? 0 then []
  else B "." ++ (if ns mod 1000000 =? 0 then cut_nanos 3 ns else if ns mod 1000 =? 0 then cut_nanos 6 ns else cut_nanos 9 ns).
(** the items that are texts (Fixed), without those that begin with a point or a colon; %+ is write_rfc3339 *)
Definition texts_of : list (ascii * (Moment -> bytes)) :=
  [("A", fun m => nth_name weekday_names m.(t_wday)); ("a", fun m => nth_name weekday_short m.(t_wday));
   ("B", fun m => nth_name month_names (m.(t_month) - 1)); ("b", fun m => nth_name month_short (m.(t_month) - 1));
   ("h", fun m => nth_name month_short (m.(t_month) - 1));
   ("p", fun m => if (m.(t_hour) <? 12)%N then B "AM" else B "PM"); ("P", fun m => if (m.(t_hour) <? 12)%N then B "am" else B "pm");
   ("Z", fun _ => B "UTC"); ("z", fun _ => B "+0000");
   ("+", fun m => write_number Year4 m.(t_year) PadZero ++ B "-" ++ write_two m.(t_month) PadZero ++ B "-" ++ write_two m.(t_day) PadZero ++ B "T" ++
                  write_two m.(t_hour) PadZero ++ B ":" ++ write_two m.(t_min) PadZero ++ B ":" ++ write_two m.(t_sec) PadZero ++
                  auto_nanos m.(t_nano) ++ B "+00:00");
   ("t", fun _ => ["009"%char]); ("n", fun _ => ["010"%char]); ("%", fun _ => B "%")]%char.
(** the specifiers made of other items (D_FMT, D_T_FMT, T_FMT, T_FMT_AMPM and others) *)
Definition composites : list (ascii * bytes) :=
  [("D", B "%m/%d/%y"); ("x", B "%m/%d/%y"); ("F", B "%Y-%m-%d"); ("v", B "%e-%b-%Y"); ("R", B "%H:%M"); ("T", B "%H:%M:%S"); ("X", B "%H:%M:%S");
   ("r", B "%I:%M:%S %p"); ("c", B "%a %b %e %H:%M:%S %Y")]%char.

Definition one_item (m : Moment) (c : ascii) : option bytes :=
  match clookup c numerics with
  | Some (s, p, v) => Some (write_number s (v m) p)
  | None => option_map (fun f => f m) (clookup c texts_of)
  end.
(** a text of literals and of items of one letter *)
Fixpoint simple_items (m : Moment) (s : bytes) : bytes :=
  match s with
  | [] => []
  | c :: r =>
      if aeqb c "%" then
        match r with
        | c2 :: r2 => match one_item m c2 with Some t => t | None => [] end ++ simple_items m r2
        | [] => []
        end
      else c :: simple_items m r
  end.
Definition padding (c : ascii) : option pad :=
  if aeqb c "-" then Some PadNone else if aeqb c "0" then Some PadZero else if aeqb c "_" then Some PadSpace else None.
(** the item after a % and the rest; [None]: Item::Error (also for %#z, which cannot be written) *)
Definition item_of (m : Moment) (s : bytes) : option (bytes * bytes) :=
  match s with
  | [] => None
  | c :: r =>
      match padding c with
      | Some p =>
          match r with
          | c2 :: r2 => match clookup c2 numerics with Some (st, _, v) => Some (write_number st (v m) p, r2) | None => None end
          | [] => None
          end
      | None =>
          if aeqb c "." then
            match r with
            | c2 :: r2 =>
                if aeqb c2 "f" then Some (auto_nanos m.(t_nano), r2)
                else match clookup c2 [("3", 3%nat); ("6", 6%nat); ("9", 9%nat)]%char, r2 with
                     | Some n, c3 :: r3 => if aeqb c3 "f" then Some (B "." ++ cut_nanos n m.(t_nano), r3) else None
                     | _, _ => None
                     end
            | [] => None
            end
          else if aeqb c ":" then
            if starts_with (B "::z") r then Some (B "+00", skipn 3 r)
            else if starts_with (B ":z") r then Some (B "+00:00:00", skipn 2 r)
            else if starts_with (B "z") r then Some (B "+00:00", skipn 1 r)
            else None
          else
            match clookup c [("3", 3%nat); ("6", 6%nat); ("9", 9%nat)]%char with
            | Some n => match r with c2 :: r2 => if aeqb c2 "f" then Some (cut_nanos n m.(t_nano), r2) else None | [] => None end
            | None =>
                match clookup c composites with
                | Some f => Some (simple_items m f, r)
                | None => option_map (fun t => (t, r)) (one_item m c)
                end
            end
      end
  end.
(** DelayedFormat: [None] if an item is wrong; [fuel] is at least the length of the format *)
Fixpoint format_items (fuel : nat) (m : Moment) (s : bytes) : option bytes :=
  match fuel, s with
  | _, [] => Some []
  | O, _ => None
  | S k, c :: r =>
      if aeqb c "%" then
        match item_of m r with
        | Some (t, r2) => option_map (app t) (format_items k m r2)
        | None => None
        end
      else option_map (cons c) (format_items k m r)
  end.
Definition chrono_format (now ns : N) (s : bytes) : option bytes := format_items (length s) (moment now ns) s.

(** the calendar check: 2024-10-15 14:19:45, the example of doc/bif-date.md *)
Example chrono_doc : chrono_format 1729001985 0 (B "%Y-%m-%d %H:%M:%S") = Some (B "2024-10-15 14:19:45").
Proof. vm_compute. reflexivity. Qed.
Example chrono_doc2 : chrono_format 1729001985 26490000 (B "%c|%j|%G-W%V|%U|%W|%+|%-d|%_m|%.f|%3f|%::z%%|%s|%r|%v|%q|%u") =
  Some (B "Tue Oct 15 14:19:45 2024|289|2024-W42|41|42|2024-10-15T14:19:45.026490+00:00|15|10|.026490|026|+00:00:00%|1729001985|02:19:45 PM|15-Oct-2024|4|2").
Proof. vm_compute. reflexivity. Qed.
