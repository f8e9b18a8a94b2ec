(** * Specification of dates: the Gregorian calendar, ISO 8601 weeks and the formats of chrono::format::strftime (C112) *)

From Verif Require Import Bytes Spec.
Open Scope N_scope.

(** ** The calendar, day by day *)
Definition leap (y : N) : Prop := y mod 4 = 0 /\ (y mod 100 <> 0 \/ y mod 400 = 0).
Inductive month_has (y : N) : N -> N -> Prop :=
| mh_long m : In m [1; 3; 5; 7; 8; 10; 12] -> month_has y m 31
| mh_short m : In m [4; 6; 9; 11] -> month_has y m 30
| mh_leap : leap y -> month_has y 2 29
| mh_february : ~ leap y -> month_has y 2 28.
(** day [n] after 1 January 1970 is the [d]th of month [m] of year [y] *)
Inductive falls_on : N -> N -> N -> N -> Prop :=
| fo_epoch : falls_on 0 1970 1 1
| fo_day n y m d l : falls_on n y m d -> month_has y m l -> d < l -> falls_on (n + 1) y m (d + 1)
| fo_month n y m d : falls_on n y m d -> month_has y m d -> m < 12 -> falls_on (n + 1) y (m + 1) 1
| fo_year n y d : falls_on n y 12 d -> month_has y 12 d -> falls_on (n + 1) (y + 1) 1 1.
(** days since Sunday: 1 January 1970 was a Thursday *)
Definition since_sunday (n : N) : N := (n + 4) mod 7.
(** how many of the days [a], [a] + 1, ..., [n] fall on the weekday [w] *)
Definition how_many (w a n : N) : N := N.of_nat (length (filter (fun i => since_sunday (a + N.of_nat i) =? w) (seq 0 (N.to_nat (n + 1 - a))))).
(** day [n] is in year [y], which began on day [a] *)
Definition in_year (n y a : N) : Prop := (exists m d, falls_on n y m d) /\ falls_on a y 1 1 /\ a <= n.
(** the Thursday of the week of day [n]; weeks begin on Monday *)
Definition thursday (n t : N) : Prop := since_sunday t = 4 /\ t <= n + 3 /\ n <= t + 3.

(** ** The clock: second [now] is [h]:[mi]:[s] of day [n] *)
Definition at_time (now n h mi s : N) : Prop := now = 86400 * n + 3600 * h + 60 * mi + s /\ h < 24 /\ mi < 60 /\ s < 60.
(** the hour of a clock of twelve hours *)
Definition twelve (h x : N) : Prop := 1 <= x /\ x <= 12 /\ (x = h \/ x = h + 12 \/ x + 12 = h).

(** ** Numbers: at least [w] characters, filled with [c] *)
Definition filled_up (p : option ascii) (w : nat) (v : N) (t : bytes) : Prop :=
  exists u d, plain_decimal d v /\ t = u ++ d /\
    match p with None => u = [] | Some c => Forall (eq c) u /\ length t = Nat.max w (length d) end.
(** the numeric fields: letter, usual filling, width, value *)
Inductive field (now ns : N) : ascii -> option ascii -> nat -> N -> Prop :=
| fd_Y n h mi s y m d : at_time now n h mi s -> falls_on n y m d -> field now ns "Y" (Some "0"%char) 4 y
| fd_C n h mi s y m d : at_time now n h mi s -> falls_on n y m d -> field now ns "C" (Some "0"%char) 2 (y / 100)
| fd_y n h mi s y m d : at_time now n h mi s -> falls_on n y m d -> field now ns "y" (Some "0"%char) 2 (y mod 100)
| fd_q n h mi s y m d : at_time now n h mi s -> falls_on n y m d -> field now ns "q" None 1 ((m + 2) / 3)
| fd_m n h mi s y m d : at_time now n h mi s -> falls_on n y m d -> field now ns "m" (Some "0"%char) 2 m
| fd_d n h mi s y m d : at_time now n h mi s -> falls_on n y m d -> field now ns "d" (Some "0"%char) 2 d
| fd_e n h mi s y m d : at_time now n h mi s -> falls_on n y m d -> field now ns "e" (Some " "%char) 2 d
| fd_w n h mi s : at_time now n h mi s -> field now ns "w" None 1 (since_sunday n)
| fd_u n h mi s u : at_time now n h mi s -> 1 <= u -> u <= 7 -> u mod 7 = since_sunday n -> field now ns "u" None 1 u
| fd_j n h mi s y a : at_time now n h mi s -> in_year n y a -> field now ns "j" (Some "0"%char) 3 (n - a + 1)
| fd_U n h mi s y a : at_time now n h mi s -> in_year n y a -> field now ns "U" (Some "0"%char) 2 (how_many 0 a n)
| fd_W n h mi s y a : at_time now n h mi s -> in_year n y a -> field now ns "W" (Some "0"%char) 2 (how_many 1 a n)
| fd_G n h mi s t y a : at_time now n h mi s -> thursday n t -> in_year t y a -> field now ns "G" (Some "0"%char) 4 y
| fd_g n h mi s t y a : at_time now n h mi s -> thursday n t -> in_year t y a -> field now ns "g" (Some "0"%char) 2 (y mod 100)
| fd_V n h mi s t y a : at_time now n h mi s -> thursday n t -> in_year t y a -> field now ns "V" (Some "0"%char) 2 (how_many 4 a t)
| fd_H n h mi s : at_time now n h mi s -> field now ns "H" (Some "0"%char) 2 h
| fd_k n h mi s : at_time now n h mi s -> field now ns "k" (Some " "%char) 2 h
| fd_I n h mi s x : at_time now n h mi s -> twelve h x -> field now ns "I" (Some "0"%char) 2 x
| fd_l n h mi s x : at_time now n h mi s -> twelve h x -> field now ns "l" (Some " "%char) 2 x
| fd_M n h mi s : at_time now n h mi s -> field now ns "M" (Some "0"%char) 2 mi
| fd_S n h mi s : at_time now n h mi s -> field now ns "S" (Some "0"%char) 2 s
| fd_f : field now ns "f" (Some "0"%char) 9 ns
| fd_s : field now ns "s" None 9 now.

(** ** Names *)
Definition day_name (n : N) (t : bytes) : Prop :=
  nth_error [B "Sunday"; B "Monday"; B "Tuesday"; B "Wednesday"; B "Thursday"; B "Friday"; B "Saturday"] (N.to_nat (since_sunday n)) = Some t.
Definition month_name (m : N) (t : bytes) : Prop :=
  1 <= m /\ nth_error [B "January"; B "February"; B "March"; B "April"; B "May"; B "June"; B "July"; B "August"; B "September"; B "October"; B "November";
                       B "December"] (N.to_nat (m - 1)) = Some t.
(** [k] digits of the fraction of the second *)
Definition fraction_digits (ns : N) (k : nat) (t : bytes) : Prop := exists u, filled_up (Some "0"%char) 9 ns (t ++ u) /\ length t = k.
(** as many as needed: none, three, six or nine *)
Inductive fraction_shown (ns : N) : bytes -> Prop :=
| fs_none : ns = 0 -> fraction_shown ns []
| fs_milli t : ns <> 0 -> ns mod 1000000 = 0 -> fraction_digits ns 3 t -> fraction_shown ns (B "." ++ t)
| fs_micro t : ns mod 1000000 <> 0 -> ns mod 1000 = 0 -> fraction_digits ns 6 t -> fraction_shown ns (B "." ++ t)
| fs_nano t : ns mod 1000 <> 0 -> fraction_digits ns 9 t -> fraction_shown ns (B "." ++ t).

(** ** What may follow a % *)
Inductive directive (now ns : N) : bytes -> bytes -> Prop :=
| di_number c p w v t : field now ns c p w v -> filled_up p w v t -> directive now ns [c] t
| di_bare c p w v t : field now ns c p w v -> filled_up None w v t -> directive now ns (B "-" ++ [c]) t
| di_zeros c p w v t : field now ns c p w v -> filled_up (Some "0"%char) w v t -> directive now ns (B "0" ++ [c]) t
| di_spaces c p w v t : field now ns c p w v -> filled_up (Some " "%char) w v t -> directive now ns (B "_" ++ [c]) t
| di_A n h mi s t : at_time now n h mi s -> day_name n t -> directive now ns (B "A") t
| di_a n h mi s t : at_time now n h mi s -> day_name n t -> directive now ns (B "a") (firstn 3 t)
| di_B n h mi s y m d t : at_time now n h mi s -> falls_on n y m d -> month_name m t -> directive now ns (B "B") t
| di_b n h mi s y m d t c : at_time now n h mi s -> falls_on n y m d -> month_name m t -> In c [B "b"; B "h"] -> directive now ns c (firstn 3 t)
| di_am n h mi s : at_time now n h mi s -> h < 12 -> directive now ns (B "p") (B "AM")
| di_pm n h mi s : at_time now n h mi s -> 12 <= h -> directive now ns (B "p") (B "PM")
| di_am2 n h mi s : at_time now n h mi s -> h < 12 -> directive now ns (B "P") (B "am")
| di_pm2 n h mi s : at_time now n h mi s -> 12 <= h -> directive now ns (B "P") (B "pm")
| di_fraction t : fraction_shown ns t -> directive now ns (B ".f") t
| di_point k c t : In (k, c) [(3%nat, B "3"); (6%nat, B "6"); (9%nat, B "9")] -> fraction_digits ns k t -> directive now ns (B "." ++ c ++ B "f") (B "." ++ t)
| di_digits k c t : In (k, c) [(3%nat, B "3"); (6%nat, B "6"); (9%nat, B "9")] -> fraction_digits ns k t -> directive now ns (c ++ B "f") t
| di_zone c t : In (c, t) [(B "Z", B "UTC"); (B "z", B "+0000"); (B ":z", B "+00:00"); (B "::z", B "+00:00:00"); (B ":::z", B "+00")] -> directive now ns c t
| di_char c t : In (c, t) [(B "t", ["009"%char]); (B "n", ["010"%char]); (B "%", B "%")] -> directive now ns c t.
(** what is written shorter *)
Definition short_for (c : ascii) (f : bytes) : Prop :=
  In (c, f) [("D", B "%m/%d/%y"); ("x", B "%m/%d/%y"); ("F", B "%Y-%m-%d"); ("v", B "%e-%b-%Y"); ("R", B "%H:%M"); ("T", B "%H:%M:%S"); ("X", B "%H:%M:%S");
             ("r", B "%I:%M:%S %p"); ("c", B "%a %b %e %H:%M:%S %Y"); ("+", B "%Y-%m-%dT%H:%M:%S%.f%:z")]%char.

(** ** The time in the format [f] is [o] *)
Inductive in_format (now ns : N) : bytes -> bytes -> Prop :=
| if_end : in_format now ns [] []
| if_char c f o : c <> "%"%char -> in_format now ns f o -> in_format now ns (c :: f) (c :: o)
| if_directive d f t o : directive now ns d t -> in_format now ns f o -> in_format now ns (B "%" ++ d ++ f) (t ++ o)
| if_short c g f t o : short_for c g -> in_format now ns g t -> in_format now ns f o -> in_format now ns (B "%" ++ c :: f) (t ++ o).
(** 10000-01-01T00:00:00Z *)
Definition year_10000 : N := 253402300800.

(** ** The order of texts and of times *)
(** byte by byte, as sort and most databases compare texts *)
Inductive before : bytes -> bytes -> Prop :=
| bf_end c b : before [] (c :: b)
| bf_less c d a b : N_of_ascii c < N_of_ascii d -> before (c :: a) (d :: b)
| bf_same c a b : before a b -> before (c :: a) (c :: b).
(** the format of the documentation's example *)
Definition sortable : bytes := B "%Y-%m-%d %H:%M:%S".
