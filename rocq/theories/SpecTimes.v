(** The calendar for every 64 bit time, before and after 1970, and what the two date
    formats make of it.  Definitions only. *)
From Verif Require Import Str SpecFormat.

Open Scope Z_scope.

(** The proleptic Gregorian calendar, with a year 0 and years before it. *)
Definition leap_year (y : Z) : bool := (y mod 4 =? 0) && (negb (y mod 100 =? 0) || (y mod 400 =? 0)).
Definition months (y : Z) : list Z := [31; if leap_year y then 29 else 28; 31; 30; 31; 30; 31; 31; 30; 31; 30; 31].
(** [jan1 y] is the number of days from 1970-01-01 to the first of January of the year y. *)
Definition calendar (jan1 : Z -> Z) : Prop :=
  jan1 1970 = 0 /\ forall y, jan1 (y + 1) = jan1 y + fold_right Z.add 0 (months y).
(** The second [t], counted from 1970-01-01 00:00:00, is in this second of this day. *)
Definition falls_on (t y mo d h mi se : Z) : Prop :=
  1 <= mo <= 12 /\ 1 <= d <= nth (Z.to_nat (mo - 1)) (months y) 0 /\ 0 <= h < 24 /\ 0 <= mi < 60 /\ 0 <= se < 60 /\
  exists jan1, calendar jan1 /\
    t = 86400 * (jan1 y + fold_right Z.add 0 (firstn (Z.to_nat (mo - 1)) (months y)) + (d - 1)) + 3600 * h + 60 * mi + se.

(** A stored time as a number of the type time_t: numbers from 2^63 on are negative. *)
Definition instant (v : N) : Z := if (v <? 9223372036854775808)%N then Z.of_N v else Z.of_N v - 18446744073709551616.

(** The years that fit in struct tm, whose tm_year counts from 1900 in an int. *)
Definition tm_years (y : Z) : Prop := -2147481748 <= y <= 2147485547.

(** A year with the last four digits of its two's complement. *)
Definition four_digits (y : Z) (s : bytes) : Prop := padded 4 (Z.to_N (y mod 18446744073709551616 mod 10000)) s.
Definition two_digits (n : Z) (s : bytes) : Prop := padded 2 (Z.to_N n) s.
(** A year with its sign. *)
Definition signed_year (y : Z) (s : bytes) : Prop :=
  if y <? 0 then exists r, decimal (Z.to_N (- y)) r /\ s = str "-" ++ r else decimal (Z.to_N y) s.

(** The text of a time: a year, the other numbers and what stands between and after them. *)
Definition stamp (year : bytes -> Prop) (mo d h mi se : Z) (between after : bytes) (s : bytes) : Prop :=
  exists ty tmo td th tmi tse, year ty /\ two_digits mo tmo /\ two_digits d td /\ two_digits h th /\ two_digits mi tmi /\ two_digits se tse /\
    s = ty ++ str "-" ++ tmo ++ str "-" ++ td ++ between ++ th ++ str ":" ++ tmi ++ str ":" ++ tse ++ after.
Close Scope Z_scope.
