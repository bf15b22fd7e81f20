(** Times as arguments of dnstable_lookup (dnstable_lookup(1), "TIME"), independently of
    the program.  Definitions only. *)
From Verif Require Import Str SpecFormat.

(** YYYY-MM-DD, and the seconds from 1970 to the start of that day. *)
Definition date_form (s : bytes) (v : N) : Prop :=
  exists y mo d ty tmo td, 1970 <= y <= 9999 /\ 1 <= mo <= 12 /\ 1 <= d <= nth (N.to_nat (mo - 1)) (month_lengths y) 0 /\
    padded 4 y ty /\ padded 2 mo tmo /\ padded 2 d td /\
    s = ty ++ str "-" ++ tmo ++ str "-" ++ td /\ v = 86400 * days_to y mo d.
(** hh:mm:ss, and the seconds from midnight. *)
Definition clock_form (s : bytes) (v : N) : Prop :=
  exists h mi se th tmi tse, h < 24 /\ mi < 60 /\ se < 60 /\ padded 2 h th /\ padded 2 mi tmi /\ padded 2 se tse /\
    s = th ++ str ":" ++ tmi ++ str ":" ++ tse /\ v = 3600 * h + 60 * mi + se.

(** A number: digits. *)
Definition number (s : bytes) (n : N) : Prop := Forall digit s /\ s <> [] /\ decimal_value s = n.

(** The letters for weeks, days, hours, minutes and seconds. *)
Definition units : list (bytes * N) :=
  [(str "w", 604800); (str "W", 604800); (str "d", 86400); (str "D", 86400); (str "h", 3600); (str "H", 3600);
   (str "m", 60); (str "M", 60); (str "s", 1); (str "S", 1)].
(** Such as 1w2d or 4h30m, and the seconds; the unit of the last number can be missing. *)
Inductive duration : bytes -> N -> Prop :=
| du_one : forall s n u k, number s n -> 0 < n -> In (u, k) units -> duration (s ++ u) (n * k)
| du_more : forall s n u k r v, number s n -> 0 < n -> In (u, k) units -> duration r v -> duration (s ++ u ++ r) (n * k + v)
| du_seconds : forall s n u k s' n', number s n -> 0 < n -> In (u, k) units -> number s' n' -> 0 < n' ->
    duration (s ++ u ++ s') (n * k + n').

(** [s] means the second [v] since 1970, if it is the second [now]. *)
Inductive time_arg (now : N) : bytes -> N -> Prop :=
| ta_date : forall s v, date_form s v -> time_arg now s v
| ta_date_time : forall s v t x, date_form s v -> clock_form t x -> time_arg now (s ++ str " " ++ t) (v + x)
| ta_date_T_time : forall s v t x, date_form s v -> clock_form t x -> time_arg now (s ++ str "T" ++ t) (v + x)
| ta_date_T_time_Z : forall s v t x, date_form s v -> clock_form t x -> time_arg now (s ++ str "T" ++ t ++ str "Z") (v + x)
| ta_second : forall s n, number s n -> n < 9223372036854775808 -> time_arg now s n
| ta_ago : forall s n, number s n -> n <= now -> 0 < n -> time_arg now (str "-" ++ s) (now - n)
| ta_before : forall s n, duration s n -> n <= now -> time_arg now s (now - n).

(** ** What is taken at all

    The C library takes more than the documented forms: blanks, missing leading zeros,
    signs, days that a month does not have and leap seconds. *)

(** One to [k] digits behind any blanks. *)
Definition field (k : nat) (lo hi : N) (s : bytes) (n : N) : Prop :=
  exists blanks ds, s = blanks ++ ds /\ Forall (eq 32) blanks /\ Forall digit ds /\ (1 <= length ds <= k)%nat /\ decimal_value ds = n /\ lo <= n <= hi.
Definition loose_date (s : bytes) (y mo d : N) : Prop :=
  exists ty tmo td, field 4 0 9999 ty y /\ field 2 1 12 tmo mo /\ field 2 1 31 td d /\ s = ty ++ str "-" ++ tmo ++ str "-" ++ td.
(** With the seconds from midnight. *)
Definition loose_clock (s : bytes) (x : N) : Prop :=
  exists h mi se th tmi tse, field 2 0 23 th h /\ field 2 0 59 tmi mi /\ field 2 0 61 tse se /\
    s = th ++ str ":" ++ tmi ++ str ":" ++ tse /\ x = 3600 * h + 60 * mi + se.
(** The second [v] is that of this day and this time; nothing is said about years before
    1970. *)
Definition stamp (y mo d x v : N) : Prop := 1970 <= y -> v = 86400 * days_to y mo d + x.

(** White space: blank, tabulators and line ends. *)
Definition white (c : N) : Prop := c = 32 \/ 9 <= c <= 13.
(** A number behind white space and a sign. *)
Inductive integer : bytes -> Z -> Prop :=
| in_plain : forall w s n, Forall white w -> number s n -> integer (w ++ s) (Z.of_N n)
| in_plus : forall w s n, Forall white w -> number s n -> integer (w ++ str "+" ++ s) (Z.of_N n)
| in_minus : forall w s n, Forall white w -> number s n -> integer (w ++ str "-" ++ s) (- Z.of_N n).
(** The number that an argument begins with; what follows is not another digit. *)
Definition leading_integer (s : bytes) (z : Z) : Prop := exists t r, s = t ++ r /\ integer t z /\ (forall c r', r = c :: r' -> ~ digit c).
(** The value as an int: first a 64-bit number, the nearest one, then its lowest 32 bits. *)
Definition as_int (z v : Z) : Prop :=
  (-2147483648 <= v < 2147483648)%Z /\ exists k, Z.max (-9223372036854775808) (Z.min 9223372036854775807 z) = (v + k * 4294967296)%Z.
(** Numbers from 1 with units; the unit of the last can be missing. *)
Inductive loose_duration : bytes -> Z -> Prop :=
| ld_end : loose_duration [] 0
| ld_seconds : forall s n, integer s n -> (0 < n)%Z -> loose_duration s n
| ld_more : forall s n u k r v, integer s n -> (0 < n)%Z -> In (u, k) units -> loose_duration r v -> loose_duration (s ++ u ++ r) (n * Z.of_N k + v).

(** Numbers of 2^63 and above count as 2^63 - 1. *)
Inductive time_like (now : N) : bytes -> N -> Prop :=
| tl_date : forall s y mo d v, loose_date s y mo d -> stamp y mo d 0 v -> time_like now s v
| tl_date_time : forall s y mo d w t x v, loose_date s y mo d -> Forall white w -> loose_clock t x -> stamp y mo d x v -> time_like now (s ++ w ++ t) v
| tl_date_T_time : forall s y mo d t x z v, loose_date s y mo d -> loose_clock t x -> z = [] \/ z = str "Z" -> stamp y mo d x v ->
    time_like now (s ++ str "T" ++ t ++ z) v
| tl_second : forall s n, integer s (Z.of_N n) -> time_like now s (N.min n 9223372036854775807)
| tl_ago : forall s n, integer s (- Z.of_N n) -> n <= now -> time_like now s (now - n)
| tl_before : forall s n, loose_duration s (Z.of_N n) -> n <= now -> time_like now s (now - n).
