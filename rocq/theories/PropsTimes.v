(** Theorems about all 64 bit times: C77. *)
From Coq Require Import Lia ZifyBool.
From Verif Require Import Str BaseFacts ModelEntry ModelNames ModelFormat SpecFormat TextProofs CalendarProofs TimeProofs SpecText LineProofs SpecTimes.

Open Scope Z_scope.

Lemma months_len : forall y m, 1 <= m <= 12 -> nth (Z.to_nat (m - 1)) (months y) 0 = month_len (zleap y) m.
Proof. reflexivity. Qed.
Lemma months_days : forall y m, 1 <= m <= 12 -> fold_right Z.add 0 (firstn (Z.to_nat (m - 1)) (months y)) = month_days (zleap y) m.
Proof.
  intros y m Hm. unfold months, month_days. change (leap_year y) with (zleap y).
  assert (C : m = 1 \/ m = 2 \/ m = 3 \/ m = 4 \/ m = 5 \/ m = 6 \/ m = 7 \/ m = 8 \/ m = 9 \/ m = 10 \/ m = 11 \/ m = 12) by lia.
  destruct C as [-> |[-> |[-> |[-> |[-> |[-> |[-> |[-> |[-> |[-> |[-> | ->]]]]]]]]]]]; destruct (zleap y); reflexivity.
Qed.
Lemma months_sum : forall y, fold_right Z.add 0 (months y) = if zleap y then 366 else 365.
Proof. intro y. unfold months. change (leap_year y) with (zleap y). destruct (zleap y); reflexivity. Qed.

Lemma calendar_exists : calendar (fun y => year_days y - 719528).
Proof. split; [reflexivity|]. intro y. rewrite year_days_step, months_sum. lia. Qed.
Lemma calendar_unique : forall jan1, calendar jan1 -> forall y, jan1 y = year_days y - 719528.
Proof.
  intros jan1 [Z0 ST] y.
  assert (U : forall n, jan1 (1970 + Z.of_nat n) = year_days (1970 + Z.of_nat n) - 719528).
  { induction n as [|n IH]; [change (1970 + Z.of_nat 0) with 1970; rewrite Z0; reflexivity|].
    replace (1970 + Z.of_nat (Datatypes.S n)) with (1970 + Z.of_nat n + 1) by lia. rewrite ST, IH, year_days_step, months_sum. lia. }
  assert (D : forall n, jan1 (1970 - Z.of_nat n) = year_days (1970 - Z.of_nat n) - 719528).
  { induction n as [|n IH]; [change (1970 - Z.of_nat 0) with 1970; rewrite Z0; reflexivity|].
    pose proof (ST (1970 - Z.of_nat (Datatypes.S n))) as E. pose proof (year_days_step (1970 - Z.of_nat (Datatypes.S n))) as F.
    replace (1970 - Z.of_nat (Datatypes.S n) + 1) with (1970 - Z.of_nat n) in * by lia. rewrite IH, months_sum in E. lia. }
  destruct (Z.le_gt_cases 1970 y).
  - replace y with (1970 + Z.of_nat (Z.to_nat (y - 1970))) by lia. apply U.
  - replace y with (1970 - Z.of_nat (Z.to_nat (1970 - y))) by lia. apply D.
Qed.

(** The day of a date determines the date. *)
Lemma month_order : forall lp m m', 1 <= m -> m < m' -> m' <= 12 -> month_days lp m + month_len lp m <= month_days lp m'.
Proof.
  intros lp m m' H1 H2 H3.
  assert (C : forallb (fun lp => forallb (fun a => forallb (fun b => negb (Nat.ltb a b) || (month_days lp (Z.of_nat a) + month_len lp (Z.of_nat a) <=? month_days lp (Z.of_nat b))) (seq 1 12)) (seq 1 12)) [true; false] = true) by (vm_compute; reflexivity).
  rewrite forallb_forall in C. specialize (C lp ltac:(destruct lp; cbn; auto)). cbv beta in C.
  rewrite forallb_forall in C. specialize (C (Z.to_nat m) ltac:(apply in_seq; lia)). cbv beta in C.
  rewrite forallb_forall in C. specialize (C (Z.to_nat m') ltac:(apply in_seq; lia)). cbv beta in C.
  rewrite !Z2Nat.id in C by lia. replace (Nat.ltb (Z.to_nat m) (Z.to_nat m')) with true in C by (symmetry; apply Nat.ltb_lt; lia). cbn [negb orb] in C. lia.
Qed.
Lemma day_number_inj : forall y m d y' m' d', 1 <= m <= 12 -> 1 <= d <= month_len (zleap y) m -> 1 <= m' <= 12 -> 1 <= d' <= month_len (zleap y') m' ->
  day_number y m d = day_number y' m' d' -> y = y' /\ m = m' /\ d = d'.
Proof.
  assert (Y : forall y m d y' m' d', 1 <= m <= 12 -> 1 <= d <= month_len (zleap y) m -> 1 <= m' <= 12 -> 1 <= d' <= month_len (zleap y') m' -> day_number y m d = day_number y' m' d' -> ~ y < y').
  { intros y m d y' m' d' Hm Hd Hm' Hd' E L. pose proof (month_days_bounds _ _ _ Hm Hd). pose proof (month_days_bounds _ _ _ Hm' Hd').
    pose proof (year_days_mono (y + 1) y' ltac:(lia)) as M. rewrite year_days_step in M. unfold day_number in E. lia. }
  intros y m d y' m' d' Hm Hd Hm' Hd' E.
  pose proof (Y _ _ _ _ _ _ Hm Hd Hm' Hd' E). pose proof (Y _ _ _ _ _ _ Hm' Hd' Hm Hd (eq_sym E)). assert (y = y') by lia. subst y'.
  split; [reflexivity|]. unfold day_number in E.
  destruct (Z.lt_trichotomy m m') as [L|[-> |L]].
  - pose proof (month_order (zleap y) m m'). lia.
  - lia.
  - pose proof (month_order (zleap y) m' m). lia.
Qed.

(** gmtime_r for every time. *)
Lemma gmtime_exact : forall t y mo d h mi se, falls_on t y mo d h mi se ->
  gmtime_r t = if (-2147483648 <=? y - 1900) && (y - 1900 <=? 2147483647) then
    Some {| tm_sec := se; tm_min := mi; tm_hour := h; tm_mday := d; tm_mon := mo - 1; tm_year := y - 1900 |} else None.
Proof.
  intros t y mo d h mi se (Hm & Hd & Hh & Hmi & Hse & jan1 & C & E). rewrite months_len in Hd by exact Hm.
  rewrite (calendar_unique jan1 C), months_days in E by exact Hm.
  set (day := year_days y - 719528 + month_days (zleap y) mo + (d - 1)) in E.
  assert (Q : t / 86400 = day) by (symmetry; apply (Z.div_unique t 86400 day (3600 * h + 60 * mi + se)); lia).
  assert (R : t mod 86400 = 3600 * h + 60 * mi + se) by (symmetry; apply (Z.mod_unique t 86400 day); lia).
  unfold gmtime_r. rewrite Q, R. destruct (civil day) as [[y' m'] d'] eqn:EC. destruct (civil_ok _ _ _ _ EC) as (Hm' & Hd' & DN).
  destruct (day_number_inj y' m' d' y mo d Hm' Hd' Hm Hd) as (-> & -> & ->); [unfold day_number in *; unfold day in DN; lia|].
  assert (E1 : (3600 * h + 60 * mi + se) mod 60 = se) by (symmetry; apply (Z.mod_unique _ 60 (60 * h + mi)); lia).
  assert (E2 : (3600 * h + 60 * mi + se) / 60 = 60 * h + mi) by (symmetry; apply (Z.div_unique _ 60 _ se); lia).
  assert (E3 : (60 * h + mi) mod 60 = mi) by (symmetry; apply (Z.mod_unique _ 60 h); lia).
  assert (E4 : (3600 * h + 60 * mi + se) / 3600 = h) by (symmetry; apply (Z.div_unique _ 3600 _ (60 * mi + se)); lia).
  rewrite E1, E2, E3, E4. reflexivity.
Qed.

(** Every second is in a second of a day, and in one only. *)
Theorem every_time_has_a_date : forall t, exists y mo d h mi se, falls_on t y mo d h mi se /\
  forall y' mo' d' h' mi' se', falls_on t y' mo' d' h' mi' se' -> (y', mo', d', h', mi', se') = (y, mo, d, h, mi, se).
Proof.
  intro t. destruct (civil (t / 86400)) as [[y m] d] eqn:EC. destruct (civil_ok _ _ _ _ EC) as (Hm & Hd & DN).
  pose proof (Z.div_mod t 86400 ltac:(lia)) as DM. pose proof (Z.mod_pos_bound t 86400 ltac:(lia)) as MB. set (s := t mod 86400) in *.
  pose proof (Z.div_mod s 3600 ltac:(lia)) as D1. pose proof (Z.mod_pos_bound s 3600 ltac:(lia)) as B1. set (r := s mod 3600) in *.
  pose proof (Z.div_mod r 60 ltac:(lia)) as D2. pose proof (Z.mod_pos_bound r 60 ltac:(lia)) as B2.
  exists y, m, d, (s / 3600), (r / 60), (r mod 60).
  assert (F : falls_on t y m d (s / 3600) (r / 60) (r mod 60)).
  { split; [exact Hm|]. split; [rewrite months_len by exact Hm; exact Hd|]. split; [lia|]. split; [lia|]. split; [lia|].
    exists (fun y => year_days y - 719528). split; [exact calendar_exists|]. rewrite months_days by exact Hm. unfold day_number in DN. lia. }
  split; [exact F|]. intros y' mo' d' h' mi' se' (Hm' & Hd' & Hh' & Hmi' & Hse' & jan1 & C & E).
  rewrite (calendar_unique jan1 C), months_days in E by exact Hm'. rewrite months_len in Hd' by exact Hm'.
  set (day := year_days y' - 719528 + month_days (zleap y') mo' + (d' - 1)) in E.
  assert (Q : t / 86400 = day) by (symmetry; apply (Z.div_unique t 86400 day (3600 * h' + 60 * mi' + se')); lia).
  assert (R : s = 3600 * h' + 60 * mi' + se') by (symmetry; apply (Z.mod_unique t 86400 day); lia).
  destruct (day_number_inj y' mo' d' y m d Hm' Hd' Hm Hd) as (-> & -> & ->); [unfold day_number in *; unfold day in Q; lia|].
  assert (h' = s / 3600) by lia. assert (mi' = r / 60) by lia. assert (se' = r mod 60) by lia. congruence.
Qed.
Print Assumptions every_time_has_a_date.

Lemma to_time_instant : forall v, to_time_t v = instant v. Proof. reflexivity. Qed.

Lemma digits_mod : forall k n, padded k (n mod 10 ^ N.of_nat k)%N (digits k n).
Proof.
  intros k n. split; [apply digits_ok|]. split; [apply digits_length|]. unfold decimal_value.
  assert (G : forall k n a, fold_left (fun v c => (10 * v + (c - 48))%N) (digits k n) a = (a * 10 ^ N.of_nat k + n mod 10 ^ N.of_nat k)%N).
  { clear. induction k as [|k IH]; intros n a; cbn [digits].
    - cbn [fold_left]. change (10 ^ N.of_nat 0)%N with 1%N. rewrite N.mod_1_r. lia.
    - rewrite fold_left_app. cbn [fold_left]. rewrite IH. rewrite Nat2N.inj_succ, N.pow_succ_r'.
      assert (P : (10 ^ N.of_nat k <> 0)%N) by (apply N.pow_nonzero; lia).
      rewrite (N.mod_mul_r n 10 (10 ^ N.of_nat k)) by lia. pose proof (N.mod_lt n 10 ltac:(lia)). lia. }
  rewrite G. lia.
Qed.

Lemma two_ok : forall n, 0 <= n < 100 -> two_digits n (digits 2 (to_uint64 n)).
Proof.
  intros n H. unfold two_digits, to_uint64. rewrite Z.mod_small by lia. pose proof (digits_mod 2 (Z.to_N n)) as D.
  change (10 ^ N.of_nat 2)%N with 100%N in D. rewrite N.mod_small in D by lia. exact D.
Qed.

Lemma month_len_31 : forall lp m, 1 <= m <= 12 -> month_len lp m <= 31.
Proof.
  intros lp m Hm. unfold month_len.
  assert (C : m = 1 \/ m = 2 \/ m = 3 \/ m = 4 \/ m = 5 \/ m = 6 \/ m = 7 \/ m = 8 \/ m = 9 \/ m = 10 \/ m = 11 \/ m = 12) by lia.
  destruct C as [-> |[-> |[-> |[-> |[-> |[-> |[-> |[-> |[-> |[-> |[-> | ->]]]]]]]]]]]; destruct lp; vm_compute; discriminate.
Qed.

(** The RFC 3339 form of every time: the program stops if the year does not fit in struct
    tm, adding 1900 to tm_year overflows for the last 1900 years that do, and the other
    years are shown by four digits. *)
Theorem rfc3339_any_time : forall u v y mo d h mi se, falls_on (instant v) y mo d h mi se ->
  (~ tm_years y -> fmt_rfc3339_time u v = Abort) /\
  (tm_years y -> 2147483647 < y -> fmt_rfc3339_time u v = UB) /\
  (tm_years y -> y <= 2147483647 -> exists s, fmt_rfc3339_time u v = Ok (u ++ s) /\ stamp (four_digits y) mo d h mi se (str "T") (str "Z") s).
Proof.
  intros u v y mo d h mi se F. pose proof (gmtime_exact _ _ _ _ _ _ _ F) as G. destruct F as (Hm & Hd & Hh & Hmi & Hse & _).
  rewrite months_len in Hd by exact Hm. pose proof (month_len_31 (zleap y) mo Hm) as L31.
  unfold fmt_rfc3339_time, rfc3339_ts, tm_years. rewrite to_time_instant, G. split; [|split].
  - intro N. replace ((-2147483648 <=? y - 1900) && (y - 1900 <=? 2147483647)) with false by lia. reflexivity.
  - intros Y L. replace ((-2147483648 <=? y - 1900) && (y - 1900 <=? 2147483647)) with true by lia.
    unfold fmt_rfc3339. cbn [tm_year]. replace (2147483647 <? 1900 + (y - 1900)) with true by lia. reflexivity.
  - intros Y L. replace ((-2147483648 <=? y - 1900) && (y - 1900 <=? 2147483647)) with true by lia.
    rewrite fmt_rfc3339_ok by (cbn [tm_year]; lia). cbn [bind tm_sec tm_min tm_hour tm_mday tm_mon tm_year].
    replace (1900 + (y - 1900)) with y by lia. replace (1 + (mo - 1)) with mo by lia.
    exists (digits 4 (to_uint64 y) ++ [45%N] ++ digits 2 (to_uint64 mo) ++ [45%N] ++ digits 2 (to_uint64 d) ++ [84%N] ++ digits 2 (to_uint64 h) ++ [58%N] ++ digits 2 (to_uint64 mi) ++ [58%N] ++ digits 2 (to_uint64 se) ++ [90%N]).
    split; [reflexivity|].
    exists (digits 4 (to_uint64 y)), (digits 2 (to_uint64 mo)), (digits 2 (to_uint64 d)), (digits 2 (to_uint64 h)), (digits 2 (to_uint64 mi)), (digits 2 (to_uint64 se)).
    split; [|split; [apply two_ok; lia|split; [apply two_ok; lia|split; [apply two_ok; lia|split; [apply two_ok; lia|split; [apply two_ok; lia|reflexivity]]]]]].
    unfold four_digits, to_uint64. pose proof (digits_mod 4 (Z.to_N (y mod 18446744073709551616))) as D. change (10 ^ N.of_nat 4)%N with 10000%N in D.
    pose proof (Z.mod_pos_bound y 18446744073709551616 ltac:(lia)).
    rewrite Z2N.inj_mod by lia. exact D.
Qed.
Print Assumptions rfc3339_any_time.

Lemma printf_02_ok : forall n, 0 <= n < 100 -> two_digits n (printf_02d n).
Proof. intros n H. unfold two_digits. pose proof (printf_02d_ok (Z.to_N n) ltac:(lia)) as P. rewrite Z2N.id in P by lia. exact P. Qed.
Lemma printf_d_signed : forall y, signed_year y (printf_d y).
Proof.
  intro y. unfold signed_year, printf_d. destruct (y <? 0); [|apply printf_u_decimal]. exists (printf_u (Z.to_N (- y))). split; [apply printf_u_decimal|reflexivity].
Qed.
Lemma decimal_length_ge : forall n s k, decimal n s -> (10 ^ N.of_nat k <= n)%N -> (k < length s)%nat.
Proof.
  intros n s k (D & _ & _ & V) L. destruct (Nat.ltb_spec k (length s)); [assumption|]. exfalso.
  assert (B : (decimal_value s < 10 ^ N.of_nat (length s))%N).
  { clear -D. unfold decimal_value.
    assert (G : forall s a, Forall digit s -> (fold_left (fun v c => 10 * v + (c - 48)) s a < (a + 1) * 10 ^ N.of_nat (length s))%N).
    { clear. induction s as [|c s IH]; intros a D; cbn [fold_left length]; [change (10 ^ N.of_nat 0)%N with 1%N; lia|].
      inversion D as [|? ? Dc Ds]; subst. unfold digit in Dc. rewrite Nat2N.inj_succ, N.pow_succ_r'. specialize (IH (10 * a + (c - 48))%N Ds).
      eapply N.lt_le_trans; [exact IH|]. assert (10 * a + (c - 48) + 1 <= (a + 1) * 10)%N by lia. nia. }
    specialize (G s 0%N D). lia. }
  assert (10 ^ N.of_nat (length s) <= 10 ^ N.of_nat k)%N by (apply N.pow_le_mono_r; lia). lia.
Qed.

(** The plain form, of the text output: nothing is shown of a time whose year does not fit
    in struct tm, or has a sign and ten digits, which are too many for the buffer.  Left
    out: the last 1900 years of struct tm, where it depends on the C library whether
    strftime adds 1900 without overflow. *)
Theorem plain_any_time : forall u v y mo d h mi se, falls_on (instant v) y mo d h mi se -> y <= 2147483647 \/ 2147485547 < y ->
  (~ tm_years y \/ y <= -1000000000 -> fmt_time u v = Ok u) /\
  (tm_years y -> -1000000000 < y -> exists s, fmt_time u v = Ok (u ++ s) /\ stamp (signed_year y) mo d h mi se (str " ") (str " -0000") s).
Proof.
  intros u v y mo d h mi se F NY. pose proof (gmtime_exact _ _ _ _ _ _ _ F) as G. destruct F as (Hm & Hd & Hh & Hmi & Hse & _).
  rewrite months_len in Hd by exact Hm. pose proof (month_len_31 (zleap y) mo Hm) as L31.
  unfold fmt_time. rewrite to_time_instant, G. unfold tm_years.
  assert (ST : forall (r := {| tm_sec := se; tm_min := mi; tm_hour := h; tm_mday := d; tm_mon := mo - 1; tm_year := y - 1900 |}),
    strftime_text r = printf_d y ++ [45%N] ++ printf_02d mo ++ [45%N] ++ printf_02d d ++ [32%N] ++ printf_02d h ++ [58%N] ++ printf_02d mi ++ [58%N] ++ printf_02d se ++ str " -0000").
  { cbv zeta. unfold strftime_text. cbn [tm_sec tm_min tm_hour tm_mday tm_mon tm_year]. replace (1900 + (y - 1900)) with y by lia. replace (1 + (mo - 1)) with mo by lia. reflexivity. }
  cbv zeta in ST.
  assert (LN : length (printf_d y ++ [45%N] ++ printf_02d mo ++ [45%N] ++ printf_02d d ++ [32%N] ++ printf_02d h ++ [58%N] ++ printf_02d mi ++ [58%N] ++ printf_02d se ++ str " -0000") = (length (printf_d y) + 21)%nat).
  { rewrite !app_length. unfold printf_02d. cbn [length]. change (length (str " -0000")) with 6%nat. lia. }
  destruct ((-2147483648 <=? y - 1900) && (y - 1900 <=? 2147483647)) eqn:T.
  - cbv zeta. rewrite ST, LN. pose proof (printf_d_signed y) as SY. unfold signed_year in SY. split.
    + intros [N|N]; [lia|]. replace (y <? 0) with true in SY by lia. destruct SY as (r & D & E). rewrite E.
      pose proof (decimal_length_ge _ _ 9 D ltac:(change (10 ^ N.of_nat 9)%N with 1000000000%N; lia)) as L.
      rewrite app_length. change (length (str "-")) with 1%nat.
      replace (1 + length r + 21 <? 32)%nat with false; [reflexivity|]. symmetry. apply Nat.ltb_ge. lia.
    + intros Y L. assert (L10 : (length (printf_d y) <= 10)%nat).
      { destruct (y <? 0) eqn:NEG.
        - destruct SY as (r & D & ->). rewrite app_length. change (length (str "-")) with 1%nat.
          pose proof (decimal_length _ _ 9 D ltac:(change (10 ^ N.of_nat 9)%N with 1000000000%N; lia) ltac:(lia)). lia.
        - apply (decimal_length _ _ 10 SY); [change (10 ^ N.of_nat 10)%N with 10000000000%N; lia|lia]. }
      replace (length (printf_d y) + 21 <? 32)%nat with true by (symmetry; apply Nat.ltb_lt; lia).
      eexists. split; [reflexivity|]. exists (printf_d y), (printf_02d mo), (printf_02d d), (printf_02d h), (printf_02d mi), (printf_02d se).
      split; [apply printf_d_signed|]. do 5 (split; [apply printf_02_ok; lia|]). reflexivity.
  - split; [reflexivity|]. intros Y. lia.
Qed.
Print Assumptions plain_any_time.
Close Scope Z_scope.

(** The last second before 1970, as a number and as it is shown; the last second of the
    year 2147483647 and the ones after it. *)
Example c77_case : falls_on (instant 18446744073709551615) 1969 12 31 23 59 59 /\
  fmt_rfc3339_time [] 18446744073709551615 = Ok (str "1969-12-31T23:59:59Z") /\
  fmt_rfc3339_time [] 253402300800 = Ok (str "0000-01-01T00:00:00Z") /\
  fmt_rfc3339_time [] 67767976233532799 = Ok (str "3647-12-31T23:59:59Z") /\ fmt_rfc3339_time [] 67767976233532800 = UB /\
  fmt_rfc3339_time [] 67768036191676799 = UB /\ fmt_rfc3339_time [] 67768036191676800 = Abort /\
  fmt_time [] 67767976233532799 = Ok (str "2147483647-12-31 23:59:59 -0000") /\ fmt_time [] 67768036191676800 = Ok [].
Proof.
  split.
  - split; [lia|]. split; [vm_compute; split; discriminate|]. split; [lia|]. split; [lia|]. split; [lia|].
    exists (fun y => year_days y - 719528)%Z. split; [exact calendar_exists|]. reflexivity.
  - repeat split; vm_compute; reflexivity.
Qed.
