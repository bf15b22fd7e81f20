(** The calendar arithmetic of gmtime_r: its dates are dates, of the right days. *)
From Coq Require Import Lia ZifyBool.
From Verif Require Import Str BaseFacts ModelVarint ModelUnion ModelEntry ModelNames ModelFormat SpecFormat TextProofs.

(** ** The calendar *)

Open Scope Z_scope.

(** Days in the years before [y], and before the month [m] of a year, by formula. *)
Definition zleap (y : Z) : bool := (y mod 4 =? 0) && (negb (y mod 100 =? 0) || (y mod 400 =? 0)).
Definition year_days (y : Z) : Z := 365 * y + (y + 3) / 4 - (y + 99) / 100 + (y + 399) / 400.
Definition month_days (lp : bool) (m : Z) : Z :=
  nth (Z.to_nat (m - 1)) [0; 31; 59; 90; 120; 151; 181; 212; 243; 273; 304; 334] 0 +
  (if (2 <? m) && lp then 1 else 0).
Definition month_len (lp : bool) (m : Z) : Z :=
  nth (Z.to_nat (m - 1)) [31; (if lp then 29 else 28); 31; 30; 31; 30; 31; 31; 30; 31; 30; 31] 0.
Definition day_number (y m d : Z) : Z := year_days y + month_days (zleap y) m + d.

(** One day of the first era of 400 years, from 0000-03-01 on. *)
Definition era_day (doe : Z) : bool :=
  let '(y, m, d) := civil (doe - 719468) in
  (0 <=? y) && (1 <=? m) && (m <=? 12) && (1 <=? d) && (d <=? month_len (zleap y) m) &&
  (day_number y m d =? doe + 61).

(** Only the first and last days of the years, and the days of one year, are checked
    one by one. *)
Fixpoint upto (n : nat) (z : Z) (f : Z -> bool) : bool :=
  match n with O => true | S k => f z && upto k (z + 1) f end.
Lemma upto_all : forall f n z, upto n z f = true -> forall i, z <= i < z + Z.of_nat n -> f i = true.
Proof.
  induction n as [|n IH]; intros z H i Hi; [lia|]. cbn [upto] in H. apply andb_prop in H. destruct H as [H1 H2].
  destruct (Z.eq_dec i z) as [-> | N]; [exact H1|]. apply (IH (z + 1) H2). lia.
Qed.

Definition yoe (doe : Z) : Z := (doe - doe / 1460 + doe / 36524 - doe / 146096) / 365.
Definition start (k : Z) : Z := 365 * k + k / 4 - k / 100.
Definition finish (k : Z) : Z := if k =? 399 then 146096 else start (k + 1) - 1.

Lemma yoe_step : forall d, 0 <= d -> d < 146096 -> yoe d <= yoe (d + 1).
Proof. intros d H1 H2. unfold yoe. apply Z.div_le_mono; lia. Qed.
Lemma yoe_mono : forall a b, 0 <= a -> a <= b -> b <= 146096 -> yoe a <= yoe b.
Proof.
  intros a b H1 H2 H3. replace b with (a + Z.of_nat (Z.to_nat (b - a))) by lia.
  assert (Hn : Z.of_nat (Z.to_nat (b - a)) <= 146096 - a) by lia. induction (Z.to_nat (b - a)) as [|n IH].
  - rewrite Z.add_0_r. reflexivity.
  - rewrite Nat2Z.inj_succ in *. etransitivity; [apply IH; lia|].
    replace (a + Z.succ (Z.of_nat n)) with (a + Z.of_nat n + 1) by lia. apply yoe_step; lia.
Qed.

Lemma start_finish : forall d, 0 <= d < 146097 -> start (yoe d) <= d <= finish (yoe d) /\ 0 <= yoe d < 400.
Proof.
  intros d H.
  assert (C : upto 400 0 (fun k => (yoe (start k) =? k) && (yoe (finish k) =? k) && (0 <=? start k) && (start k <=? 146096) && (finish k <=? 146096) && (0 <=? finish k)) = true)
    by (vm_compute; reflexivity).
  assert (Y : 0 <= yoe d < 400).
  { split; [change 0 with (yoe 0); apply yoe_mono; lia|]. apply Z.le_lt_trans with (yoe 146096); [apply yoe_mono; lia|reflexivity]. }
  split; [|exact Y].
  assert (K : forall k, 0 <= k < 400 -> yoe (start k) = k /\ yoe (finish k) = k /\ 0 <= start k <= 146096 /\ 0 <= finish k <= 146096).
  { intros k Hk. pose proof (upto_all _ _ _ C k Hk) as E. cbv beta in E. lia. }
  split.
  - destruct (Z.eq_dec (yoe d) 0) as [E|E]; [rewrite E; cbn; lia|].
    destruct (K (yoe d - 1)) as (_ & K2 & _ & K4); [lia|].
    assert (F : finish (yoe d - 1) = start (yoe d) - 1).
    { unfold finish. destruct (yoe d - 1 =? 399) eqn:E1; [lia|]. replace (yoe d - 1 + 1) with (yoe d) by lia. reflexivity. }
    assert (~ d <= finish (yoe d - 1)) by (intro L; pose proof (yoe_mono d (finish (yoe d - 1)) ltac:(lia) L ltac:(lia)); lia). lia.
  - unfold finish. destruct (yoe d =? 399) eqn:E1; [lia|].
    destruct (K (yoe d + 1)) as (K1 & _ & K3 & _); [lia|].
    assert (~ start (yoe d + 1) <= d) by (intro L; pose proof (yoe_mono (start (yoe d + 1)) d ltac:(lia) L ltac:(lia)); lia). lia.
Qed.

Definition z_of_leap (y : Z) : Z := if zleap y then 1 else 0.

Lemma year_starts : forall k, 0 <= k < 400 ->
  year_days k + z_of_leap k = start k + 1 /\ year_days (k + 1) = start k + 366 /\ finish k - start k <= 364 + z_of_leap (k + 1).
Proof.
  intros k Hk.
  assert (C : upto 400 0 (fun k => (year_days k + z_of_leap k =? start k + 1) && (year_days (k + 1) =? start k + 366) &&
    (finish k - start k <=? 364 + z_of_leap (k + 1))) = true) by (vm_compute; reflexivity).
  pose proof (upto_all _ _ _ C k Hk) as E. cbv beta in E. lia.
Qed.

Definition day_month (doy : Z) : Z := let mp := (5 * doy + 2) / 153 in if mp <? 10 then mp + 3 else mp - 9.
Definition day_day (doy : Z) : Z := let mp := (5 * doy + 2) / 153 in doy - (153 * mp + 2) / 5 + 1.
Lemma days_of_year : forall doy, 0 <= doy < 366 -> let m := day_month doy in let d := day_day doy in
  1 <= m <= 12 /\ 1 <= d /\
  (2 < m -> d <= month_len false m /\ month_days false m + d = doy + 60) /\
  (m <= 2 -> (doy < 365 -> d <= month_len false m) /\ d <= month_len true m /\ month_days false m + d + 305 = doy).
Proof.
  intros doy Hd m d.
  assert (C : upto 366 0 (fun doy => let m := day_month doy in let d := day_day doy in
    (1 <=? m) && (m <=? 12) && (1 <=? d) &&
    (if 2 <? m then (d <=? month_len false m) && (month_days false m + d =? doy + 60)
     else ((negb (doy <? 365)) || (d <=? month_len false m)) && (d <=? month_len true m) && (month_days false m + d + 305 =? doy))) = true)
    by (vm_compute; reflexivity).
  pose proof (upto_all _ _ _ C doy Hd) as E. cbv beta zeta in E. fold m d in E. clearbody m d. clear C.
  rewrite !andb_true_iff in E. destruct E as (((E1 & E2) & E3) & E4).
  destruct (2 <? m) eqn:L; rewrite ?andb_true_iff, ?orb_true_iff, ?negb_true_iff in E4;
    (split; [lia|split; [lia|split; intros; [split; lia|split; [intros; lia|split; lia]]]]).
Qed.

Lemma month_len_leap : forall lp m, 2 < m -> month_len lp m = month_len false m.
Proof.
  intros lp m H. unfold month_len. assert (E : exists n, Z.to_nat (m - 1) = S (S n)) by (exists (Z.to_nat (m - 3)); lia).
  destruct E as (n & ->). reflexivity.
Qed.
Lemma month_days_leap : forall lp m, month_days lp m = month_days false m + (if (2 <? m) && lp then 1 else 0).
Proof. intros lp m. unfold month_days. destruct lp, (2 <? m); cbn [andb]; lia. Qed.

Lemma era_all : forall doe, 0 <= doe < 146097 -> era_day doe = true.
Proof.
  intros doe H. destruct (start_finish doe H) as (SF & Y). unfold era_day, civil.
  replace (doe - 719468 + 719468) with doe by lia. rewrite (Z.mod_small doe) by lia. rewrite (Z.div_small doe 146097) by lia.
  cbv zeta. fold (yoe doe). set (k := yoe doe) in *. fold (start k). set (doy := doe - start k).
  fold (day_month doy) (day_day doy).
  destruct (year_starts k Y) as (Y1 & Y2 & Y3).
  assert (D : 0 <= doy < 366) by (unfold doy, z_of_leap in *; destruct (zleap (k + 1)); lia).
  destruct (days_of_year doy D) as (M1 & M2 & M3 & M4). cbv zeta in *.
  set (m := day_month doy) in *. set (d := day_day doy) in *. unfold day_number.
  rewrite !andb_true_iff. destruct (m <=? 2) eqn:E.
  - destruct (M4 ltac:(lia)) as (M5 & M6 & M7). replace (k + 0 * 400 + 1) with (k + 1) by lia.
    rewrite month_days_leap. replace (2 <? m) with false by lia. cbn [andb].
    assert (d <= month_len (zleap (k + 1)) m).
    { unfold z_of_leap in Y3. destruct (zleap (k + 1)); [exact M6|]. apply M5. unfold doy. lia. }
    unfold doy in *. lia.
  - destruct (M3 ltac:(lia)) as (M5 & M6). replace (k + 0 * 400 + 0) with k by lia.
    rewrite month_days_leap. rewrite month_len_leap by lia. replace (2 <? m) with true by lia. cbn [andb].
    unfold z_of_leap in Y1. unfold doy in *. lia.
Qed.

Lemma civil_era : forall days, let z := days + 719468 in
  civil days = let '(y, m, d) := civil (z mod 146097 - 719468) in (y + 400 * (z / 146097), m, d).
Proof.
  intros days z. unfold civil. fold z.
  replace (z mod 146097 - 719468 + 719468) with (z mod 146097) by lia.
  rewrite (Z.mod_mod z 146097) by lia.
  rewrite (Z.div_small (z mod 146097) 146097) by (apply Z.mod_pos_bound; lia).
  cbv zeta. f_equal. f_equal. ring.
Qed.

Lemma year_days_period : forall y e, year_days (y + 400 * e) = year_days y + 146097 * e.
Proof.
  intros y e. unfold year_days.
  replace (y + 400 * e + 3) with (y + 3 + (100 * e) * 4) by ring. rewrite Z.div_add by lia.
  replace (y + 400 * e + 99) with (y + 99 + (4 * e) * 100) by ring. rewrite Z.div_add by lia.
  replace (y + 400 * e + 399) with (y + 399 + e * 400) by ring. rewrite Z.div_add by lia. ring.
Qed.

Lemma zleap_period : forall y e, zleap (y + 400 * e) = zleap y.
Proof.
  intros y e. unfold zleap.
  replace (y + 400 * e) with (y + (100 * e) * 4) at 1 by ring. rewrite Z.mod_add by lia.
  replace (y + 400 * e) with (y + (4 * e) * 100) at 1 by ring. rewrite Z.mod_add by lia.
  replace (y + 400 * e) with (y + e * 400) by ring. rewrite Z.mod_add by lia. reflexivity.
Qed.

(** gmtime's date is a date, of the right day. *)
Lemma civil_ok : forall days y m d, civil days = (y, m, d) ->
  1 <= m <= 12 /\ 1 <= d <= month_len (zleap y) m /\ day_number y m d = days + 719529.
Proof.
  intros days y m d H. rewrite civil_era in H. cbv zeta in H.
  set (z := days + 719468) in *. set (doe := z mod 146097) in *.
  assert (B : 0 <= doe < 146097) by (apply Z.mod_pos_bound; lia).
  pose proof (era_all doe B) as E. unfold era_day in E.
  destruct (civil (doe - 719468)) as [[y0 m0] d0]. 
  assert (y = y0 + 400 * (z / 146097)) as -> by congruence. assert (m = m0) as -> by congruence.
  assert (d = d0) as -> by congruence.
  rewrite !andb_true_iff in E. destruct E as (((((E1 & E2) & E3) & E4) & E5) & E6).
  rewrite zleap_period. split; [lia|]. split; [lia|]. unfold day_number in *.
  rewrite zleap_period, year_days_period.
  pose proof (Z.div_mod z 146097 ltac:(lia)) as DM. fold doe in DM. lia.
Qed.

Close Scope Z_scope.
