(** Proofs about timestamps: their calendar dates and the RFC 3339 form. *)
From Coq Require Import Lia ZifyBool.
From Verif Require Import Str BaseFacts ModelVarint ModelUnion ModelEntry ModelNames ModelFormat SpecFormat TextProofs CalendarProofs.

Open Scope Z_scope.

Lemma month_days_bounds : forall lp m d, 1 <= m <= 12 -> 1 <= d <= month_len lp m ->
  1 <= month_days lp m + d <= (if lp then 366 else 365).
Proof.
  intros lp m d Hm Hd.
  assert (C : m = 1 \/ m = 2 \/ m = 3 \/ m = 4 \/ m = 5 \/ m = 6 \/ m = 7 \/ m = 8 \/ m = 9 \/ m = 10 \/ m = 11 \/ m = 12) by lia.
  destruct C as [-> |[-> |[-> |[-> |[-> |[-> |[-> |[-> |[-> |[-> |[-> | ->]]]]]]]]]]];
    destruct lp;
    match goal with |- context [month_days ?b ?k] => let v := eval vm_compute in (month_days b k) in change (month_days b k) with v end;
    match type of Hd with context [month_len ?b ?k] => let v := eval vm_compute in (month_len b k) in change (month_len b k) with v in Hd end;
    cbv iota; lia.
Qed.

Lemma year_days_step : forall y, year_days (y + 1) = year_days y + (if zleap y then 366 else 365).
Proof.
  intro y. unfold year_days, zleap.
  pose proof (Z.div_mod (y + 3) 4 ltac:(lia)). pose proof (Z.mod_pos_bound (y + 3) 4 ltac:(lia)).
  pose proof (Z.div_mod (y + 1 + 3) 4 ltac:(lia)). pose proof (Z.mod_pos_bound (y + 1 + 3) 4 ltac:(lia)).
  pose proof (Z.div_mod (y + 99) 100 ltac:(lia)). pose proof (Z.mod_pos_bound (y + 99) 100 ltac:(lia)).
  pose proof (Z.div_mod (y + 1 + 99) 100 ltac:(lia)). pose proof (Z.mod_pos_bound (y + 1 + 99) 100 ltac:(lia)).
  pose proof (Z.div_mod (y + 399) 400 ltac:(lia)). pose proof (Z.mod_pos_bound (y + 399) 400 ltac:(lia)).
  pose proof (Z.div_mod (y + 1 + 399) 400 ltac:(lia)). pose proof (Z.mod_pos_bound (y + 1 + 399) 400 ltac:(lia)).
  pose proof (Z.div_mod y 4 ltac:(lia)). pose proof (Z.mod_pos_bound y 4 ltac:(lia)).
  pose proof (Z.div_mod y 100 ltac:(lia)). pose proof (Z.mod_pos_bound y 100 ltac:(lia)).
  pose proof (Z.div_mod y 400 ltac:(lia)). pose proof (Z.mod_pos_bound y 400 ltac:(lia)).
  destruct (Z.eqb_spec (y mod 4) 0); destruct (Z.eqb_spec (y mod 100) 0); destruct (Z.eqb_spec (y mod 400) 0);
    cbn [andb orb negb]; lia.
Qed.

Lemma year_days_mono : forall y y', y <= y' -> year_days y + 365 * (y' - y) <= year_days y'.
Proof.
  intros y y' H. replace y' with (y + Z.of_nat (Z.to_nat (y' - y))) by lia.
  generalize (Z.to_nat (y' - y)) as n. clear H. induction n as [|n IH].
  - change (Z.of_nat 0) with 0. rewrite Z.add_0_r. lia.
  - rewrite Nat2Z.inj_succ. replace (y + Z.succ (Z.of_nat n)) with (y + Z.of_nat n + 1) by lia.
    rewrite year_days_step. destruct (zleap (y + Z.of_nat n)); lia.
Qed.

Lemma year_days_1969 : year_days 1969 = 719163. Proof. reflexivity. Qed.
Lemma year_days_1970 : year_days 1970 = 719528. Proof. reflexivity. Qed.
Lemma year_days_10000 : year_days 10000 = 3652425. Proof. reflexivity. Qed.
Lemma year_days_int : year_days 2147485548 = 784352990265. Proof. reflexivity. Qed.

(** The years of days from 1970 on. *)
Lemma civil_year : forall days y m d, 0 <= days -> civil days = (y, m, d) ->
  1970 <= y /\ (days < 2932897 -> y <= 9999) /\ (days < 784352270737 -> y <= 2147485547).
Proof.
  intros days y m d HD H. destruct (civil_ok _ _ _ _ H) as (Hm & Hd & E).
  pose proof (month_days_bounds (zleap y) m d Hm Hd) as B. unfold day_number in E.
  split; [|split].
  - destruct (Z.le_gt_cases 1970 y) as [C|C]; [exact C|]. exfalso.
    destruct (Z.eq_dec y 1969) as [-> | N].
    + rewrite year_days_1969 in E. change (zleap 1969) with false in *. cbv iota in B. lia.
    + pose proof (year_days_mono y 1968 ltac:(lia)) as M. change (year_days 1968) with 718797 in M.
      destruct (zleap y); lia.
  - intro HB. destruct (Z.le_gt_cases y 9999) as [C|C]; [exact C|]. exfalso.
    pose proof (year_days_mono 10000 y ltac:(lia)) as M. rewrite year_days_10000 in M. lia.
  - intro HB. destruct (Z.le_gt_cases y 2147485547) as [C|C]; [exact C|]. exfalso.
    pose proof (year_days_mono 2147485548 y ltac:(lia)) as M. rewrite year_days_int in M. lia.
Qed.

Close Scope Z_scope.

Lemma leap_z : forall y, zleap (Z.of_N y) = leap y.
Proof.
  intro y. unfold zleap, leap.
  change 4%Z with (Z.of_N 4). change 100%Z with (Z.of_N 100). change 400%Z with (Z.of_N 400).
  rewrite <- !N2Z.inj_mod. f_equal; [|f_equal; [f_equal|]]; apply eq_true_iff_eq; rewrite Z.eqb_eq, N.eqb_eq; lia.
Qed.

Lemma sum_year : forall y, Z.of_N (sum (month_lengths y)) = (if leap y then 366 else 365)%Z.
Proof. intro y. unfold sum, month_lengths. destruct (leap y); reflexivity. Qed.

Lemma days_to_year_ok : forall n, Z.of_N (days_to_year n) = (year_days (1970 + Z.of_nat n) - year_days 1970)%Z.
Proof.
  induction n as [|n IH]; cbn [days_to_year]; [rewrite Z.add_0_r, Z.sub_diag; reflexivity|].
  rewrite N2Z.inj_add, IH, sum_year, Nat2Z.inj_succ.
  replace (1970 + Z.succ (Z.of_nat n))%Z with (1970 + Z.of_nat n + 1)%Z by lia.
  rewrite year_days_step. rewrite <- leap_z.
  replace (Z.of_N (1970 + N.of_nat n)) with (1970 + Z.of_nat n)%Z by lia.
  destruct (zleap (1970 + Z.of_nat n)); lia.
Qed.

Lemma days_to_ok : forall y m d, 1970 <= y -> 1 <= m <= 12 -> 1 <= d ->
  Z.of_N (days_to y m d) = (day_number (Z.of_N y) (Z.of_N m) (Z.of_N d) - 719529)%Z.
Proof.
  intros y m d Hy Hm Hd. unfold days_to, day_number. rewrite !N2Z.inj_add, days_to_year_ok.
  replace (1970 + Z.of_nat (N.to_nat (y - 1970)))%Z with (Z.of_N y) by lia.
  rewrite year_days_1970, leap_z.
  assert (E : Z.of_N (sum (firstn (N.to_nat (m - 1)) (month_lengths y))) = month_days (leap y) (Z.of_N m)).
  { assert (C : m = 1 \/ m = 2 \/ m = 3 \/ m = 4 \/ m = 5 \/ m = 6 \/ m = 7 \/ m = 8 \/ m = 9 \/ m = 10 \/ m = 11 \/ m = 12) by lia.
    unfold month_lengths.
    destruct C as [-> |[-> |[-> |[-> |[-> |[-> |[-> |[-> |[-> |[-> |[-> | ->]]]]]]]]]]]; destruct (leap y); reflexivity. }
  rewrite E. lia.
Qed.

Lemma month_len_ok : forall y m, 1 <= m <= 12 ->
  month_len (leap y) (Z.of_N m) = Z.of_N (nth (N.to_nat (m - 1)) (month_lengths y) 0).
Proof.
  intros y m Hm. unfold month_len, month_lengths.
  assert (C : m = 1 \/ m = 2 \/ m = 3 \/ m = 4 \/ m = 5 \/ m = 6 \/ m = 7 \/ m = 8 \/ m = 9 \/ m = 10 \/ m = 11 \/ m = 12) by lia.
  destruct C as [-> |[-> |[-> |[-> |[-> |[-> |[-> |[-> |[-> |[-> |[-> | ->]]]]]]]]]]]; destruct (leap y); reflexivity.
Qed.

(** gmtime_r up to the last year an int can represent, in terms of the specification. *)
Lemma gmtime_any : forall v, v < 67768036191676800 ->
  exists y mo d h mi se,
    gmtime_r (to_time_t v) = Some {| tm_sec := Z.of_N se; tm_min := Z.of_N mi; tm_hour := Z.of_N h;
      tm_mday := Z.of_N d; tm_mon := Z.of_N mo - 1; tm_year := Z.of_N y - 1900 |} /\
    (1970 <= y <= 2147485547 /\ (v < 253402300800 -> y <= 9999)) /\ 1 <= mo <= 12 /\
    1 <= d <= nth (N.to_nat (mo - 1)) (month_lengths y) 0 /\
    h < 24 /\ mi < 60 /\ se < 60 /\
    v = 86400 * days_to y mo d + 3600 * h + 60 * mi + se.
Proof.
  intros v H. unfold to_time_t. destruct (v <? 9223372036854775808) eqn:E; [|lia]. clear E.
  unfold gmtime_r.
  change 86400%Z with (Z.of_N 86400). rewrite <- N2Z.inj_div, <- N2Z.inj_mod.
  destruct (civil (Z.of_N (v / 86400))) as [[y m] d] eqn:C.
  pose proof (N.div_mod' v 86400) as DM. pose proof (N.mod_lt v 86400 ltac:(lia)) as ML.
  assert (HQ : v / 86400 < 784352270737) by (apply N.div_lt_upper_bound; lia).
  destruct (civil_year _ _ _ _ (N2Z.is_nonneg (v / 86400)) C) as (Hy & Hy1 & Hy2). destruct (civil_ok _ _ _ _ C) as (Hm & Hd & DN).
  replace ((-2147483648 <=? y - 1900)%Z && (y - 1900 <=? 2147483647)%Z) with true by lia.
  set (s := v mod 86400) in *.
  exists (Z.to_N y), (Z.to_N m), (Z.to_N d), (s / 3600), (s / 60 mod 60), (s mod 60).
  split.
  { f_equal. change 60%Z with (Z.of_N 60). change 3600%Z with (Z.of_N 3600).
    rewrite <- ?N2Z.inj_div, <- ?N2Z.inj_mod, <- ?N2Z.inj_div.
    rewrite !Z2N.id by lia. reflexivity. }
  assert (HM : 1 <= Z.to_N m <= 12) by lia.
  split; [split; [lia|]|].
  { intro HV. assert (v / 86400 < 2932897) by (apply N.div_lt_upper_bound; lia). lia. }
  split; [exact HM|].
  assert (LY : zleap y = leap (Z.to_N y)) by (rewrite <- leap_z, Z2N.id by lia; reflexivity).
  rewrite LY in Hd. pose proof (month_len_ok (Z.to_N y) (Z.to_N m) HM) as L. rewrite (Z2N.id m) in L by lia. rewrite L in Hd.
  split; [lia|].
  split; [apply N.div_lt_upper_bound; lia|]. split; [apply N.mod_lt; lia|]. split; [apply N.mod_lt; lia|].
  assert (D : days_to (Z.to_N y) (Z.to_N m) (Z.to_N d) = v / 86400).
  { apply N2Z.inj. rewrite days_to_ok by lia. rewrite !Z2N.id by lia. lia. }
  rewrite D.
  assert (S3 : s = 3600 * (s / 3600) + 60 * (s / 60 mod 60) + s mod 60).
  { replace (s / 3600) with (s / 60 / 60) by (rewrite N.div_div by lia; reflexivity).
    pose proof (N.div_mod' s 60). pose proof (N.div_mod' (s / 60) 60). lia. }
  lia.
Qed.

(** gmtime_r up to the year 9999, in terms of the specification. *)
Lemma gmtime_ok : forall v, v < 253402300800 ->
  exists y mo d h mi se,
    gmtime_r (to_time_t v) = Some {| tm_sec := Z.of_N se; tm_min := Z.of_N mi; tm_hour := Z.of_N h;
      tm_mday := Z.of_N d; tm_mon := Z.of_N mo - 1; tm_year := Z.of_N y - 1900 |} /\
    1970 <= y <= 9999 /\ 1 <= mo <= 12 /\ 1 <= d <= nth (N.to_nat (mo - 1)) (month_lengths y) 0 /\
    h < 24 /\ mi < 60 /\ se < 60 /\
    v = 86400 * days_to y mo d + 3600 * h + 60 * mi + se.
Proof.
  intros v H. destruct (gmtime_any v) as (y & mo & d & h & mi & se & G & ((Y1 & Y2) & Y3) & R); [lia|].
  exists y, mo, d, h, mi, se. split; [exact G|]. split; [split; [exact Y1|exact (Y3 H)]|exact R].
Qed.

(** ** The text *)

Lemma put_digits_ok : forall k n pre post,
  put_digits (S k) (length pre) n (pre ++ repeat 48 (S k) ++ post) = Ok (pre ++ digits (S k) n ++ post).
Proof.
  induction k as [|k IH]; intros n pre post.
  - cbn [put_digits repeat app]. rewrite (wr_at pre 48 post) by lia. cbn [bind digits app].
    destruct (n / 10 =? 0); reflexivity.
  - change (put_digits (S (S k)) (length pre) n (pre ++ repeat 48 (S (S k)) ++ post))
      with (let* dst := wr (pre ++ repeat 48 (S (S k)) ++ post) (length pre + S k) (48 + n mod 10) in
            if n / 10 =? 0 then Ok dst else put_digits (S k) (length pre) (n / 10) dst).
    replace (pre ++ repeat 48 (S (S k)) ++ post) with ((pre ++ repeat 48 (S k)) ++ 48 :: post).
    2: { replace (S (S k)) with (S k + 1)%nat by lia. rewrite repeat_app, <- !app_assoc. reflexivity. }
    rewrite wr_at by (rewrite app_length, repeat_length; reflexivity). cbn [bind].
    change (digits (S (S k)) n) with (digits (S k) (n / 10) ++ [48 + n mod 10]).
    destruct (n / 10 =? 0) eqn:E.
    + apply N.eqb_eq in E. rewrite E, digits_0. rewrite <- !app_assoc. reflexivity.
    + rewrite <- app_assoc, IH, <- !app_assoc. reflexivity.
Qed.

(** One field and the separator after it. *)
Lemma field_ok : forall k n pre x c post,
  (let* dst := my_uint64_to_str n (pre ++ repeat 48 (S k) ++ x :: post) (length pre) (S (S k)) in
   wr dst (length pre + S k) c) = Ok (pre ++ digits (S k) n ++ c :: post).
Proof.
  intros k n pre x c post. unfold my_uint64_to_str.
  replace (S (S k) - 1)%nat with (S k) by lia.
  rewrite app_assoc, wr_at by (rewrite app_length, repeat_length; reflexivity). cbn [bind].
  rewrite <- app_assoc, put_digits_ok. cbn [bind].
  rewrite app_assoc, wr_at by (rewrite app_length, digits_length; reflexivity). rewrite <- app_assoc. reflexivity.
Qed.

Lemma bind_field : forall {B} k n pre x c post off size at_ (g : bytes -> res B),
  off = length pre -> size = S (S k) -> at_ = (length pre + S k)%nat ->
  (let* dst := my_uint64_to_str n (pre ++ repeat 48 (S k) ++ x :: post) off size in
   let* dst := wr dst at_ c in g dst) = g (pre ++ digits (S k) n ++ c :: post).
Proof.
  intros B k n pre x c post off size at_ g -> -> ->. pose proof (field_ok k n pre x c post) as H.
  destruct (my_uint64_to_str n (pre ++ repeat 48 (S k) ++ x :: post) (length pre) (S (S k))) as [dst| | | |]; try discriminate.
  cbn [bind] in *. rewrite H. reflexivity.
Qed.

Lemma to_uint64_small : forall n, n < u64 -> to_uint64 (Z.of_N n) = n.
Proof. intros n H. unfold to_uint64, u64 in *. rewrite Z.mod_small by lia. lia. Qed.

Lemma fmt_rfc3339_ok : forall r, (1900 + tm_year r <= 2147483647)%Z ->
  fmt_rfc3339 r (str "0000-00-00T00:00:00Z" ++ [0]) =
  Ok (digits 4 (to_uint64 (1900 + tm_year r)) ++ [45] ++ digits 2 (to_uint64 (1 + tm_mon r)) ++ [45] ++
      digits 2 (to_uint64 (tm_mday r)) ++ [84] ++ digits 2 (to_uint64 (tm_hour r)) ++ [58] ++
      digits 2 (to_uint64 (tm_min r)) ++ [58] ++ digits 2 (to_uint64 (tm_sec r)) ++ [90; 0]).
Proof.
  intros r H. unfold fmt_rfc3339. destruct (2147483647 <? 1900 + tm_year r)%Z eqn:E; [lia|]. clear E H.
  generalize (to_uint64 (1900 + tm_year r)) (to_uint64 (1 + tm_mon r)) (to_uint64 (tm_mday r))
    (to_uint64 (tm_hour r)) (to_uint64 (tm_min r)) (to_uint64 (tm_sec r)).
  clear r. intros y mo d h mi se.
  change (str "0000-00-00T00:00:00Z" ++ [0]) with
    ([] ++ repeat 48 4 ++ 45 :: repeat 48 2 ++ 45 :: repeat 48 2 ++ 84 :: repeat 48 2 ++ 58 :: repeat 48 2 ++ 58 :: repeat 48 2 ++ [90; 0]).
  rewrite bind_field by reflexivity.
  match goal with |- context [my_uint64_to_str mo ?b] =>
    replace b with ((digits 4 y ++ [45]) ++ repeat 48 2 ++ 45 :: repeat 48 2 ++ 84 :: repeat 48 2 ++ 58 :: repeat 48 2 ++ 58 :: repeat 48 2 ++ [90; 0])
      by (rewrite <- app_assoc; reflexivity) end.
  rewrite bind_field by (rewrite ?app_length, ?digits_length; reflexivity).
  match goal with |- context [my_uint64_to_str d ?b] =>
    replace b with (((digits 4 y ++ [45]) ++ digits 2 mo ++ [45]) ++ repeat 48 2 ++ 84 :: repeat 48 2 ++ 58 :: repeat 48 2 ++ 58 :: repeat 48 2 ++ [90; 0])
      by (rewrite <- !app_assoc; reflexivity) end.
  rewrite bind_field by (rewrite ?app_length, ?digits_length; reflexivity).
  match goal with |- context [my_uint64_to_str h ?b] =>
    replace b with ((((digits 4 y ++ [45]) ++ digits 2 mo ++ [45]) ++ digits 2 d ++ [84]) ++ repeat 48 2 ++ 58 :: repeat 48 2 ++ 58 :: repeat 48 2 ++ [90; 0])
      by (rewrite <- !app_assoc; reflexivity) end.
  rewrite bind_field by (rewrite ?app_length, ?digits_length; reflexivity).
  match goal with |- context [my_uint64_to_str mi ?b] =>
    replace b with (((((digits 4 y ++ [45]) ++ digits 2 mo ++ [45]) ++ digits 2 d ++ [84]) ++ digits 2 h ++ [58]) ++ repeat 48 2 ++ 58 :: repeat 48 2 ++ [90; 0])
      by (rewrite <- !app_assoc; reflexivity) end.
  rewrite bind_field by (rewrite ?app_length, ?digits_length; reflexivity).
  match goal with |- context [my_uint64_to_str se ?b] =>
    replace b with ((((((digits 4 y ++ [45]) ++ digits 2 mo ++ [45]) ++ digits 2 d ++ [84]) ++ digits 2 h ++ [58]) ++ digits 2 mi ++ [58]) ++ repeat 48 2 ++ 90 :: [0])
      by (rewrite <- !app_assoc; reflexivity) end.
  set (pre := (((((digits 4 y ++ [45]) ++ digits 2 mo ++ [45]) ++ digits 2 d ++ [84]) ++ digits 2 h ++ [58]) ++ digits 2 mi ++ [58])).
  assert (L : length pre = 17%nat) by (unfold pre; rewrite ?app_length, ?digits_length; reflexivity).
  pose proof (field_ok 1 se pre 90 90 [0]) as F. rewrite L in F.
  change (17 + 2)%nat with 19%nat in F. rewrite F. unfold pre. rewrite <- !app_assoc. reflexivity.
Qed.

(** Before the year 10000, the timestamp denotes the second. *)
Lemma rfc3339_ts_ok : forall v, v < 253402300800 -> exists s, rfc3339_ts v = Ok s /\ rfc3339 s v /\ one_line s.
Proof.
  intros v H. destruct (gmtime_ok v H) as (y & mo & d & h & mi & se & G & Hy & Hm & Hd & Hh & Hmi & Hse & V).
  unfold rfc3339_ts. rewrite G. rewrite fmt_rfc3339_ok by (cbn [tm_year]; lia).
  cbn [bind tm_sec tm_min tm_hour tm_mday tm_mon tm_year].
  replace (1900 + (Z.of_N y - 1900))%Z with (Z.of_N y) by lia.
  replace (1 + (Z.of_N mo - 1))%Z with (Z.of_N mo) by lia.
  assert (Hd31 : d <= 31).
  { destruct Hd as [_ Hd]. etransitivity; [exact Hd|].
    unfold month_lengths. assert (C : mo - 1 < 12) by lia. clear -C.
    assert (X : (N.to_nat (mo - 1) < 12)%nat) by lia. revert X. generalize (N.to_nat (mo - 1)) as i. clear.
    intros i X. destruct (leap y); do 12 (destruct i as [|i]; [cbn [nth]; lia|]); lia. }
  rewrite !to_uint64_small by (unfold u64; lia).
  exists (digits 4 y ++ [45] ++ digits 2 mo ++ [45] ++ digits 2 d ++ [84] ++ digits 2 h ++ [58] ++ digits 2 mi ++ [58] ++ digits 2 se ++ [90]).
  split.
  { reflexivity. }
  split.
  - exists y, mo, d, h, mi, se, (digits 4 y), (digits 2 mo), (digits 2 d), (digits 2 h), (digits 2 mi), (digits 2 se).
    split; [exact Hy|]. split; [exact Hm|]. split; [exact Hd|]. split; [exact Hh|]. split; [exact Hmi|]. split; [exact Hse|].
    split; [apply decimal_digits_padded; change (10 ^ N.of_nat 4) with 10000; lia|].
    do 5 (split; [apply decimal_digits_padded; change (10 ^ N.of_nat 2) with 100; lia|]).
    split; [reflexivity|exact V].
  - assert (D : forall k n, one_line (digits k n)).
    { intros k n. unfold one_line. eapply Forall_impl; [|apply digits_ok]. cbv beta. unfold digit. intros; lia. }
    assert (S1 : forall c, 32 <= c -> one_line [c]) by (intros c Hc; constructor; [exact Hc|constructor]).
    repeat (apply one_line_app; [first [apply D|apply S1; lia]|]). apply S1. lia.
Qed.
