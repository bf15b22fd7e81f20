(** Proofs about the times dnstable_lookup takes as arguments. *)
From Verif Require Import Str BaseFacts ModelSetters ModelFormat ModelLookup SpecFormat SpecTimeArg CalendarProofs TimeProofs.

Lemma digit_isdigit : forall c, digit c -> isdigit c = true.
Proof. unfold digit, isdigit. intros. lia. Qed.
Lemma digit_not_space : forall c, digit c -> isspace c = false.
Proof. unfold digit, isspace. intros. lia. Qed.

(** ** Numbers *)

Definition value_from (v : N) (s : bytes) : N := fold_left (fun v c => 10 * v + (c - 48)) s v.
Lemma value_from_ge : forall s v, v <= value_from v s.
Proof.
  induction s as [|c s IH]; intro v; [cbn; lia|]. specialize (IH (10 * v + (c - 48))). unfold value_from in *. cbn [fold_left]. lia.
Qed.

Lemma more_digits_ok : forall s to v r, Forall digit s -> value_from v s <= to -> more_digits (length s) to v (s ++ r) = (value_from v s, r).
Proof.
  induction s as [|c s IH]; intros to v r F H.
  - destruct r; reflexivity.
  - inversion F as [|? ? D F']; subst. cbn [app length more_digits]. rewrite (digit_isdigit c D).
    cbn [value_from fold_left] in H. pose proof (value_from_ge s (10 * v + (c - 48))) as G. unfold value_from in G.
    assert (10 * v <=? to = true) as -> by lia. cbn [andb]. rewrite IH; auto.
Qed.
Lemma get_number_ok : forall from to k n t r, padded k n t -> (0 < k)%nat -> from <= n <= to -> get_number from to k (t ++ r) = Some (n, r).
Proof.
  intros from to k n t r (F & L & V) HK HN. destruct t as [|c t]; [cbn in L; lia|]. inversion F as [|? ? D F']; subst.
  unfold get_number. cbn [app skip_blanks length]. assert (c =? 32 = false) as -> by (unfold digit in D; lia). rewrite (digit_isdigit c D).
  replace (S (length t) - 1)%nat with (length t) by lia.
  assert (E : decimal_value (c :: t) = value_from (c - 48) t) by reflexivity.
  rewrite (more_digits_ok t to (c - 48) r F') by (rewrite <- E; lia). rewrite <- E.
  assert ((from <=? decimal_value (c :: t)) && (decimal_value (c :: t) <=? to) = true) as -> by lia. reflexivity.
Qed.

Lemma digits_prefix_ok : forall s v r, Forall digit s -> starts_digit r = false -> digits_prefix v (s ++ r) = (value_from v s, r).
Proof.
  induction s as [|c s IH]; intros v r F H.
  - cbn [app]. destruct r as [|c r]; [reflexivity|]. cbn in H. cbn. rewrite H. reflexivity.
  - inversion F as [|? ? D F']; subst. cbn [app digits_prefix]. rewrite (digit_isdigit c D). apply IH; assumption.
Qed.
Lemma unsigned : forall (l : bytes) c r, l = c :: r -> digit c ->
  match l with 45 :: r0 => (true, r0) | 43 :: r0 => (false, r0) | _ => (false, l) end = (false, l).
Proof.
  intros l c r -> D. unfold digit in D. destruct c as [|p]; [reflexivity|]. do 6 (destruct p as [p|p|]; try reflexivity; try lia).
Qed.
Lemma strtoll_ok : forall s n r, number s n -> n < 9223372036854775808 -> starts_digit r = false -> strtoll (s ++ r) = (Z.of_N n, r).
Proof.
  intros s n r (F & NE & V) HN HR. destruct s as [|c s]; [contradiction|]. inversion F as [|? ? D F']; subst.
  assert (SK : skip_space ((c :: s) ++ r) = (c :: s) ++ r) by (cbn [app skip_space]; rewrite (digit_not_space c D); reflexivity).
  unfold strtoll. rewrite SK, (unsigned ((c :: s) ++ r) c (s ++ r) eq_refl D).
  assert (starts_digit ((c :: s) ++ r) = true) as -> by (cbn; apply digit_isdigit; exact D). rewrite (digits_prefix_ok (c :: s) 0 r F HR).
  f_equal. change (value_from 0 (c :: s)) with (decimal_value (c :: s)). lia.
Qed.
Lemma strtoll_minus : forall s n, number s n -> n < 9223372036854775808 -> strtoll (45 :: s) = ((- Z.of_N n)%Z, []).
Proof.
  intros s n (F & NE & V) HN. destruct s as [|c s]; [contradiction|]. inversion F as [|? ? D F']; subst.
  unfold strtoll. cbn [skip_space]. change (isspace 45) with false. cbn iota. cbn [starts_digit]. rewrite (digit_isdigit c D).
  pose proof (digits_prefix_ok (c :: s) 0 [] F eq_refl) as E. rewrite app_nil_r in E. rewrite E. f_equal.
  change (value_from 0 (c :: s)) with (decimal_value (c :: s)). lia.
Qed.

(** ** Dates *)

Definition civil_year (y : Z) : Z := (365 * y + y / 4 - y / 100 + y / 400)%Z.
Lemma era_split : forall y, (y / 400 * 146097 + (y mod 400 * 365 + y mod 400 / 4 - y mod 400 / 100) = civil_year y)%Z.
Proof.
  intro y. unfold civil_year. pose proof (Z.div_mod y 400 ltac:(lia)) as E. pose proof (Z.mod_pos_bound y 400 ltac:(lia)) as B.
  set (e := (y / 400)%Z) in *. set (k := (y mod 400)%Z) in *. clearbody e k.
  assert (A1 : (y / 4 = 100 * e + k / 4)%Z) by (rewrite E; replace (400 * e + k)%Z with (k + (100 * e) * 4)%Z by lia; rewrite Z.div_add by lia; lia).
  assert (A2 : (y / 100 = 4 * e + k / 100)%Z) by (rewrite E; replace (400 * e + k)%Z with (k + (4 * e) * 100)%Z by lia; rewrite Z.div_add by lia; lia).
  rewrite A1, A2. lia.
Qed.
Lemma year_days_civil : forall y, (year_days y = civil_year (y - 1) + 366)%Z.
Proof.
  intro y. unfold year_days, civil_year.
  replace (y + 3)%Z with (y - 1 + 1 * 4)%Z by lia. replace (y + 99)%Z with (y - 1 + 1 * 100)%Z by lia. replace (y + 399)%Z with (y - 1 + 1 * 400)%Z by lia.
  rewrite !Z.div_add by lia. lia.
Qed.
Lemma days_civil_ok : forall y m d, (1 <= m <= 12)%Z -> days_civil y m d = (day_number y m d - 719529)%Z.
Proof.
  intros y m d Hm.
  assert (Y2 : (civil_year y = year_days y + (if zleap y then 0 else -1))%Z).
  { pose proof (year_days_step y) as S. rewrite (year_days_civil (y + 1)) in S. replace (y + 1 - 1)%Z with y in S by lia. destruct (zleap y); lia. }
  pose proof (year_days_civil y) as Y1.
  assert (C : (m = 1 \/ m = 2 \/ m = 3 \/ m = 4 \/ m = 5 \/ m = 6 \/ m = 7 \/ m = 8 \/ m = 9 \/ m = 10 \/ m = 11 \/ m = 12)%Z) by lia.
  unfold days_civil, day_number.
  destruct C as [-> |[-> |[-> |[-> |[-> |[-> |[-> |[-> |[-> |[-> |[-> | ->]]]]]]]]]]];
    (match goal with |- context [month_days ?l ?m] => let f := constr:(month_days l m) in let g := eval vm_compute in (month_days false m) in
       rewrite (month_days_leap l m); change (month_days false m) with g end);
    (match goal with |- context [(?a <=? 2)%Z] => let b := eval vm_compute in (a <=? 2)%Z in change (a <=? 2)%Z with b end); cbn iota;
    (match goal with |- context [((?a / 5)%Z)] => let b := eval vm_compute in (a / 5)%Z in change (a / 5)%Z with b end);
    (match goal with |- context [(2 <? ?a)%Z] => let b := eval vm_compute in (2 <? a)%Z in change (2 <? a)%Z with b end); cbn [andb].
  1, 2: pose proof (era_split (y - 1)) as ES; lia.
  all: pose proof (era_split y) as ES; destruct (zleap y); lia.
Qed.
Lemma timegm_ok : forall y mo d h mi se, 1970 <= y -> 1 <= mo <= 12 -> 1 <= d ->
  timegm (y, mo, d) (h, mi, se) = Z.of_N (86400 * days_to y mo d + (3600 * h + 60 * mi + se)).
Proof.
  intros y mo d h mi se Hy Hm Hd. unfold timegm. rewrite days_civil_ok by lia. rewrite <- (days_to_ok y mo d Hy Hm Hd). lia.
Qed.

Lemma literal_ok : forall c r, literal c (c :: r) = Some r.
Proof. intros. unfold literal. rewrite N.eqb_refl. reflexivity. Qed.

Lemma month_lengths_le : forall y k, nth k (month_lengths y) 0 <= 31.
Proof. intros y k. unfold month_lengths. do 12 (destruct k as [|k]; [cbn; destruct (leap y); lia|]). cbn. destruct k; lia. Qed.

Lemma date_ok : forall s v r, date_form s v -> exists y mo d, strptime_F (s ++ r) = Some (y, mo, d, r) /\
  forall h mi se, timegm (y, mo, d) (h, mi, se) = Z.of_N (v + (3600 * h + 60 * mi + se)).
Proof.
  intros s v r (y & mo & d & ty & tmo & td & Hy & Hm & Hd & P1 & P2 & P3 & -> & ->). exists y, mo, d. split; [|intros; apply timegm_ok; lia].
  pose proof (month_lengths_le y (N.to_nat (mo - 1))).
  unfold strptime_F. change (str "-") with [45]. rewrite <- !app_assoc. cbn [app].
  rewrite (get_number_ok _ _ _ _ _ _ P1) by lia. rewrite literal_ok.
  rewrite (get_number_ok _ _ _ _ _ _ P2) by lia. rewrite literal_ok.
  rewrite (get_number_ok _ _ _ _ _ _ P3) by lia. reflexivity.
Qed.
Lemma clock_form_ok : forall s v r, clock_form s v -> exists h mi se, strptime_T (s ++ r) = Some (h, mi, se, r) /\ v = 3600 * h + 60 * mi + se.
Proof.
  intros s v r (h & mi & se & th & tmi & tse & H1 & H2 & H3 & P1 & P2 & P3 & -> & ->). exists h, mi, se. split; [|reflexivity].
  unfold strptime_T. change (str ":") with [58]. rewrite <- !app_assoc. cbn [app].
  rewrite (get_number_ok _ _ _ _ _ _ P1) by lia. rewrite literal_ok.
  rewrite (get_number_ok _ _ _ _ _ _ P2) by lia. rewrite literal_ok.
  rewrite (get_number_ok _ _ _ _ _ _ P3) by lia. reflexivity.
Qed.
Lemma clock_first : forall s v, clock_form s v -> exists c r, s = c :: r /\ digit c.
Proof.
  intros s v (h & mi & se & th & tmi & tse & _ & _ & _ & (F & L & _) & _ & _ & -> & _). destruct th as [|c th]; [discriminate L|].
  inversion F; subst. eexists. eexists. split; [reflexivity|assumption].
Qed.

Lemma date_bound : forall s v, date_form s v -> v < 253402300800.
Proof.
  intros s v (y & mo & d & ty & tmo & td & Hy & Hm & Hd & _ & _ & _ & _ & ->).
  pose proof (days_to_ok y mo d ltac:(lia) Hm ltac:(lia)) as E. unfold day_number in E.
  pose proof (month_len_ok y mo Hm) as ML. rewrite <- leap_z in ML.
  pose proof (month_days_bounds (zleap (Z.of_N y)) (Z.of_N mo) (Z.of_N d) ltac:(lia) ltac:(lia)) as MB.
  pose proof (year_days_step (Z.of_N y)) as S. pose proof (year_days_mono (Z.of_N y + 1) 10000 ltac:(lia)) as M. rewrite year_days_10000 in M.
  destruct (zleap (Z.of_N y)); lia.
Qed.
Lemma clock_bound : forall s v, clock_form s v -> v < 86400.
Proof. intros s v (h & mi & se & th & tmi & tse & H1 & H2 & H3 & _ & _ & _ & _ & ->). lia. Qed.

Lemma parse_date_ok : forall s v, date_form s v -> parse_date s = Some (Z.of_N v).
Proof.
  intros s v H. destruct (date_ok s v [] H) as (y & mo & d & E & T). rewrite app_nil_r in E. unfold parse_date. rewrite E, T. do 2 f_equal. lia.
Qed.
Lemma parse_date_time : forall s v t x, date_form s v -> clock_form t x -> parse_date (s ++ str " " ++ t) = Some (Z.of_N (v + x)).
Proof.
  intros s v t x H HC. destruct (date_ok s v (str " " ++ t) H) as (y & mo & d & E & T). unfold parse_date. rewrite E. change (str " " ++ t) with (32 :: t). cbn iota.
  destruct (clock_first t x HC) as (c & r & Ec & Hc).
  assert (SK : skip_space (32 :: t) = t). { cbn [skip_space]. change (isspace 32) with true. cbn iota. rewrite Ec. cbn [skip_space]. rewrite (digit_not_space c Hc). reflexivity. }
  rewrite SK. destruct (clock_form_ok t x [] HC) as (h & mi & se & E2 & ->). rewrite app_nil_r in E2. rewrite E2, T. reflexivity.
Qed.
Lemma not_a_time : forall r, strptime_T (84 :: r) = None.
Proof. reflexivity. Qed.
Lemma parse_date_T : forall s v t x z, date_form s v -> clock_form t x -> z = [] \/ z = str "Z" -> parse_date (s ++ str "T" ++ t ++ z) = Some (Z.of_N (v + x)).
Proof.
  intros s v t x z H HC HZ. destruct (date_ok s v (str "T" ++ t ++ z) H) as (y & mo & d & E & T). unfold parse_date. rewrite E. change (str "T" ++ t ++ z) with (84 :: t ++ z). cbn iota.
  change (skip_space (84 :: t ++ z)) with (84 :: t ++ z). rewrite not_a_time, literal_ok.
  destruct (clock_form_ok t x z HC) as (h & mi & se & E2 & ->). rewrite E2, T. destruct HZ as [-> | ->]; reflexivity.
Qed.

(** Strings without "-" behind the first character are no dates. *)
Lemma skip_blanks_in : forall s c, In c (skip_blanks s) -> In c s.
Proof. induction s as [|x s IH]; intros c H; [exact H|]. cbn in H. destruct (x =? 32); [right; apply IH; exact H|exact H]. Qed.
Lemma more_digits_in : forall n to v s c, In c (snd (more_digits n to v s)) -> In c s.
Proof.
  induction n as [|n IH]; intros to v s c H; [exact H|]. destruct s as [|x s]; [exact H|]. cbn in H. destruct (_ && _); [right; eapply IH; exact H|exact H].
Qed.
Lemma get_number_in : forall from to n s v r c, get_number from to n s = Some (v, r) -> In c r -> In c s.
Proof.
  intros from to n s v r c E H. unfold get_number in E. apply skip_blanks_in. destruct (skip_blanks s) as [|x q]; [discriminate|].
  destruct (isdigit x); [|discriminate]. destruct (more_digits (n - 1) to (x - 48) q) as [v' r'] eqn:EM. destruct (_ && _); [|discriminate].
  injection E as <- <-. right. apply (more_digits_in (n - 1) to (x - 48)). rewrite EM. exact H.
Qed.
Lemma no_dash : forall s, ~ In 45 s -> parse_date s = None.
Proof.
  intros s H. unfold parse_date, strptime_F. destruct (get_number 0 9999 4 s) as [[y r]|] eqn:E; [|reflexivity].
  destruct r as [|c r]; [reflexivity|]. cbn [literal]. destruct (N.eqb_spec c 45) as [->|]; [|reflexivity].
  contradiction H. eapply get_number_in; [exact E|left; reflexivity].
Qed.

(** ** Durations *)

Lemma ll_ok : forall z, (0 <= z < 9223372036854775808)%Z -> ll z = Ok z.
Proof. intros z H. unfold ll. assert ((-9223372036854775808 <=? z) && (z <=? 9223372036854775807) = true)%Z as -> by lia. reflexivity. Qed.

Lemma unit_ok : forall u k n, In (u, k) units -> 0 < n -> n * k < 9223372036854775808 ->
  exists c, u = [c] /\ isdigit c = false /\ c <> 45 /\ unit_seconds (Some c) (Z.of_N n) = Ok (Z.of_N (n * k)).
Proof.
  intros u k n H HN HB. unfold units in H.
  repeat (destruct H as [H|H]; [injection H as <- <-; eexists; (split; [reflexivity|]); (split; [reflexivity|]); (split; [discriminate|])|]); [..|destruct H].
  all: unfold unit_seconds; cbn -[ll Z.mul Z.of_N N.mul]; repeat (rewrite ll_ok by lia; cbn [bind]); try (f_equal; lia).
Qed.

Lemma number_digits : forall s n, number s n -> ~ In 45 s /\ starts_digit s = true.
Proof.
  intros s n (F & NE & _). split.
  - intro H. rewrite Forall_forall in F. specialize (F 45 H). unfold digit in F. lia.
  - destruct s as [|c s]; [contradiction|]. inversion F; subst. apply digit_isdigit. assumption.
Qed.
Lemma duration_digits : forall s n, duration s n -> ~ In 45 s /\ s <> [].
Proof.
  assert (U : forall (u : bytes) k, In (u, k) units -> ~ In 45 u).
  { intros u k H. unfold units in H. repeat (destruct H as [H|H]; [injection H as <- <-; cbn; lia|]); destruct H. }
  assert (NE : forall s n t, number s n -> s ++ t <> []) by (intros s n t (_ & A & _) B; apply app_eq_nil in B; tauto).
  intros s n H. induction H as [s n u k H1 _ HU|s n u k r v H1 _ HU HD IH|s n u k s' n' H1 _ HU H2 _]; split; try (eapply NE; eassumption).
  - rewrite in_app_iff. intros [A|A]; [eapply number_digits; eassumption|eapply U; eassumption].
  - rewrite !in_app_iff. intros [A|[A|A]]; [eapply number_digits; eassumption|eapply U; eassumption|apply (proj1 IH); exact A].
  - rewrite !in_app_iff. intros [A|[A|A]]; [exact (proj1 (number_digits _ _ H1) A)|eapply U; eassumption|exact (proj1 (number_digits _ _ H2) A)].
Qed.

Lemma unit_pos : forall u k, In (u, k) units -> 1 <= k.
Proof. intros u k H. unfold units in H. repeat (destruct H as [H|H]; [injection H as <- <-; lia|]); destruct H. Qed.

Lemma step_unit : forall s n u k r fuel total, number s n -> 0 < n -> In (u, k) units -> total + n * k < 9223372036854775808 ->
  relative (S fuel) (s ++ u ++ r) (Z.of_N total) = relative fuel r (Z.of_N (total + n * k)).
Proof.
  intros s n u k r fuel total HS HN HU HB. pose proof (unit_pos u k HU). 
  assert (N1 : n <= n * k) by nia. destruct (unit_ok u k n HU HN ltac:(lia)) as (c & -> & DC & _ & EU).
  assert (E : strtoll (s ++ [c] ++ r) = (Z.of_N n, [c] ++ r)) by (apply strtoll_ok; [exact HS|lia|exact DC]).
  cbn [relative]. destruct (s ++ [c] ++ r) as [|x q] eqn:EQ. { destruct HS as (_ & NE & _). apply app_eq_nil in EQ. tauto. }
  rewrite E. assert (Z.of_N n <=? 0 = false)%Z as -> by lia. cbn [app hd_error tl]. rewrite EU. rewrite ll_ok by lia. cbn [bind]. f_equal. lia.
Qed.
Lemma step_plain : forall s n fuel total, number s n -> 0 < n -> total + n < 9223372036854775808 ->
  relative (S fuel) s (Z.of_N total) = Ok (Some (Z.of_N (total + n))).
Proof.
  intros s n fuel total HS HN HB. assert (E : strtoll (s ++ []) = (Z.of_N n, [])) by (apply strtoll_ok; [exact HS|lia|reflexivity]). rewrite app_nil_r in E.
  cbn [relative]. destruct s as [|x q] eqn:EQ. { destruct HS as (_ & NE & _). contradiction. }
  rewrite E. assert (Z.of_N n <=? 0 = false)%Z as -> by lia. cbn [hd_error tl unit_seconds]. rewrite ll_ok by lia. cbn [bind].
  replace (Z.of_N total + Z.of_N n)%Z with (Z.of_N (total + n)) by lia. destruct fuel; reflexivity.
Qed.
Lemma relative_ok : forall s n, duration s n -> forall fuel total, (length s <= fuel)%nat -> total + n < 9223372036854775808 ->
  relative fuel s (Z.of_N total) = Ok (Some (Z.of_N (total + n))).
Proof.
  assert (NL : forall s n, number s n -> (1 <= length s)%nat) by (intros s n (_ & NE & _); destruct s; [contradiction|cbn; lia]).
  assert (UL : forall u k, In (u, k) units -> length u = 1%nat).
  { intros u k H. unfold units in H. repeat (destruct H as [H|H]; [injection H as <- <-; reflexivity|]); destruct H. }
  intros s n H. induction H as [s n u k H1 P1 HU|s n u k r v H1 P1 HU HD IH|s n u k s' n' H1 P1 HU H2 P2]; intros fuel total HL HB;
    rewrite ?app_length, ?(UL _ _ HU) in HL; pose proof (NL _ _ H1); destruct fuel as [|fuel]; try lia.
  - pose proof (step_unit s n u k [] fuel total H1 P1 HU HB) as E. rewrite app_nil_r in E. rewrite E. destruct fuel; reflexivity.
  - rewrite (step_unit s n u k r fuel total H1 P1 HU) by lia. rewrite (IH fuel (total + n * k)) by lia. do 3 f_equal. lia.
  - rewrite (step_unit s n u k s' fuel total H1 P1 HU) by lia. destruct fuel as [|fuel]; [lia|]. rewrite (step_plain s' n' fuel) by (auto; lia). do 3 f_equal. lia.
Qed.

Lemma first_number : forall s n, duration s n -> n < 9223372036854775808 -> exists m c r, strtoll s = (m, c :: r).
Proof.
  assert (G : forall s n u k r, number s n -> In (u, k) units -> 0 < n -> n * k < 9223372036854775808 -> exists m c r', strtoll (s ++ u ++ r) = (m, c :: r')).
  { intros s n u k r HS HU HN HB. pose proof (unit_pos u k HU). assert (n <= n * k) by nia.
    destruct (unit_ok u k n HU HN HB) as (c & -> & DC & _ & _).
    exists (Z.of_N n), c, r. apply strtoll_ok; [exact HS|lia|exact DC]. }
  intros s n [s' n' u k H1 P1 HU|s' n' u k r v H1 P1 HU HD|s' n' u k s2 n2 H1 P1 HU H2 P2] HB.
  - destruct (G s' n' u k [] H1 HU P1 HB) as (m & c & r & E). rewrite app_nil_r in E. eauto.
  - eapply G; eauto. lia.
  - eapply G; eauto. lia.
Qed.

(** ** All forms *)

Lemma parse_time_ok : forall now s v, now < 9223372036854775808 -> time_arg now s v -> parse_time (Z.of_N now) s = Ok v.
Proof.
  intros now s v HN H. unfold parse_time. destruct H as [s v H|s v t x H HC|s v t x H HC|s v t x H HC|s n H HB|s n H HB HP|s n H HB].
  - rewrite (parse_date_ok s v H). pose proof (date_bound s v H). f_equal. apply to_uint64_small. unfold u64. lia.
  - rewrite (parse_date_time s v t x H HC). pose proof (date_bound s v H). pose proof (clock_bound t x HC). f_equal. apply to_uint64_small. unfold u64. lia.
  - pose proof (parse_date_T s v t x [] H HC (or_introl eq_refl)) as E. rewrite app_nil_r in E. rewrite E.
    pose proof (date_bound s v H). pose proof (clock_bound t x HC). f_equal. apply to_uint64_small. unfold u64. lia.
  - rewrite (parse_date_T s v t x (str "Z") H HC (or_intror eq_refl)). pose proof (date_bound s v H). pose proof (clock_bound t x HC). f_equal. apply to_uint64_small. unfold u64. lia.
  - destruct (number_digits s n H) as (ND & _). rewrite (no_dash s ND).
    pose proof (strtoll_ok s n [] H HB eq_refl) as E. rewrite app_nil_r in E. rewrite E. assert (Z.of_N n <? 0 = false)%Z as -> by lia. f_equal. apply to_uint64_small. unfold u64. lia.
  - change (str "-" ++ s) with (45 :: s). change (parse_date (45 :: s)) with (@None Z). cbn iota. rewrite (strtoll_minus s n H) by lia.
    assert (- Z.of_N n <? 0 = true)%Z as -> by lia. rewrite ll_ok by lia. cbn [bind]. assert (- Z.of_N n + Z.of_N now <? 0 = false)%Z as -> by lia.
    f_equal. replace (- Z.of_N n + Z.of_N now)%Z with (Z.of_N (now - n)) by lia. apply to_uint64_small. unfold u64. lia.
  - destruct (duration_digits s n H) as (ND & NE). rewrite (no_dash s ND). destruct (first_number s n H ltac:(lia)) as (m & c & r & E). rewrite E.
    pose proof (relative_ok s n H (S (length s)) 0 ltac:(lia) ltac:(lia)) as R. change (Z.of_N 0) with 0%Z in R. rewrite R. cbn [bind].
    assert (Z.of_N now <? Z.of_N (0 + n) = false)%Z as -> by lia. f_equal.
    replace (Z.of_N now - Z.of_N (0 + n))%Z with (Z.of_N (now - n)) by lia. apply to_uint64_small. unfold u64. lia.
Qed.
(** Times before 1970. *)
Lemma parse_time_negative : forall now s n, now < 9223372036854775808 ->
  (exists d, s = str "-" ++ d /\ number d n /\ n < 9223372036854775808) \/ (duration s n /\ n < 9223372036854775808) -> now < n -> parse_time (Z.of_N now) s = Ok 0.
Proof.
  intros now s n HN H HB. unfold parse_time. destruct H as [(d & -> & H & HS)|(H & HS)].
  - change (str "-" ++ d) with (45 :: d). change (parse_date (45 :: d)) with (@None Z). cbn iota. rewrite (strtoll_minus d n H) by lia.
    assert (- Z.of_N n <? 0 = true)%Z as -> by lia.
    assert (L : ll (- Z.of_N n + Z.of_N now) = Ok (- Z.of_N n + Z.of_N now)%Z).
    { unfold ll. assert ((-9223372036854775808 <=? - Z.of_N n + Z.of_N now) && (- Z.of_N n + Z.of_N now <=? 9223372036854775807) = true)%Z as -> by lia. reflexivity. }
    rewrite L. cbn [bind]. assert (- Z.of_N n + Z.of_N now <? 0 = true)%Z as -> by lia. reflexivity.
  - destruct (duration_digits s n H) as (ND & NE). rewrite (no_dash s ND). destruct (first_number s n H HS) as (m & c & r & E). rewrite E.
    pose proof (relative_ok s n H (S (length s)) 0 ltac:(lia) ltac:(lia)) as R. change (Z.of_N 0) with 0%Z in R. rewrite R. cbn [bind].
    assert (Z.of_N now <? Z.of_N (0 + n) = true)%Z as -> by lia. reflexivity.
Qed.
