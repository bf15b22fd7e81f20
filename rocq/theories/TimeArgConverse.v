(** What dnstable_lookup takes as a time: only strings of the forms in SpecTimeArg. *)
From Verif Require Import Str BaseFacts ModelSetters ModelFormat ModelLookup SpecFormat SpecTimeArg CalendarProofs TimeProofs TimeArgProofs.

Lemma bound : forall A B (r : res A) (f : A -> res B) y, bind r f = Ok y -> exists x, r = Ok x /\ f x = Ok y.
Proof. intros A B r f y H. destruct r; try discriminate. eauto. Qed.

Lemma to_uint64_nonneg : forall z, (0 <= z < 18446744073709551616)%Z -> to_uint64 z = Z.to_N z.
Proof. intros z H. rewrite <- (Z2N.id z) at 1 by lia. apply to_uint64_small. unfold u64. lia. Qed.

Lemma isdigit_digit : forall c, isdigit c = true -> digit c.
Proof. unfold digit, isdigit. intros. lia. Qed.

Lemma more_digits_split : forall n to v s v' r, more_digits n to v s = (v', r) ->
  exists ds, s = ds ++ r /\ Forall digit ds /\ (length ds <= n)%nat /\ v' = value_from v ds.
Proof.
  induction n as [|n IH]; intros to v s v' r H.
  - destruct s; cbn in H; injection H as <- <-; exists []; repeat split; auto.
  - destruct s as [|c s]; cbn [more_digits] in H; [injection H as <- <-; exists []; repeat split; auto; cbn; lia|].
    destruct ((10 * v <=? to) && isdigit c) eqn:E.
    + destruct (IH _ _ _ _ _ H) as (ds & -> & F & L & ->). exists (c :: ds). apply andb_true_iff in E. destruct E as [_ E].
      split; [reflexivity|]. split; [constructor; [apply isdigit_digit; exact E|exact F]|]. split; [cbn; lia|]. reflexivity.
    + injection H as <- <-. exists []. repeat split; auto. cbn. lia.
Qed.
Lemma skip_blanks_split : forall s, exists b, s = b ++ skip_blanks s /\ Forall (eq 32) b.
Proof.
  induction s as [|c s (b & E & F)]; [exists []; auto|]. cbn [skip_blanks]. destruct (N.eqb_spec c 32) as [->|].
  - exists (32 :: b). cbn [app]. rewrite <- E. split; [reflexivity|constructor; auto].
  - exists []. auto.
Qed.
Lemma get_number_split : forall lo hi k s n r, get_number lo hi (S k) s = Some (n, r) -> exists t, s = t ++ r /\ field (S k) lo hi t n.
Proof.
  intros lo hi k s n r H. destruct (skip_blanks_split s) as (b & E & F). unfold get_number in H.
  destruct (skip_blanks s) as [|c q]; [discriminate|]. destruct (isdigit c) eqn:D; [|discriminate].
  destruct (more_digits (S k - 1) hi (c - 48) q) as [v r'] eqn:M. destruct ((lo <=? v) && (v <=? hi)) eqn:B; [|discriminate]. injection H as <- <-.
  destruct (more_digits_split _ _ _ _ _ _ M) as (ds & -> & FD & L & EV). exists (b ++ c :: ds). split; [rewrite E, <- app_assoc; reflexivity|].
  exists b, (c :: ds). split; [reflexivity|]. split; [exact F|]. split; [constructor; [apply isdigit_digit; exact D|exact FD]|].
  split; [cbn; lia|]. split; [rewrite EV; reflexivity|lia].
Qed.
Lemma literal_split : forall c s r, literal c s = Some r -> s = [c] ++ r.
Proof. intros c [|x s] r H; [discriminate|]. cbn in H. destruct (N.eqb_spec x c); [|discriminate]. injection H as <-. subst. reflexivity. Qed.

Lemma strptime_F_split : forall s y mo d r, strptime_F s = Some (y, mo, d, r) -> exists t, s = t ++ r /\ loose_date t y mo d.
Proof.
  intros s y mo d r H. unfold strptime_F in H.
  destruct (get_number 0 9999 4 s) as [[y' s1]|] eqn:E1; [|discriminate]. destruct (literal 45 s1) as [s2|] eqn:L1; [|discriminate].
  destruct (get_number 1 12 2 s2) as [[m' s3]|] eqn:E2; [|discriminate]. destruct (literal 45 s3) as [s4|] eqn:L2; [|discriminate].
  destruct (get_number 1 31 2 s4) as [[d' s5]|] eqn:E3; [|discriminate]. injection H as <- <- <- <-.
  destruct (get_number_split _ _ _ _ _ _ E1) as (t1 & -> & F1). apply literal_split in L1. subst s1.
  destruct (get_number_split _ _ _ _ _ _ E2) as (t2 & -> & F2). apply literal_split in L2. subst s3.
  destruct (get_number_split _ _ _ _ _ _ E3) as (t3 & -> & F3).
  exists (t1 ++ str "-" ++ t2 ++ str "-" ++ t3). split; [change (str "-") with [45]; rewrite <- !app_assoc; reflexivity|].
  exists t1, t2, t3. auto.
Qed.
Lemma strptime_T_split : forall s h mi se r, strptime_T s = Some (h, mi, se, r) -> exists t, s = t ++ r /\ loose_clock t (3600 * h + 60 * mi + se).
Proof.
  intros s y mo d r H. unfold strptime_T in H.
  destruct (get_number 0 23 2 s) as [[y' s1]|] eqn:E1; [|discriminate]. destruct (literal 58 s1) as [s2|] eqn:L1; [|discriminate].
  destruct (get_number 0 59 2 s2) as [[m' s3]|] eqn:E2; [|discriminate]. destruct (literal 58 s3) as [s4|] eqn:L2; [|discriminate].
  destruct (get_number 0 61 2 s4) as [[d' s5]|] eqn:E3; [|discriminate]. injection H as <- <- <- <-.
  destruct (get_number_split _ _ _ _ _ _ E1) as (t1 & -> & F1). apply literal_split in L1. subst s1.
  destruct (get_number_split _ _ _ _ _ _ E2) as (t2 & -> & F2). apply literal_split in L2. subst s3.
  destruct (get_number_split _ _ _ _ _ _ E3) as (t3 & -> & F3).
  exists (t1 ++ str ":" ++ t2 ++ str ":" ++ t3). split; [change (str ":") with [58]; rewrite <- !app_assoc; reflexivity|].
  exists y', m', d', t1, t2, t3. auto.
Qed.
Lemma loose_date_range : forall s y mo d, loose_date s y mo d -> 1 <= mo <= 12 /\ 1 <= d <= 31 /\ y <= 9999.
Proof.
  intros s y mo d (ty & tmo & td & (b1 & d1 & _ & _ & _ & _ & _ & R1) & (b2 & d2 & _ & _ & _ & _ & _ & R2) & (b3 & d3 & _ & _ & _ & _ & _ & R3) & _). lia.
Qed.
Lemma loose_clock_range : forall s x, loose_clock s x -> x <= 86401.
Proof.
  intros s x (y & mo & d & ty & tmo & td & (b1 & d1 & _ & _ & _ & _ & _ & R1) & (b2 & d2 & _ & _ & _ & _ & _ & R2) & (b3 & d3 & _ & _ & _ & _ & _ & R3) & _ & ->). lia.
Qed.
Lemma days_to_bound : forall y mo d, 1970 <= y <= 9999 -> 1 <= mo <= 12 -> 1 <= d <= 31 -> days_to y mo d < 3000000.
Proof.
  intros y mo d Hy Hm Hd. pose proof (days_to_ok y mo d ltac:(lia) Hm ltac:(lia)) as E. unfold day_number, year_days in E.
  assert (M : (month_days (zleap (Z.of_N y)) (Z.of_N mo) <= 400)%Z).
  { assert (C : mo = 1 \/ mo = 2 \/ mo = 3 \/ mo = 4 \/ mo = 5 \/ mo = 6 \/ mo = 7 \/ mo = 8 \/ mo = 9 \/ mo = 10 \/ mo = 11 \/ mo = 12) by lia.
    destruct C as [-> |[-> |[-> |[-> |[-> |[-> |[-> |[-> |[-> |[-> |[-> | ->]]]]]]]]]]]; destruct (zleap (Z.of_N y)); vm_compute; discriminate. }
  assert (B1 : ((Z.of_N y + 3) / 4 <= 2501)%Z) by (apply Z.div_le_upper_bound; lia).
  assert (B2 : (0 <= (Z.of_N y + 99) / 100)%Z) by (apply Z.div_pos; lia).
  assert (B3 : ((Z.of_N y + 399) / 400 <= 27)%Z) by (apply Z.div_le_upper_bound; lia).
  lia.
Qed.
Lemma stamp_ok : forall s y mo d x h mi se, loose_date s y mo d -> x = 3600 * h + 60 * mi + se -> x <= 86401 ->
  stamp y mo d x (to_uint64 (timegm (y, mo, d) (h, mi, se))).
Proof.
  intros s y mo d x h mi se H -> HX HY. destruct (loose_date_range _ _ _ _ H) as (A & B & C). rewrite timegm_ok by lia.
  pose proof (days_to_bound y mo d ltac:(lia) A B). apply to_uint64_small. unfold u64. lia.
Qed.

Lemma skip_space_split : forall s, exists w, s = w ++ skip_space s /\ Forall white w.
Proof.
  induction s as [|c s (w & E & F)]; [exists []; auto|]. cbn [skip_space]. destruct (isspace c) eqn:D.
  - exists (c :: w). cbn [app]. rewrite <- E. split; [reflexivity|constructor; [unfold isspace in D; unfold white; lia|exact F]].
  - exists []. auto.
Qed.

Lemma parse_date_split : forall now s t, parse_date s = Some t -> time_like now s (to_uint64 t).
Proof.
  intros now s t H. unfold parse_date in H. destruct (strptime_F s) as [[[[y mo] d] r]|] eqn:EF; [|discriminate].
  destruct (strptime_F_split _ _ _ _ _ EF) as (u & -> & HD). destruct r as [|c r].
  { injection H as <-. rewrite app_nil_r. apply (tl_date now u y mo d); [exact HD|]. exact (stamp_ok u y mo d 0 0 0 0 HD ltac:(lia) ltac:(lia)). }
  set (q := c :: r) in *. destruct (skip_space_split q) as (w & EW & FW).
  destruct (strptime_T (skip_space q)) as [[[[h mi] se] r1]|] eqn:ET.
  - destruct (strptime_T_split _ _ _ _ _ ET) as (tt & ES & HC). destruct r1 as [|c1 r1].
    + injection H as <-. rewrite EW, ES, app_nil_r. eapply tl_date_time; [exact HD|exact FW|exact HC|]. exact (stamp_ok _ _ _ _ _ _ _ _ HD eq_refl (loose_clock_range _ _ HC)).
    + revert H. generalize (literal_split 84 q). destruct (literal 84 q) as [r2|]; [|discriminate]. intros LS H. rewrite (LS r2 eq_refl).
      destruct (strptime_T r2) as [[[[h2 mi2] se2] r3]|] eqn:E2; [|discriminate].
      destruct (strptime_T_split _ _ _ _ _ E2) as (t2 & -> & HC2). change ([84] ++ t2 ++ r3) with (str "T" ++ t2 ++ r3).
      assert (Z : r3 = [] \/ r3 = str "Z").
      { destruct r3 as [|c3 r3]; [auto|]. right. generalize (literal_split 90 (c3 :: r3)). destruct (literal 90 (c3 :: r3)) as [[|? ?]|]; try discriminate. intro L. apply (L [] eq_refl). }
      assert (E : t = timegm (y, mo, d) (h2, mi2, se2)).
      { destruct r3 as [|c3 r3]; [congruence|]. destruct (literal 90 (c3 :: r3)) as [[|? ?]|]; congruence. }
      subst t. eapply tl_date_T_time; [exact HD|exact HC2|exact Z|]. exact (stamp_ok _ _ _ _ _ _ _ _ HD eq_refl (loose_clock_range _ _ HC2)).
  - revert H. generalize (literal_split 84 q). destruct (literal 84 q) as [r2|]; [|discriminate]. intros LS H. rewrite (LS r2 eq_refl).
    destruct (strptime_T r2) as [[[[h2 mi2] se2] r3]|] eqn:E2; [|discriminate].
    destruct (strptime_T_split _ _ _ _ _ E2) as (t2 & -> & HC2). change ([84] ++ t2 ++ r3) with (str "T" ++ t2 ++ r3).
    assert (Z : r3 = [] \/ r3 = str "Z").
    { destruct r3 as [|c3 r3]; [auto|]. right. generalize (literal_split 90 (c3 :: r3)). destruct (literal 90 (c3 :: r3)) as [[|? ?]|]; try discriminate. intro L. apply (L [] eq_refl). }
    assert (E : t = timegm (y, mo, d) (h2, mi2, se2)).
    { destruct r3 as [|c3 r3]; [congruence|]. destruct (literal 90 (c3 :: r3)) as [[|? ?]|]; congruence. }
    subst t. eapply tl_date_T_time; [exact HD|exact HC2|exact Z|]. exact (stamp_ok _ _ _ _ _ _ _ _ HD eq_refl (loose_clock_range _ _ HC2)).
Qed.

(** ** Numbers *)

Lemma digits_prefix_split : forall s v v' r, digits_prefix v s = (v', r) -> exists ds, s = ds ++ r /\ Forall digit ds /\ v' = value_from v ds.
Proof.
  induction s as [|c s IH]; intros v v' r H; cbn [digits_prefix] in H.
  - injection H as <- <-. exists []. auto.
  - destruct (isdigit c) eqn:D.
    + destruct (IH _ _ _ H) as (ds & -> & F & ->). exists (c :: ds). split; [reflexivity|]. split; [constructor; [apply isdigit_digit; exact D|exact F]|reflexivity].
    + injection H as <- <-. exists []. auto.
Qed.
Lemma prefix_number : forall s v r, starts_digit s = true -> digits_prefix 0 s = (v, r) -> exists ds, s = ds ++ r /\ number ds v.
Proof.
  intros s v r SD H. destruct s as [|c s]; [discriminate|]. cbn in SD. cbn [digits_prefix] in H. rewrite SD in H.
  destruct (digits_prefix_split _ _ _ _ H) as (ds & -> & F & ->). exists (c :: ds). split; [reflexivity|]. split; [constructor; [apply isdigit_digit; exact SD|exact F]|].
  split; [discriminate|reflexivity].
Qed.
Definition clip (z : Z) : Z := Z.max (-9223372036854775808) (Z.min 9223372036854775807 z).
Lemma strtoll_split : forall s z r, strtoll s = (z, r) -> (z = 0%Z /\ r = s) \/ exists t n, s = t ++ r /\ integer t n /\ z = clip n.
Proof.
  intros s z r H. unfold strtoll in H. destruct (skip_space_split s) as (w & E & F).
  assert (SG : (exists q, skip_space s = 45 :: q /\ match skip_space s with 45 :: r0 => (true, r0) | 43 :: r0 => (false, r0) | _ => (false, skip_space s) end = (true, q)) \/
    (exists q, skip_space s = 43 :: q /\ match skip_space s with 45 :: r0 => (true, r0) | 43 :: r0 => (false, r0) | _ => (false, skip_space s) end = (false, q)) \/
    match skip_space s with 45 :: r0 => (true, r0) | 43 :: r0 => (false, r0) | _ => (false, skip_space s) end = (false, skip_space s)).
  { destruct (skip_space s) as [|c q]; [auto|]. destruct (N.eq_dec c 45) as [->|N1]; [left; eauto|]. destruct (N.eq_dec c 43) as [->|N2]; [right; left; eauto|].
    right. right. destruct c as [|p]; [reflexivity|]. do 6 (destruct p as [p|p|]; try reflexivity; try congruence). }
  destruct SG as [(q & EQ & M)|[(q & EQ & M)|M]]; rewrite M in H; clear M.
  - destruct (starts_digit q) eqn:SD; [|injection H as <- <-; auto]. destruct (digits_prefix 0 q) as [v r'] eqn:DP. injection H as <- <-.
    destruct (prefix_number _ _ _ SD DP) as (ds & -> & HN). right. exists (w ++ str "-" ++ ds), (- Z.of_N v)%Z. split.
    { rewrite E, EQ. change (str "-") with [45]. rewrite <- !app_assoc. reflexivity. }
    split; [apply in_minus; assumption|unfold clip; lia].
  - destruct (starts_digit q) eqn:SD; [|injection H as <- <-; auto]. destruct (digits_prefix 0 q) as [v r'] eqn:DP. injection H as <- <-.
    destruct (prefix_number _ _ _ SD DP) as (ds & -> & HN). right. exists (w ++ str "+" ++ ds), (Z.of_N v)%Z. split.
    { rewrite E, EQ. change (str "+") with [43]. rewrite <- !app_assoc. reflexivity. }
    split; [apply in_plus; assumption|unfold clip; lia].
  - destruct (starts_digit (skip_space s)) eqn:SD; [|injection H as <- <-; auto]. destruct (digits_prefix 0 (skip_space s)) as [v r'] eqn:DP. injection H as <- <-.
    destruct (prefix_number _ _ _ SD DP) as (ds & EQ & HN). right. exists (w ++ ds), (Z.of_N v)%Z. split; [rewrite E, EQ, <- app_assoc; reflexivity|].
    split; [apply in_plain; assumption|unfold clip; lia].
Qed.

(** The digits strtoll looks at. *)
Definition unsigned_part (s : bytes) : bool * bytes := match s with 45 :: r => (true, r) | 43 :: r => (false, r) | _ => (false, s) end.
Lemma digits_end : forall s v v' r, digits_prefix v s = (v', r) -> starts_digit r = false.
Proof.
  induction s as [|c s IH]; intros v v' r H; cbn [digits_prefix] in H; [injection H as <- <-; reflexivity|].
  destruct (isdigit c) eqn:D; [eauto|]. injection H as <- <-. exact D.
Qed.
Lemma strtoll_rest : forall s z r, strtoll s = (z, r) -> r = s \/ starts_digit r = false.
Proof.
  intros s z r H. unfold strtoll in H. destruct (match skip_space s with 45 :: r0 => (true, r0) | 43 :: r0 => (false, r0) | _ => (false, skip_space s) end) as [neg ds].
  destruct (starts_digit ds); [|left; congruence]. destruct (digits_prefix 0 ds) as [v r0] eqn:E. right. apply digits_end in E. congruence.
Qed.
Lemma white_isspace : forall c, white c -> isspace c = true.
Proof. intros c H. unfold white in H. unfold isspace. lia. Qed.
Lemma skip_white : forall w s, Forall white w -> skip_space (w ++ s) = skip_space s.
Proof. induction w as [|c w IH]; intros s F; [reflexivity|]. inversion F; subst. cbn [app skip_space]. rewrite white_isspace by assumption. apply IH. assumption. Qed.
Lemma strtoll_whole : forall t z r, integer t z -> starts_digit r = false -> strtoll (t ++ r) = (clip z, r).
Proof.
  intros t z r H HR. destruct H as [w s n F (D & NE & V)|w s n F (D & NE & V)|w s n F (D & NE & V)]; unfold strtoll; rewrite <- ?app_assoc, (skip_white w _ F).
  - destruct s as [|c s]; [contradiction|]. inversion D as [|? ? D1 D2]; subst.
    assert (SK : skip_space ((c :: s) ++ r) = (c :: s) ++ r) by (cbn [app skip_space]; rewrite (digit_not_space c D1); reflexivity).
    rewrite SK, (unsigned ((c :: s) ++ r) c (s ++ r) eq_refl D1).
    assert (starts_digit ((c :: s) ++ r) = true) as -> by (cbn; apply digit_isdigit; exact D1). rewrite (digits_prefix_ok (c :: s) 0 r D HR).
    change (value_from 0 (c :: s)) with (decimal_value (c :: s)). unfold clip. f_equal. lia.
  - destruct s as [|c s]; [contradiction|]. inversion D as [|? ? D1 D2]; subst.
    change (str "+" ++ (c :: s) ++ r) with (43 :: (c :: s) ++ r). cbn [skip_space]. change (isspace 43) with false. cbn iota.
    assert (starts_digit ((c :: s) ++ r) = true) as -> by (cbn; apply digit_isdigit; exact D1). rewrite (digits_prefix_ok (c :: s) 0 r D HR).
    change (value_from 0 (c :: s)) with (decimal_value (c :: s)). unfold clip. f_equal. lia.
  - destruct s as [|c s]; [contradiction|]. inversion D as [|? ? D1 D2]; subst.
    change (str "-" ++ (c :: s) ++ r) with (45 :: (c :: s) ++ r). cbn [skip_space]. change (isspace 45) with false. cbn iota.
    assert (starts_digit ((c :: s) ++ r) = true) as -> by (cbn; apply digit_isdigit; exact D1). rewrite (digits_prefix_ok (c :: s) 0 r D HR).
    change (value_from 0 (c :: s)) with (decimal_value (c :: s)). unfold clip. f_equal. lia.
Qed.
Lemma not_digit_start : forall r, (forall c r', r = c :: r' -> ~ digit c) <-> starts_digit r = false.
Proof.
  intros [|c r]; cbn; [split; [reflexivity|discriminate]|]. split.
  - intro H. destruct (isdigit c) eqn:E; [|reflexivity]. contradiction (H c r eq_refl). apply isdigit_digit, E.
  - intros H c' r' [= <- <-] D. rewrite (digit_isdigit c D) in H. discriminate.
Qed.
Lemma integer_app : forall t z, integer t z -> t <> [].
Proof. intros t z [w s n _ (_ & NE & _)|w s n _ (_ & NE & _)|w s n _ (_ & NE & _)] E; apply app_eq_nil in E as [_ E]; [contradiction|discriminate|discriminate]. Qed.
Lemma leading_value : forall s z, leading_integer s z -> fst (strtoll s) = clip z.
Proof. intros s z (t & r & -> & HI & HR). apply not_digit_start in HR. rewrite (strtoll_whole _ _ _ HI HR). reflexivity. Qed.
Lemma leading_or_zero : forall s, (exists z, leading_integer s z /\ fst (strtoll s) = clip z) \/ fst (strtoll s) = 0%Z.
Proof.
  intro s. destruct (strtoll s) as [z r] eqn:E. destruct (strtoll_split _ _ _ E) as [[-> ->]|(t & n & EQ & HI & ->)]; [right; reflexivity|].
  destruct (strtoll_rest _ _ _ E) as [->|HR].
  - exfalso. apply (integer_app _ _ HI). apply (f_equal (@length N)) in EQ. rewrite app_length in EQ. destruct t; [reflexivity|cbn in EQ; lia].
  - left. exists n. split; [|reflexivity]. exists t, r. split; [exact EQ|]. split; [exact HI|]. apply not_digit_start, HR.
Qed.
Lemma atoi_int : forall s, (-2147483648 <= atoi s < 2147483648)%Z /\ exists k, fst (strtoll s) = (atoi s + k * 4294967296)%Z.
Proof.
  intro s. unfold atoi. set (x := fst (strtoll s)). pose proof (Z.mod_pos_bound (x + 2147483648) 4294967296 ltac:(lia)). split; [lia|].
  exists ((x + 2147483648) / 4294967296)%Z. pose proof (Z.div_mod (x + 2147483648) 4294967296 ltac:(lia)). lia.
Qed.
Lemma atoi_meaning : forall s v, atoi s = v <-> (exists z, leading_integer s z /\ as_int z v) \/ ((forall z, ~ leading_integer s z) /\ v = 0%Z).
Proof.
  intros s v. destruct (atoi_int s) as (RG & k & EK).
  assert (U : forall x v v' k k', (-2147483648 <= v < 2147483648 -> -2147483648 <= v' < 2147483648 -> x = v + k * 4294967296 -> x = v' + k' * 4294967296 -> v = v')%Z) by (intros; lia).
  split.
  - intros <-. destruct (leading_or_zero s) as [(z & HL & E)|E].
    + left. exists z. split; [exact HL|]. split; [exact RG|]. exists k. rewrite <- EK, E. reflexivity.
    + assert (A0 : atoi s = 0%Z) by (rewrite E in EK; lia). rewrite A0.
      destruct (starts_digit (snd (unsigned_part (skip_space s)))) eqn:SD.
      * assert (HL : exists z, leading_integer s z).
        { destruct (strtoll s) as [z r] eqn:ES. destruct (strtoll_split _ _ _ ES) as [[-> ->]|(t & n & EQ & HI & _)].
          - exfalso. unfold strtoll in ES. change (match skip_space s with 45 :: r0 => (true, r0) | 43 :: r0 => (false, r0) | _ => (false, skip_space s) end) with (unsigned_part (skip_space s)) in ES.
            destruct (unsigned_part (skip_space s)) as [neg ds] eqn:EU. cbn [snd] in SD. rewrite SD in ES. destruct (digits_prefix 0 ds) as [v r] eqn:DP. injection ES as _ ->.
            destruct (prefix_number _ _ _ SD DP) as (d & -> & (_ & NE & _)). destruct (skip_space_split s) as (w & E1 & _).
            assert (L : (length (d ++ s) <= length s)%nat).
            { assert (L1 : (length (skip_space s) <= length s)%nat) by (rewrite E1 at 2; rewrite app_length; lia).
              assert (L2 : (length (d ++ s) <= length (skip_space s))%nat) by (clear -EU; unfold unsigned_part in EU; destruct (skip_space s) as [|c q]; [injection EU as <- <-; lia|];
                destruct c as [|p]; [injection EU as <- <-; lia|]; do 6 (destruct p as [p|p|]; try (injection EU as <- <-; cbn [length]; lia))).
              lia. }
            rewrite app_length in L. destruct d; [contradiction|cbn in L; lia].
          - destruct (strtoll_rest _ _ _ ES) as [->|HR]; [exfalso; apply (integer_app _ _ HI); apply (f_equal (@length N)) in EQ; rewrite app_length in EQ; destruct t; [reflexivity|cbn in EQ; lia]|].
            exists n, t, r. split; [exact EQ|]. split; [exact HI|]. apply not_digit_start, HR. }
        destruct HL as (z & HL). left. exists z. split; [exact HL|]. split; [lia|]. exists 0%Z. fold (clip z). rewrite <- (leading_value _ _ HL), E. reflexivity.
      * right. split; [|reflexivity]. intros z (t & r & -> & HI & HR). apply not_digit_start in HR.
        assert (HS : strtoll (t ++ r) = (clip z, r)) by (apply strtoll_whole; assumption). unfold strtoll in HS.
        change (match skip_space (t ++ r) with 45 :: r0 => (true, r0) | 43 :: r0 => (false, r0) | _ => (false, skip_space (t ++ r)) end) with (unsigned_part (skip_space (t ++ r))) in HS.
        destruct (unsigned_part (skip_space (t ++ r))) as [neg ds]. cbn [snd] in SD. rewrite SD in HS. injection HS as _ HS.
        apply (integer_app _ _ HI). apply (f_equal (@length N)) in HS. rewrite app_length in HS. destruct t; [reflexivity|cbn in HS; lia].
  - intros [(z & HL & RV & k' & EK')|[NL ->]].
    + apply leading_value in HL. fold (clip z) in EK'. eapply U; [exact RG|exact RV|exact EK|]. rewrite HL. exact EK'.
    + destruct (leading_or_zero s) as [(z & HL & _)|E]; [contradiction (NL z HL)|]. rewrite E in EK. lia.
Qed.

Lemma ll_value : forall z x, ll z = Ok x -> x = z /\ (-9223372036854775808 <= z <= 9223372036854775807)%Z.
Proof. intros z x H. unfold ll in H. destruct ((_ <=? _) && _)%Z eqn:E in H; [|discriminate]. injection H as <-. split; [reflexivity|lia]. Qed.
Lemma unit_value : forall c n x, (0 < n)%Z -> unit_seconds (Some c) n = Ok x -> exists k, In ([c], k) units /\ x = (n * Z.of_N k)%Z.
Proof.
  intros c n x HN H. unfold unit_seconds in H.
  destruct ((c =? 87) || (c =? 87 + 32) || ((c =? 68) || (c =? 68 + 32)) || ((c =? 72) || (c =? 72 + 32)) || ((c =? 77) || (c =? 77 + 32)) || ((c =? 83) || (c =? 83 + 32))) eqn:E; [|discriminate].
  assert (C : c = 87 \/ c = 119 \/ c = 68 \/ c = 100 \/ c = 72 \/ c = 104 \/ c = 77 \/ c = 109 \/ c = 83 \/ c = 115) by lia. clear E.
  destruct C as [->|[->|[->|[->|[->|[->|[->|[->|[->| ->]]]]]]]]]; cbn -[ll Z.mul Z.of_N N.mul] in H;
    repeat (let z := fresh "z" in let E := fresh "E" in apply bound in H; destruct H as (z & E & H); apply ll_value in E; destruct E as [-> _]);
    try (apply ll_value in H; destruct H as [H _]); try (injection H as H); subst x;
    eexists; (split; [cbn; tauto|]); lia.
Qed.

Lemma relative_split : forall fuel s total x, relative fuel s total = Ok (Some x) -> (0 <= total)%Z -> (x < 9223372036854775807)%Z ->
  (total <= x)%Z /\ loose_duration s (x - total).
Proof.
  induction fuel as [|fuel IH]; intros s total x H HT HX.
  { destruct s; [|discriminate]. cbn in H. injection H as <-. split; [lia|]. rewrite Z.sub_diag. apply ld_end. }
  destruct s as [|c0 s0]; [cbn in H; injection H as <-; split; [lia|]; rewrite Z.sub_diag; apply ld_end|].
  cbn [relative] in H. set (s := c0 :: s0) in *. destruct (strtoll s) as [n endp] eqn:ES. destruct (n <=? 0)%Z eqn:EN; [discriminate|].
  destruct (unit_seconds (hd_error endp) n) as [m| | | |] eqn:EU; try discriminate. apply bound in H. destruct H as (tot & ET & H).
  apply ll_value in ET. destruct ET as [-> RT].
  destruct (strtoll_split _ _ _ ES) as [[? _]|(t & z & EQ & HI & EZ)]; [lia|]. destruct endp as [|c endp]; cbn [hd_error tl] in *.
  - cbn in EU. injection EU as <-. assert (x = (total + n)%Z) by (destruct fuel; cbn in H; congruence). subst x.
    assert (n = z) by (unfold clip in EZ; lia). subst z. rewrite app_nil_r in EQ. rewrite EQ. split; [lia|]. replace (total + n - total)%Z with n by lia. apply ld_seconds; [exact HI|lia].
  - destruct (unit_value c n m ltac:(lia) EU) as (k & HK & ->). pose proof (unit_pos [c] k HK) as HP.
    destruct (IH _ _ _ H ltac:(nia) HX) as (LE & LD). assert (n <= n * Z.of_N k)%Z by nia. assert (n = z) by (unfold clip in EZ; lia). subst z.
    split; [lia|]. rewrite EQ. replace (x - total)%Z with (n * Z.of_N k + (x - (total + n * Z.of_N k)))%Z by lia.
    apply (ld_more t n [c] k endp); [exact HI|lia|exact HK|exact LD].
Qed.

Lemma parse_time_split : forall now s v, now < 9223372036854775807 -> parse_time (Z.of_N now) s = Ok v -> v <> 0 -> time_like now s v.
Proof.
  intros now s v HN H NZ. unfold parse_time in H. destruct (parse_date s) as [t|] eqn:ED.
  { injection H as <-. apply parse_date_split. exact ED. }
  destruct (strtoll s) as [n [|c r]] eqn:ES.
  - destruct (strtoll_split _ _ _ ES) as [[-> _]|(t & z & EQ & HI & EZ)]; [cbn in H; congruence|]. rewrite app_nil_r in EQ. subst t.
    destruct (n <? 0)%Z eqn:EN.
    + apply bound in H. destruct H as (x & EX & H). apply ll_value in EX. destruct EX as [-> RX]. destruct (n + Z.of_N now <? 0)%Z eqn:EX; [congruence|]. injection H as <-.
      assert (n = z) by (unfold clip in EZ; lia). subst z. rewrite to_uint64_nonneg by (lia).
      replace (Z.to_N (n + Z.of_N now)) with (now - Z.to_N (- n)) by lia. apply tl_ago; [|lia]. replace (- Z.of_N (Z.to_N (- n)))%Z with n by lia. exact HI.
    + injection H as <-. rewrite to_uint64_nonneg by (unfold clip in *; lia). assert (0 <= z)%Z by (unfold clip in EZ; lia).
      replace (Z.to_N n) with (N.min (Z.to_N z) 9223372036854775807) by (unfold clip in EZ; lia). apply tl_second. rewrite Z2N.id by lia. exact HI.
  - apply bound in H. destruct H as (o & EO & H). destruct o as [total|]; [|congruence]. destruct (Z.of_N now <? total)%Z eqn:EL; [congruence|]. injection H as <-.
    destruct (relative_split _ _ _ _ EO ltac:(lia) ltac:(lia)) as (LE & LD). rewrite Z.sub_0_r in LD. rewrite to_uint64_nonneg by (lia).
    replace (Z.to_N (Z.of_N now - total)) with (now - Z.to_N total) by lia. apply tl_before; [rewrite Z2N.id by lia; exact LD|lia].
Qed.
