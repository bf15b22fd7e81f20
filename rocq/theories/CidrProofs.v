(** Address blocks: ip_arith.h against the first bits of an address. *)
From Verif Require Import Str BaseFacts ModelIter ModelQuery SpecQuery ModelSetters SpecSettings.

(** ** Bits and values *)

Definition bits_value (l : list bool) : N := fold_left (fun v b => 2 * v + N.b2n b) l 0.

Lemma bits_value_acc : forall l v, fold_left (fun v b => 2 * v + N.b2n b) l v = v * 2 ^ N.of_nat (length l) + bits_value l.
Proof.
  unfold bits_value. induction l as [|b l IH]; intro v; [cbn; lia|].
  cbn [fold_left length]. rewrite IH, (IH (2 * 0 + N.b2n b)).
  replace (N.of_nat (S (length l))) with (N.succ (N.of_nat (length l))) by lia. rewrite N.pow_succ_r'. lia.
Qed.
Lemma bits_value_app : forall a b, bits_value (a ++ b) = bits_value a * 2 ^ N.of_nat (length b) + bits_value b.
Proof. intros a b. unfold bits_value at 1. rewrite fold_left_app. apply bits_value_acc. Qed.
Lemma bits_value_lt : forall l, bits_value l < 2 ^ N.of_nat (length l).
Proof.
  induction l as [|b l IH] using rev_ind; [reflexivity|].
  rewrite bits_value_app, app_length. cbn [length].
  replace (N.of_nat (length l + 1)) with (N.succ (N.of_nat (length l))) by lia. rewrite N.pow_succ_r'.
  change (2 ^ N.of_nat 1) with 2. assert (E : bits_value [b] = N.b2n b) by reflexivity. rewrite E. destruct b; cbn [N.b2n]; lia.
Qed.
Lemma bits_value_inj : forall a b, length a = length b -> bits_value a = bits_value b -> a = b.
Proof.
  induction a as [|x a IH] using rev_ind; intros b HL HE.
  - destruct b; [reflexivity|discriminate HL].
  - destruct b as [|y b _] using rev_ind; [rewrite app_length in HL; cbn in HL; lia|].
    rewrite !app_length in HL. cbn [length] in HL. rewrite !bits_value_app in HE.
    change (2 ^ N.of_nat (length [x])) with 2 in HE. change (2 ^ N.of_nat (length [y])) with 2 in HE.
    assert (Ex : bits_value [x] = N.b2n x) by reflexivity. assert (Ey : bits_value [y] = N.b2n y) by reflexivity.
    rewrite Ex, Ey in HE. assert (x = y) by (destruct x, y; cbn in HE; auto; lia). subst y.
    f_equal. apply IH; lia.
Qed.

Lemma byte_bits_value : forall b, byte_ok b -> bits_value (byte_bits b) = b.
Proof.
  intros b H. apply N.eqb_eq.
  assert (A : forallb (fun n => bits_value (byte_bits (N.of_nat n)) =? N.of_nat n) (seq 0 256) = true) by (vm_compute; reflexivity).
  rewrite forallb_forall in A. specialize (A (N.to_nat b)). rewrite N2Nat.id in A. apply A.
  apply in_seq. unfold byte_ok in H. lia.
Qed.
Lemma bits_length : forall l, length (bits l) = (8 * length l)%nat.
Proof. induction l as [|b l IH]; [reflexivity|]. unfold bits in *. cbn [flat_map]. rewrite app_length, IH. cbn. lia. Qed.

Lemma ip_value_acc : forall l v, fold_left (fun v b => 256 * v + b) l v = v * 256 ^ N.of_nat (length l) + ip_value l.
Proof.
  unfold ip_value. induction l as [|b l IH]; intro v; [cbn; lia|].
  cbn [fold_left length]. rewrite IH, (IH (256 * 0 + b)).
  replace (N.of_nat (S (length l))) with (N.succ (N.of_nat (length l))) by lia. rewrite N.pow_succ_r'. lia.
Qed.
Lemma ip_value_app : forall a b, ip_value (a ++ b) = ip_value a * 256 ^ N.of_nat (length b) + ip_value b.
Proof. intros a b. unfold ip_value at 1. rewrite fold_left_app. apply ip_value_acc. Qed.
Lemma pow256 : forall n, 256 ^ N.of_nat n = 2 ^ N.of_nat (8 * n).
Proof. intro n. replace (N.of_nat (8 * n)) with (8 * N.of_nat n) by lia. rewrite N.pow_mul_r. reflexivity. Qed.

Lemma bits_ip_value : forall l, bytes_ok l -> bits_value (bits l) = ip_value l.
Proof.
  induction l as [|b l IH]; intro H; [reflexivity|]. inversion H; subst.
  change (bits (b :: l)) with (byte_bits b ++ bits l). rewrite bits_value_app, byte_bits_value, IH, bits_length by assumption.
  rewrite <- pow256. change (b :: l) with ([b] ++ l). rewrite ip_value_app. unfold ip_value at 2. cbn. lia.
Qed.
Lemma ip_value_lt : forall l, bytes_ok l -> ip_value l < 2 ^ N.of_nat (8 * length l).
Proof. intros l H. rewrite <- bits_ip_value by exact H. rewrite <- bits_length. apply bits_value_lt. Qed.

(** The first [p] bits are the value divided by the weight of the rest. *)
Lemma bits_firstn : forall l p, bytes_ok l -> (p <= 8 * length l)%nat ->
  bits_value (firstn p (bits l)) = ip_value l / 2 ^ N.of_nat (8 * length l - p).
Proof.
  intros l p H HP. rewrite <- bits_ip_value by exact H.
  rewrite <- (firstn_skipn p (bits l)) at 2. rewrite bits_value_app.
  assert (L : length (skipn p (bits l)) = (8 * length l - p)%nat) by (rewrite skipn_length, bits_length; reflexivity).
  rewrite L. rewrite N.add_comm, N.div_add by (apply N.pow_nonzero; lia).
  rewrite N.div_small; [lia|]. rewrite <- L. apply bits_value_lt.
Qed.

Lemma same_block_div : forall p a x, bytes_ok a -> bytes_ok x -> length x = length a -> (p <= 8 * length a)%nat ->
  (same_block p a x <-> ip_value x / 2 ^ N.of_nat (8 * length a - p) = ip_value a / 2 ^ N.of_nat (8 * length a - p)).
Proof.
  intros p a x Ha Hx HL HP. unfold same_block.
  rewrite <- (bits_firstn a p Ha HP). pose proof (bits_firstn x p Hx ltac:(lia)) as E. rewrite HL in E. rewrite <- E.
  split; [congruence|]. apply bits_value_inj. rewrite !firstn_length, !bits_length. lia.
Qed.

(** Being in the block of size [m]. *)
Lemma block_range : forall m a x, 0 < m -> (a / m * m <= x <= a / m * m + (m - 1) <-> x / m = a / m).
Proof.
  intros m a x Hm. pose proof (N.div_mod x m ltac:(lia)) as E. pose proof (N.mod_lt x m ltac:(lia)) as L.
  split; intro H.
  - symmetry. apply (N.div_unique x m (a / m) (x - a / m * m)); nia.
  - rewrite <- H. nia.
Qed.

(** ** Masks *)

Lemma mask_low : forall w s a, s <= w -> a < 2 ^ w -> N.land a (N.ones w - N.ones s) = a / 2 ^ s * 2 ^ s.
Proof.
  intros w s a Hs Ha.
  rewrite N.sub_nocarry_ldiff.
  2:{ apply N.bits_inj. intro n. rewrite N.ldiff_spec, N.bits_0.
      destruct (N.lt_ge_cases n s) as [L|L]; [rewrite (N.ones_spec_low w n) by lia; apply andb_false_r|rewrite N.ones_spec_high by lia; reflexivity]. }
  assert (E : N.land a (N.ldiff (N.ones w) (N.ones s)) = N.ldiff a (N.ones s)).
  { apply N.bits_inj. intro n. rewrite N.land_spec, !N.ldiff_spec.
    destruct (N.lt_ge_cases n w) as [L|L]; [rewrite (N.ones_spec_low w n) by lia; rewrite andb_true_l; reflexivity|].
    assert (N.testbit a n = false) as ->; [|reflexivity].
    destruct (N.eq_dec a 0) as [->|NZ]; [apply N.bits_0|]. apply N.bits_above_log2.
    apply N.log2_lt_pow2; [lia|]. eapply N.lt_le_trans; [exact Ha|]. apply N.pow_le_mono_r; lia. }
  rewrite E, N.ldiff_ones_r, N.shiftl_mul_pow2, N.shiftr_div_pow2. reflexivity.
Qed.
Lemma mask_high : forall s a, N.lor a (N.ones s) = a / 2 ^ s * 2 ^ s + N.ones s.
Proof.
  intros s a.
  assert (E : N.lor a (N.ones s) = N.lor (N.ldiff a (N.ones s)) (N.ones s)).
  { apply N.bits_inj. intro n. rewrite !N.lor_spec, N.ldiff_spec. destruct (N.testbit a n), (N.testbit (N.ones s) n); reflexivity. }
  assert (Z : N.land (N.ldiff a (N.ones s)) (N.ones s) = 0).
  { apply N.bits_inj. intro n. rewrite N.land_spec, N.ldiff_spec, N.bits_0. destruct (N.testbit a n), (N.testbit (N.ones s) n); reflexivity. }
  rewrite E, <- (N.lxor_lor _ _ Z), <- (N.add_nocarry_lxor _ _ Z).
  rewrite N.ldiff_ones_r, N.shiftl_mul_pow2, N.shiftr_div_pow2. reflexivity.
Qed.
Lemma ones_eq : forall n, N.ones n = 2 ^ n - 1.
Proof. intro n. rewrite N.ones_equiv. lia. Qed.

(** ** Big-endian bytes *)

Lemma be_bytes_length : forall n v, length (be_bytes n v) = n.
Proof. induction n as [|n IH]; intro v; [reflexivity|]. cbn [be_bytes]. rewrite app_length, IH. cbn. lia. Qed.
Lemma be_bytes_ok : forall n v, bytes_ok (be_bytes n v).
Proof.
  induction n as [|n IH]; intro v; [constructor|]. cbn [be_bytes]. apply Forall_app. split; [apply IH|].
  constructor; [unfold byte_ok; apply N.mod_lt; lia|constructor].
Qed.
Lemma be_bytes_value : forall n v, v < 256 ^ N.of_nat n -> ip_value (be_bytes n v) = v.
Proof.
  induction n as [|n IH]; intros v H; [cbn in H; cbn; lia|].
  cbn [be_bytes]. rewrite ip_value_app. replace (N.of_nat (S n)) with (N.succ (N.of_nat n)) in H by lia. rewrite N.pow_succ_r' in H.
  rewrite IH by (apply N.div_lt_upper_bound; lia).
  change (256 ^ N.of_nat (length [v mod 256])) with 256. unfold ip_value. cbn [fold_left]. pose proof (N.div_mod v 256 ltac:(lia)). lia.
Qed.

(** ** IPv4 *)

Lemma block_of_values : forall n p a lo hi, length a = n -> bytes_ok a -> (p <= 8 * n)%nat ->
  length lo = n -> bytes_ok lo -> length hi = n -> bytes_ok hi ->
  ip_value lo = ip_value a / 2 ^ N.of_nat (8 * n - p) * 2 ^ N.of_nat (8 * n - p) ->
  ip_value hi = ip_value a / 2 ^ N.of_nat (8 * n - p) * 2 ^ N.of_nat (8 * n - p) + (2 ^ N.of_nat (8 * n - p) - 1) ->
  is_block n p a lo hi.
Proof.
  intros n p a lo hi La Ba HP L1 B1 L2 B2 E1 E2. repeat (split; [assumption|]). intros x Lx Bx.
  rewrite (same_block_div p a x Ba Bx) by lia. rewrite La, E1, E2. apply block_range.
  apply N.neq_0_lt_0. apply N.pow_nonzero. lia.
Qed.

Lemma ip4_block : forall a p, length a = 4%nat -> bytes_ok a -> 2 <= p <= 32 ->
  exists lo hi, ip4_lower a p = Ok lo /\ ip4_upper a p = Ok hi /\ is_block 4 (N.to_nat p) a lo hi.
Proof.
  intros a p La Ba Hp.
  assert (S : (u32 + 32 - p) mod u32 = 32 - p).
  { replace (u32 + 32 - p) with (32 - p + 1 * u32) by (unfold u32; lia). rewrite N.mod_add by (unfold u32; lia). apply N.mod_small. unfold u32. lia. }
  unfold ip4_lower, ip4_upper, ip4_hostmask. rewrite S.
  assert ((31 <=? 32 - p) = false) as -> by lia. cbn [bind].
  set (s := 32 - p).
  assert (M : N.shiftl 1 s - 1 = N.ones s) by (rewrite ones_eq, N.shiftl_mul_pow2; f_equal; lia).
  rewrite M. change (be_num a) with (ip_value a).
  pose proof (ip_value_lt a Ba) as LT. rewrite La in LT. change (N.of_nat (8 * 4)) with 32 in LT.
  change (u32 - 1) with (N.ones 32).
  rewrite mask_low by (unfold s; lia). rewrite mask_high.
  assert (P0 : 0 < 2 ^ s) by (apply N.neq_0_lt_0, N.pow_nonzero; lia).
  assert (PW : 2 ^ 32 = 2 ^ p * 2 ^ s) by (rewrite <- N.pow_add_r; f_equal; unfold s; lia).
  assert (D : ip_value a / 2 ^ s < 2 ^ p) by (apply N.div_lt_upper_bound; lia).
  assert (U : ip_value a / 2 ^ s * 2 ^ s + N.ones s < 2 ^ 32) by (rewrite ones_eq; nia).
  do 2 eexists. split; [reflexivity|]. split; [reflexivity|].
  assert (EX : N.of_nat (8 * 4 - N.to_nat p) = s) by (unfold s; lia).
  apply block_of_values; auto using be_bytes_length, be_bytes_ok; try lia; rewrite EX;
    rewrite be_bytes_value by (change (256 ^ N.of_nat 4) with (2 ^ 32); lia); [reflexivity|rewrite ones_eq; reflexivity].
Qed.

(** ** IPv6 *)

Lemma half_mask : forall p, 0 < p < 64 -> ip6_half p = Ok (N.ones 64 - N.ones (64 - p)).
Proof.
  intros p Hp. unfold ip6_half. assert ((p =? 0) = false) as -> by lia. f_equal.
  rewrite !N.shiftl_mul_pow2, !ones_eq, N.mul_1_l.
  assert (PW : 2 ^ 64 = 2 ^ p * 2 ^ (64 - p)) by (rewrite <- N.pow_add_r; f_equal; lia).
  assert (P0 : 0 < 2 ^ (64 - p)) by (apply N.neq_0_lt_0, N.pow_nonzero; lia).
  assert (P1 : 0 < 2 ^ p) by (apply N.neq_0_lt_0, N.pow_nonzero; lia).
  rewrite N.mod_small by (unfold u64; nia). rewrite N.mul_sub_distr_r. nia.
Qed.

Lemma halves : forall a, length a = 16%nat -> bytes_ok a ->
  bytes_ok (firstn 8 a) /\ bytes_ok (skipn 8 a) /\ ip_value (firstn 8 a) < 2 ^ 64 /\ ip_value (skipn 8 a) < 2 ^ 64 /\
  ip_value a = ip_value (firstn 8 a) * 2 ^ 64 + ip_value (skipn 8 a).
Proof.
  intros a La Ba. pose proof Ba as B. rewrite <- (firstn_skipn 8 a) in B. apply Forall_app in B. destruct B as [B1 B2].
  assert (L1 : length (firstn 8 a) = 8%nat) by (rewrite firstn_length; lia).
  assert (L2 : length (skipn 8 a) = 8%nat) by (rewrite skipn_length; lia).
  split; [exact B1|]. split; [exact B2|].
  pose proof (ip_value_lt _ B1) as A1. pose proof (ip_value_lt _ B2) as A2. rewrite L1 in A1. rewrite L2 in A2.
  split; [exact A1|]. split; [exact A2|].
  rewrite <- (firstn_skipn 8 a) at 1. rewrite ip_value_app, L2. reflexivity.
Qed.

(** Putting two halves together. *)
Lemma two_halves : forall h l, h < 2 ^ 64 -> l < 2 ^ 64 ->
  length (be_bytes 8 h ++ be_bytes 8 l) = 16%nat /\ bytes_ok (be_bytes 8 h ++ be_bytes 8 l) /\
  ip_value (be_bytes 8 h ++ be_bytes 8 l) = h * 2 ^ 64 + l.
Proof.
  intros h l Hh Hl. rewrite app_length, !be_bytes_length. split; [reflexivity|].
  split; [apply Forall_app; split; apply be_bytes_ok|].
  rewrite ip_value_app, be_bytes_length, !be_bytes_value by assumption. reflexivity.
Qed.

Lemma div_high : forall h l s, l < 2 ^ 64 -> s <= 64 ->
  (h * 2 ^ 64 + l) / 2 ^ (s + 64) * 2 ^ (s + 64) = h / 2 ^ s * 2 ^ s * 2 ^ 64.
Proof.
  intros h l s Hl Hs. rewrite N.pow_add_r, (N.mul_comm (2 ^ s)).
  rewrite <- N.div_div by (try apply N.pow_nonzero; lia). rewrite N.div_add_l by lia. rewrite (N.div_small l) by exact Hl.
  rewrite N.add_0_r. rewrite (N.mul_comm (2 ^ 64)), N.mul_assoc. reflexivity.
Qed.
Lemma div_low : forall h l s, s <= 64 -> (h * 2 ^ 64 + l) / 2 ^ s * 2 ^ s = h * 2 ^ 64 + l / 2 ^ s * 2 ^ s.
Proof.
  intros h l s Hs. assert (E : 2 ^ 64 = 2 ^ (64 - s) * 2 ^ s) by (rewrite <- N.pow_add_r; f_equal; lia).
  rewrite E, N.mul_assoc, N.div_add_l by (apply N.pow_nonzero; lia). lia.
Qed.
Lemma round_lt : forall v s w, v < 2 ^ w -> s <= w -> v / 2 ^ s * 2 ^ s + (2 ^ s - 1) < 2 ^ w.
Proof.
  intros v s w Hv Hs. assert (E : 2 ^ w = 2 ^ (w - s) * 2 ^ s) by (rewrite <- N.pow_add_r; f_equal; lia).
  assert (P : 0 < 2 ^ s) by (apply N.neq_0_lt_0, N.pow_nonzero; lia).
  assert (D : v / 2 ^ s < 2 ^ (w - s)) by (apply N.div_lt_upper_bound; lia). rewrite E. nia.
Qed.

Lemma ip6_block : forall a p, length a = 16%nat -> bytes_ok a -> 1 <= p <= 128 -> p <> 64 ->
  exists lo hi, ip6_lower a p = Ok lo /\ ip6_upper a p = Ok hi /\ is_block 16 (N.to_nat p) a lo hi.
Proof.
  intros a p La Ba Hp HN. destruct (halves a La Ba) as (B1 & B2 & H1 & H2 & EV).
  unfold ip6_lower, ip6_upper, ip6_masks. change be_num with ip_value.
  set (h := ip_value (firstn 8 a)) in *. set (l := ip_value (skipn 8 a)) in *.
  change (u64 - 1) with (N.ones 64).
  assert (LO : forall v s, s <= 64 -> v < 2 ^ 64 -> N.land v (N.ones 64 - N.ones s) = v / 2 ^ s * 2 ^ s) by (intros; apply mask_low; auto).
  assert (UP : forall s, s <= 64 -> N.ones 64 - (N.ones 64 - N.ones s) = N.ones s).
  { intros s Hs. rewrite !ones_eq. pose proof (N.pow_le_mono_r 2 s 64 ltac:(lia) Hs). pose proof (N.pow_nonzero 2 s). lia. }
  destruct (p <? 64) eqn:C1; [|destruct (p <? 128) eqn:C2].
  - apply N.ltb_lt in C1. rewrite half_mask by lia. cbn [bind fst snd].
    set (s := 64 - p). rewrite (LO h s) by (unfold s; lia). rewrite N.land_0_r. rewrite (UP s) by (unfold s; lia).
    rewrite N.sub_0_r, !mask_high. rewrite (N.div_small l) by exact H2. rewrite !ones_eq.
    pose proof (round_lt h s 64 H1 ltac:(unfold s; lia)) as R.
    destruct (two_halves (h / 2 ^ s * 2 ^ s) 0) as (A1 & A2 & A3); [lia|lia|].
    destruct (two_halves (h / 2 ^ s * 2 ^ s + (2 ^ s - 1)) (0 * 2 ^ 64 + (2 ^ 64 - 1))) as (A4 & A5 & A6); [lia|lia|].
    do 2 eexists. split; [reflexivity|]. split; [reflexivity|].
    assert (EX : N.of_nat (8 * 16 - N.to_nat p) = s + 64) by (unfold s; lia).
    apply block_of_values; auto; try lia; rewrite EX, EV, div_high by (unfold s; lia); [rewrite A3; lia|].
    rewrite A6, (N.pow_add_r 2 s 64). assert (0 < 2 ^ s) by (apply N.neq_0_lt_0, N.pow_nonzero; lia). nia.
  - apply N.ltb_ge in C1. apply N.ltb_lt in C2. rewrite half_mask by lia. cbn [bind fst snd].
    set (s := 64 - (p - 64)). rewrite (LO l s) by (unfold s; lia). rewrite (UP s) by (unfold s; lia).
    rewrite N.sub_diag, N.lor_0_r, mask_high. rewrite N.land_ones, (N.mod_small h) by exact H1. rewrite !ones_eq.
    pose proof (round_lt l s 64 H2 ltac:(unfold s; lia)) as R.
    destruct (two_halves h (l / 2 ^ s * 2 ^ s)) as (A1 & A2 & A3); [lia|lia|].
    destruct (two_halves h (l / 2 ^ s * 2 ^ s + (2 ^ s - 1))) as (A4 & A5 & A6); [lia|lia|].
    do 2 eexists. split; [reflexivity|]. split; [reflexivity|].
    assert (EX : N.of_nat (8 * 16 - N.to_nat p) = s) by (unfold s; lia).
    apply block_of_values; auto; try lia; rewrite EX, EV, div_low by (unfold s; lia); [rewrite A3; lia|rewrite A6; lia].
  - apply N.ltb_ge in C2. assert (p = 128) by lia. subst p. cbn [bind fst snd].
    rewrite N.sub_diag, !N.lor_0_r, !N.land_ones, (N.mod_small h), (N.mod_small l) by assumption.
    destruct (two_halves h l H1 H2) as (A1 & A2 & A3).
    do 2 eexists. split; [reflexivity|]. split; [reflexivity|].
    apply block_of_values; auto; try lia; change (N.of_nat (8 * 16 - N.to_nat 128)) with 0; change (2 ^ 0) with 1;
      rewrite N.div_1_r, A3, EV; lia.
Qed.
