(** Proofs about varints, triplets and pairs. *)
From Verif Require Import Base BaseFacts ModelVarint.

(** Little-endian base-128 value of a byte list (continuation bits ignored). *)
Fixpoint vval (l : bytes) : N :=
  match l with
  | [] => 0
  | b :: t => b mod 128 + 128 * vval t
  end.

(** A terminated varint: continuation bytes then one byte below 128. *)
Fixpoint packed (l : bytes) : Prop :=
  match l with
  | [] => False
  | b :: t => (b < 128 /\ t = []) \/ (128 <= b < 256 /\ packed t)
  end.

Lemma packed_bytes_ok : forall l, packed l -> bytes_ok l.
Proof.
  induction l as [|b t IH]; cbn; [tauto|].
  intros [[H ->]|[H H']]; constructor; unfold byte_ok; try lia; [constructor | apply IH; exact H'].
Qed.

Lemma packed_nonempty : forall l, packed l -> (1 <= length l)%nat.
Proof. destruct l; cbn; [tauto|lia]. Qed.

Lemma length_packed_from_ok : forall l n i rest,
  packed l -> (length l <= n)%nat ->
  varint_length_packed_from n i (l ++ rest) = Ok (i + length l)%nat.
Proof.
  induction l as [|b t IH]; intros n i rest Hp Hn; [destruct Hp|].
  cbn [length] in Hn. destruct n as [|n]; [lia|].
  cbn [app varint_length_packed_from length].
  destruct Hp as [[Hb ->]|[Hb Ht]].
  - rewrite land_128_lt by lia. apply N.ltb_lt in Hb. rewrite Hb. cbn. f_equal. lia.
  - rewrite land_128_lt by lia.
    destruct (N.ltb_spec b 128); [lia|].
    rewrite IH by (assumption || lia). f_equal. lia.
Qed.

Lemma vval_bound : forall l, vval l < 2 ^ (7 * N.of_nat (length l)).
Proof.
  induction l as [|b t IH]; cbn [vval length]; [cbn; lia|].
  replace (7 * N.of_nat (S (length t))) with (7 + 7 * N.of_nat (length t)) by lia.
  rewrite N.pow_add_r. change (2 ^ 7) with 128.
  pose proof (N.mod_lt b 128). nia.
Qed.

Lemma packed_cases : forall l, packed l -> 
  match l with
  | [] => False
  | b :: [] => b < 128
  | b :: t => 128 <= b < 256 /\ packed t
  end.
Proof.
  intros [|b [|c t]]; cbn [packed]; try tauto.
  intros [[_ H]|H]; [discriminate|exact H].
Qed.

Lemma decode64_loop_ok : forall l rest s val,
  packed l -> val < 2 ^ s -> val + 2 ^ s * vval l < u64 ->
  varint_decode64_loop (length l) (l ++ rest) s val = Ok (val + 2 ^ s * vval l).
Proof.
  induction l as [|b t IH]; intros rest s val Hp Hv Hb; [destruct Hp|].
  cbn [length app varint_decode64_loop vval] in *.
  rewrite land_127.
  assert (Hm : b mod 128 < 128) by (apply N.mod_lt; lia).
  assert (Hsmall : N.shiftl (b mod 128) s mod u64 = N.shiftl (b mod 128) s).
  { apply N.mod_small. rewrite N.shiftl_mul_pow2. nia. }
  rewrite Hsmall, lor_shiftl_add by exact Hv.
  assert (Hp2 : 2 ^ (s + 7) = 2 ^ s * 128) by (rewrite N.pow_add_r; reflexivity).
  destruct Hp as [[_ ->]|[_ Ht]].
  - cbn. f_equal. lia.
  - rewrite IH; [f_equal; rewrite Hp2; lia | exact Ht | rewrite Hp2; nia |].
    rewrite Hp2. lia.
Qed.

Ltac vsimp :=
  repeat (rewrite lor_shiftl_add; [| try change (2 ^ 7) with 128; try change (2 ^ 14) with 16384;
     try change (2^21) with 2097152; try change (2^28) with 268435456; lia]).

Lemma decode32_ok : forall l rest,
  packed l -> (length l <= 5)%nat -> vval l < u32 ->
  varint_decode32 (l ++ rest) = Ok (length l, vval l).
Proof.
  intros l rest Hp Hl Hv. unfold varint_decode32, varint_length_packed.
  rewrite (length_packed_from_ok l 5 0 rest Hp Hl). cbn [bind Nat.add].
  destruct l as [|b0 l]; [destruct Hp|].
  cbn [app]. unfold rd at 1. cbn [nth_error bind]. rewrite land_127.
  destruct l as [|b1 l]; [cbn [length Nat.ltb Nat.leb vval]; f_equal; f_equal; lia|].
  apply packed_cases in Hp; destruct Hp as [Hb0 Hp].
  cbn [length app Nat.ltb Nat.leb]. unfold rd at 1. cbn [nth_error bind]. rewrite land_127.
  vsimp.
  destruct l as [|b2 l]; [cbn [length Nat.ltb Nat.leb vval]; f_equal; f_equal; change (2^7) with 128; lia|].
  apply packed_cases in Hp; destruct Hp as [Hb1 Hp].
  cbn [length app Nat.ltb Nat.leb]. unfold rd at 1. cbn [nth_error bind]. rewrite land_127.
  vsimp.
  destruct l as [|b3 l]; [cbn [length Nat.ltb Nat.leb vval]; f_equal; f_equal; change (2^7) with 128; change (2^14) with 16384; lia|].
  apply packed_cases in Hp; destruct Hp as [Hb2 Hp].
  cbn [length app Nat.ltb Nat.leb]. unfold rd at 1. cbn [nth_error bind]. rewrite land_127.
  vsimp.
  destruct l as [|b4 l]; [cbn [length Nat.ltb Nat.leb vval]; f_equal; f_equal; change (2^7) with 128; change (2^14) with 16384; change (2^21) with 2097152; lia|].
  apply packed_cases in Hp; destruct Hp as [Hb3 Hp].
  destruct l as [|b5 l]; [|cbn [length] in Hl; lia].
  apply packed_cases in Hp.
  cbn [length app Nat.ltb Nat.leb]. unfold rd at 1. cbn [nth_error bind].
  cbn [vval] in Hv |- *. unfold u32 in *.
  rewrite (N.mod_small b4 128) in Hv |- * by exact Hp.
  rewrite (N.mod_small (N.shiftl b4 28)).
  - vsimp. f_equal. f_equal. change (2^7) with 128; change (2^14) with 16384; change (2^21) with 2097152; change (2^28) with 268435456. lia.
  - rewrite N.shiftl_mul_pow2. change (2^28) with 268435456. lia.
Qed.

Lemma decode64_ok : forall l rest,
  packed l -> (length l <= 10)%nat -> vval l < u64 ->
  varint_decode64 (l ++ rest) = Ok (length l, vval l).
Proof.
  intros l rest Hp Hl Hv. unfold varint_decode64, varint_length_packed.
  rewrite (length_packed_from_ok l 10 0 rest Hp Hl). cbn [bind Nat.add].
  destruct (Nat.ltb_spec (length l) 5) as [H5|H5].
  - apply decode32_ok; [exact Hp|lia|].
    pose proof (vval_bound l) as Hb.
    assert (2 ^ (7 * N.of_nat (length l)) <= 2 ^ 28) by (apply N.pow_le_mono_r; lia).
    change (2 ^ 28) with 268435456 in H. unfold u32. lia.
  - destruct l as [|b0 [|b1 [|b2 [|b3 l]]]]; cbn [length] in H5; try lia.
    apply packed_cases in Hp; destruct Hp as [Hb0 Hp].
    apply packed_cases in Hp; destruct Hp as [Hb1 Hp].
    apply packed_cases in Hp; destruct Hp as [Hb2 Hp].
    destruct l as [|b4 l]; [cbn [length] in H5; lia|].
    apply packed_cases in Hp; destruct Hp as [Hb3 Hp].
    unfold rd. cbn [app nth_error bind].
    rewrite !land_127.
    rewrite (lor_shiftl_add (b0 mod 128) _ 7) by (change (2^7) with 128; lia).
    rewrite (lor_shiftl_add _ (b2 mod 128) 14) by (change (2^7) with 128; change (2^14) with 16384; lia).
    rewrite (lor_shiftl_add _ (b3 mod 128) 21) by (change (2^7) with 128; change (2^14) with 16384; change (2^21) with 2097152; lia).
    replace (length (b0 :: b1 :: b2 :: b3 :: b4 :: l) - 4)%nat with (length (b4 :: l)) by (cbn [length]; lia).
    change (skipn 4 (b0 :: b1 :: b2 :: b3 :: b4 :: l ++ rest)) with ((b4 :: l) ++ rest).
    rewrite decode64_loop_ok; [|exact Hp| |].
    + cbn [bind]. f_equal. f_equal. cbn [vval]. change (2^7) with 128; change (2^14) with 16384; change (2^21) with 2097152; change (2^28) with 268435456. lia.
    + change (2^7) with 128; change (2^14) with 16384; change (2^21) with 2097152; change (2^28) with 268435456. lia.
    + cbn [vval] in Hv |- *. change (2^7) with 128; change (2^14) with 16384; change (2^21) with 2097152; change (2^28) with 268435456. lia.
Qed.

Lemma encode64_loop_ok : forall n v, v < 2 ^ (7 * (N.of_nat n + 1)) ->
  packed (varint_encode64_loop n v) /\ vval (varint_encode64_loop n v) = v /\
  (length (varint_encode64_loop n v) <= S n)%nat.
Proof.
  induction n as [|n IH]; intros v Hv; cbn [varint_encode64_loop].
  - change (2 ^ (7 * (N.of_nat 0 + 1))) with 128 in Hv.
    unfold to_byte. rewrite N.mod_small by lia.
    cbn. rewrite (N.mod_small v 128) by exact Hv. repeat split; auto; lia.
  - destruct (N.leb_spec 128 v) as [H|H].
    + rewrite land_127. assert (v mod 128 < 128) by (apply N.mod_lt; lia).
      rewrite lor_128_lt by assumption.
      destruct (IH (N.shiftr v 7)) as (Hp & Hval & Hlen).
      { rewrite N.shiftr_div_pow2. change (2 ^ 7) with 128.
        apply N.div_lt_upper_bound; [lia|].
        replace (7 * (N.of_nat (S n) + 1)) with (7 + 7 * (N.of_nat n + 1)) in Hv by lia.
        rewrite N.pow_add_r in Hv. change (2 ^ 7) with 128 in Hv. exact Hv. }
      cbn [packed vval length]. repeat split.
      * right. split; [lia|exact Hp].
      * rewrite Hval. rewrite N.shiftr_div_pow2. change (2 ^ 7) with 128. lia.
      * lia.
    + unfold to_byte. rewrite N.mod_small by lia.
      cbn. rewrite (N.mod_small v 128) by exact H. repeat split; auto; lia.
Qed.

Lemma u64_lt_70 : u64 < 2 ^ (7 * (N.of_nat 9 + 1)).
Proof. vm_compute. reflexivity. Qed.

(** The loop with bound 10 and with bound 9 agree on 64-bit values. *)
Lemma encode64_loop_mono : forall n v, v < 2 ^ (7 * (N.of_nat n + 1)) ->
  varint_encode64_loop (S n) v = varint_encode64_loop n v.
Proof.
  induction n as [|n IH]; intros v Hv.
  - change (2 ^ (7 * (N.of_nat 0 + 1))) with 128 in Hv. cbn.
    destruct (N.leb_spec 128 v); [lia|reflexivity].
  - change (varint_encode64_loop (S (S n)) v) with
      (if 128 <=? v then N.lor (N.land v 127) 128 :: varint_encode64_loop (S n) (N.shiftr v 7) else [to_byte v]).
    change (varint_encode64_loop (S n) v) with
      (if 128 <=? v then N.lor (N.land v 127) 128 :: varint_encode64_loop n (N.shiftr v 7) else [to_byte v]).
    destruct (128 <=? v); [|reflexivity].
    rewrite IH; [reflexivity|].
    rewrite N.shiftr_div_pow2. change (2 ^ 7) with 128.
    apply N.div_lt_upper_bound; [lia|].
    replace (7 * (N.of_nat (S n) + 1)) with (7 + 7 * (N.of_nat n + 1)) in Hv by lia.
    rewrite N.pow_add_r in Hv. change (2 ^ 7) with 128 in Hv. exact Hv.
Qed.

Lemma encode64_packed : forall v, v < u64 ->
  packed (varint_encode64 v) /\ vval (varint_encode64 v) = v /\
  (length (varint_encode64 v) <= 10)%nat.
Proof.
  intros v Hv. unfold varint_encode64.
  assert (v < 2 ^ (7 * (N.of_nat 9 + 1))) by (pose proof u64_lt_70; lia).
  rewrite encode64_loop_mono by assumption. apply encode64_loop_ok. assumption.
Qed.

Lemma varint64_roundtrip : forall v rest, v < u64 ->
  varint_decode64 (varint_encode64 v ++ rest) = Ok (length (varint_encode64 v), v).
Proof.
  intros v rest Hv. destruct (encode64_packed v Hv) as (Hp & Hval & Hl).
  rewrite decode64_ok; [rewrite Hval; reflexivity|exact Hp|exact Hl|rewrite Hval; exact Hv].
Qed.

Lemma to_byte_lor128 : forall v, to_byte (N.lor v 128) = v mod 128 + 128.
Proof.
  intro v. unfold to_byte. change 256 with (2 ^ 8). rewrite <- N.land_ones.
  rewrite N.land_lor_distr_l. rewrite !N.land_ones. change (2^8) with 256.
  rewrite (N.mod_small 128) by lia.
  pose proof (N.mod_lt v 256) as H. assert (H' : v mod 256 < 256) by (apply N.mod_lt; lia).
  rewrite <- (N.mod_mod v 128) at 1 by lia.
  assert (E : v mod 128 = (v mod 256) mod 128).
  { change 256 with (128 * 2). rewrite N.mod_mul_r by lia. lia. }
  rewrite E. rewrite N.mod_mod by lia. clear E H.
  revert H'. generalize (v mod 256) as b. intros b Hb.
  pose proof (byte_sweep (fun b => N.lor b 128 =? b mod 128 + 128)) as S.
  apply N.eqb_eq. apply S; [vm_compute; reflexivity|exact Hb].
Qed.

Lemma encode32_eq_64 : forall v, v < u32 -> varint_encode32 v = varint_encode64 v.
Proof.
  intros v Hv. unfold varint_encode32, varint_encode64, u32 in *.
  change (N.shiftl 1 7) with 128. change (N.shiftl 1 14) with 16384.
  change (N.shiftl 1 21) with 2097152. change (N.shiftl 1 28) with 268435456.
  assert (Hb : forall x, N.lor (N.land x 127) 128 = to_byte (N.lor x 128)).
  { intro x. rewrite to_byte_lor128, land_127. apply lor_128_lt. apply N.mod_lt. lia. }
  assert (Hsh : forall a, N.shiftr (N.shiftr v a) 7 = N.shiftr v (a + 7)) by (intro; apply N.shiftr_shiftr).
  assert (H7 : N.shiftr v 7 = v / 128) by (rewrite N.shiftr_div_pow2; reflexivity).
  assert (H14 : N.shiftr v 14 = v / 16384) by (rewrite N.shiftr_div_pow2; reflexivity).
  assert (H21 : N.shiftr v 21 = v / 2097152) by (rewrite N.shiftr_div_pow2; reflexivity).
  assert (H28 : N.shiftr v 28 = v / 268435456) by (rewrite N.shiftr_div_pow2; reflexivity).
  cbn [varint_encode64_loop]. rewrite !Hb.
  rewrite !Hsh. change (7 + 7) with 14. change (14 + 7) with 21. change (21 + 7) with 28.
  destruct (N.ltb_spec v 128); destruct (N.leb_spec 128 v); try lia; [reflexivity|].
  destruct (N.ltb_spec v 16384); destruct (N.leb_spec 128 (N.shiftr v 7)); try lia; [reflexivity|].
  destruct (N.ltb_spec v 2097152); destruct (N.leb_spec 128 (N.shiftr v 14)); try lia; [reflexivity|].
  destruct (N.ltb_spec v 268435456); destruct (N.leb_spec 128 (N.shiftr v 21)); try lia; [reflexivity|].
  destruct (N.leb_spec 128 (N.shiftr v 28)); [lia|reflexivity].
Qed.

Lemma encode64_length_5 : forall v, v < u32 -> (length (varint_encode64 v) <= 5)%nat.
Proof.
  intros v Hv. rewrite <- encode32_eq_64 by exact Hv. unfold varint_encode32.
  repeat match goal with |- context [if ?c then _ else _] => destruct c end; cbn; lia.
Qed.

Lemma varint32_roundtrip : forall v rest, v < u32 ->
  varint_decode32 (varint_encode32 v ++ rest) = Ok (length (varint_encode32 v), v).
Proof.
  intros v rest Hv. rewrite encode32_eq_64 by exact Hv.
  destruct (encode64_packed v) as (Hp & Hval & _); [unfold u32, u64 in *; lia|].
  rewrite decode32_ok; [rewrite Hval; reflexivity|exact Hp|apply encode64_length_5; exact Hv|rewrite Hval; exact Hv].
Qed.

Lemma triplet_roundtrip : forall a b c, a < u64 -> b < u64 -> c < u64 ->
  triplet_unpack (triplet_pack a b c) = Ok (a, b, c).
Proof.
  intros a b c Ha Hb Hc. unfold triplet_unpack, triplet_pack.
  rewrite varint64_roundtrip by exact Ha. cbn [bind fst snd].
  rewrite skipn_app_len. rewrite varint64_roundtrip by exact Hb. cbn [bind fst snd].
  rewrite <- app_length. rewrite app_assoc, skipn_app_len.
  rewrite <- (app_nil_r (varint_encode64 c)) at 1.
  rewrite varint64_roundtrip by exact Hc. cbn [bind fst snd].
  rewrite <- app_length, Nat.eqb_refl. reflexivity.
Qed.

Lemma triplet_pack_length : forall a b c, a < u64 -> b < u64 -> c < u64 ->
  (3 <= length (triplet_pack a b c) <= 30)%nat.
Proof.
  intros a b c Ha Hb Hc. unfold triplet_pack. rewrite !app_length.
  destruct (encode64_packed a Ha) as (Pa & _ & ?). destruct (encode64_packed b Hb) as (Pb & _ & ?).
  destruct (encode64_packed c Hc) as (Pc & _ & ?).
  apply packed_nonempty in Pa. apply packed_nonempty in Pb. apply packed_nonempty in Pc. lia.
Qed.

Lemma pair_roundtrip : forall a b, a < u64 -> b < u64 -> pair_unpack (pair_pack a b) = Ok (a, b).
Proof.
  intros a b Ha Hb. unfold pair_unpack, pair_pack.
  rewrite varint64_roundtrip by exact Ha. cbn [bind fst snd].
  rewrite skipn_app_len.
  rewrite <- (app_nil_r (varint_encode64 b)) at 1.
  rewrite varint64_roundtrip by exact Hb. cbn [bind fst snd].
  rewrite <- app_length, Nat.eqb_refl. reflexivity.
Qed.

Lemma pair_pack_length : forall a b, a < u64 -> b < u64 -> (2 <= length (pair_pack a b) <= 20)%nat.
Proof.
  intros a b Ha Hb. unfold pair_pack. rewrite !app_length.
  destruct (encode64_packed a Ha) as (Pa & _ & ?). destruct (encode64_packed b Hb) as (Pb & _ & ?).
  apply packed_nonempty in Pa. apply packed_nonempty in Pb. lia.
Qed.

Lemma encode64_bytes_ok : forall v, v < u64 -> bytes_ok (varint_encode64 v).
Proof. intros v Hv. apply packed_bytes_ok. apply encode64_packed. exact Hv. Qed.

(** Trailing bytes after a packed triplet are rejected. *)
Lemma triplet_trailing : forall a b c x rest, a < u64 -> b < u64 -> c < u64 ->
  triplet_unpack (triplet_pack a b c ++ x :: rest) = Fail.
Proof.
  intros a b c x rest Ha Hb Hc. unfold triplet_unpack, triplet_pack.
  rewrite <- !app_assoc.
  rewrite varint64_roundtrip by exact Ha. cbn [bind fst snd].
  rewrite skipn_app_len. rewrite varint64_roundtrip by exact Hb. cbn [bind fst snd].
  rewrite <- app_length.
  rewrite (app_assoc (varint_encode64 a)), skipn_app_len.
  rewrite varint64_roundtrip by exact Hc. cbn [bind fst snd].
  rewrite <- !app_length.
  match goal with |- context [Nat.eqb ?m ?n] => destruct (Nat.eqb_spec m n) as [E|E]; [|reflexivity] end.
  rewrite !app_length in E. cbn [length] in E. lia.
Qed.

Lemma pair_trailing : forall a b x rest, a < u64 -> b < u64 ->
  pair_unpack (pair_pack a b ++ x :: rest) = Fail.
Proof.
  intros a b x rest Ha Hb. unfold pair_unpack, pair_pack.
  rewrite <- !app_assoc.
  rewrite varint64_roundtrip by exact Ha. cbn [bind fst snd].
  rewrite skipn_app_len. rewrite varint64_roundtrip by exact Hb. cbn [bind fst snd].
  rewrite <- !app_length.
  match goal with |- context [Nat.eqb ?m ?n] => destruct (Nat.eqb_spec m n) as [E|E]; [|reflexivity] end.
  rewrite !app_length in E. cbn [length] in E. lia.
Qed.
