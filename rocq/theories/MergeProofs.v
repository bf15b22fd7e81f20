(** Proofs about dnstable_merge_func except for the RRtype unions. *)
From Coq Require Import Permutation.
From Verif Require Import Base BaseFacts ModelVarint VarintProofs ModelUnion ModelMerge SpecMerge.

(** ** leb128 and the encoders *)

Lemma leb128_encode_loop : forall n v, v < 2 ^ (7 * (N.of_nat n + 1)) ->
  leb128 v (varint_encode64_loop n v).
Proof.
  induction n as [|n IH]; intros v Hv; cbn [varint_encode64_loop].
  - change (2 ^ (7 * (N.of_nat 0 + 1))) with 128 in Hv.
    unfold to_byte. rewrite N.mod_small by lia. constructor. exact Hv.
  - destruct (N.leb_spec 128 v) as [H|H].
    + rewrite land_127, lor_128_lt by (apply N.mod_lt; lia).
      constructor; [exact H|].
      replace (v / 128) with (N.shiftr v 7) by (rewrite N.shiftr_div_pow2; reflexivity).
      apply IH. rewrite N.shiftr_div_pow2. change (2 ^ 7) with 128.
      apply N.div_lt_upper_bound; [lia|].
      replace (7 * (N.of_nat (S n) + 1)) with (7 + 7 * (N.of_nat n + 1)) in Hv by lia.
      rewrite N.pow_add_r in Hv. change (2 ^ 7) with 128 in Hv. exact Hv.
    + unfold to_byte. rewrite N.mod_small by lia. constructor. exact H.
Qed.

Lemma leb128_encode64 : forall v, v < u64 -> leb128 v (varint_encode64 v).
Proof.
  intros v Hv. unfold varint_encode64. apply leb128_encode_loop.
  apply N.lt_trans with (m := u64); [exact Hv | vm_compute; reflexivity].
Qed.

Lemma leb128_det : forall v a b, leb128 v a -> leb128 v b -> a = b.
Proof.
  intros v a b Ha. revert b. induction Ha as [v H|v l H Ha IH]; intros b Hb.
  - inversion Hb; subst; [reflexivity|lia].
  - inversion Hb; subst; [lia|]. f_equal. apply IH. assumption.
Qed.

Lemma leb128_is_encode64 : forall v l, v < u64 -> leb128 v l -> l = varint_encode64 v.
Proof. intros v l Hv H. eapply leb128_det; [exact H|]. apply leb128_encode64. exact Hv. Qed.

Lemma obs_value_pack : forall o v, obs_ok o ->
  (obs_value o v <-> v = triplet_pack (o_first o) (o_last o) (o_count o)).
Proof.
  intros o v (H1 & H2 & H3). unfold obs_value, triplet_pack. split.
  - intros (a & b & c & Ha & Hb & Hc & ->).
    rewrite (leb128_is_encode64 _ _ H1 Ha), (leb128_is_encode64 _ _ H2 Hb),
            (leb128_is_encode64 _ _ H3 Hc). reflexivity.
  - intros ->. eauto 10 using leb128_encode64.
Qed.

Lemma pair_value_pack : forall p v, fst p < u64 -> snd p < u64 ->
  (pair_value p v <-> v = pair_pack (fst p) (snd p)).
Proof.
  intros p v H1 H2. unfold pair_value, pair_pack. split.
  - intros (a & b & Ha & Hb & ->).
    rewrite (leb128_is_encode64 _ _ H1 Ha), (leb128_is_encode64 _ _ H2 Hb). reflexivity.
  - intros ->. eauto 10 using leb128_encode64.
Qed.

(** ** Bounds on decoded values *)

Lemma lor_lt_pow2 : forall a b k, a < 2 ^ k -> b < 2 ^ k -> N.lor a b < 2 ^ k.
Proof.
  intros a b k Ha Hb.
  destruct (N.eq_dec (N.lor a b) 0) as [E|E].
  - rewrite E. assert (2 ^ k <> 0) by (apply N.pow_nonzero; lia). lia.
  - apply N.log2_lt_pow2; [lia|]. rewrite N.log2_lor.
    assert (Hl : forall x, x < 2 ^ k -> x = 0 \/ N.log2 x < k).
    { intros x Hx. destruct (N.eq_dec x 0); [auto|]. right. apply N.log2_lt_pow2; lia. }
    destruct (Hl a Ha) as [->|H1]; destruct (Hl b Hb) as [->|H2].
    + rewrite N.lor_0_l in E. congruence.
    + rewrite N.max_0_l by idtac. exact H2.
    + rewrite N.max_0_r. exact H1.
    + apply N.max_lub_lt; assumption.
Qed.

Lemma shiftl_land127_bound : forall b s k, 7 + s <= k -> N.shiftl (N.land b 127) s < 2 ^ k.
Proof.
  intros b s k H. rewrite land_127, N.shiftl_mul_pow2.
  assert (b mod 128 < 128) by (apply N.mod_lt; lia).
  apply N.lt_le_trans with (m := 2 ^ (7 + s)).
  - rewrite N.pow_add_r. change (2 ^ 7) with 128.
    assert (2 ^ s <> 0) by (apply N.pow_nonzero; lia). nia.
  - apply N.pow_le_mono_r; lia.
Qed.

Lemma rd_ok : forall l i x, rd l i = Ok x -> nth_error l i = Some x.
Proof. intros l i x. unfold rd. destruct (nth_error l i); congruence. Qed.

Lemma land127_bound : forall b k, 7 <= k -> N.land b 127 < 2 ^ k.
Proof.
  intros b k H. rewrite land_127. apply N.lt_le_trans with (m := 2 ^ 7).
  - apply N.mod_lt. lia.
  - apply N.pow_le_mono_r; lia.
Qed.

Lemma decode32_bound : forall l n v, varint_decode32 l = Ok (n, v) -> v < u32.
Proof.
  intros l n v. change u32 with (2 ^ 32). unfold varint_decode32.
  destruct (varint_length_packed l 5) as [len| | | |]; cbn [bind]; try discriminate.
  destruct (rd l 0) as [b0| | | |]; cbn [bind]; try discriminate.
  assert (B0 : N.land b0 127 < 2 ^ 32) by (apply land127_bound; lia).
  destruct (Nat.ltb 1 len).
  2: { intro E; inversion E; subst; exact B0. }
  destruct (rd l 1) as [b1| | | |]; cbn [bind]; try discriminate.
  pose proof (lor_lt_pow2 _ _ 32 B0 (shiftl_land127_bound b1 7 32 ltac:(lia))) as B1.
  destruct (Nat.ltb 2 len).
  2: { intro E; inversion E; subst; exact B1. }
  destruct (rd l 2) as [b2| | | |]; cbn [bind]; try discriminate.
  pose proof (lor_lt_pow2 _ _ 32 B1 (shiftl_land127_bound b2 14 32 ltac:(lia))) as B2.
  destruct (Nat.ltb 3 len).
  2: { intro E; inversion E; subst; exact B2. }
  destruct (rd l 3) as [b3| | | |]; cbn [bind]; try discriminate.
  pose proof (lor_lt_pow2 _ _ 32 B2 (shiftl_land127_bound b3 21 32 ltac:(lia))) as B3.
  destruct (Nat.ltb 4 len).
  2: { intro E; inversion E; subst; exact B3. }
  destruct (rd l 4) as [b4| | | |]; cbn [bind]; try discriminate.
  intro E; inversion E; subst. apply lor_lt_pow2; [exact B3|].
  apply N.mod_lt. unfold u32. lia.
Qed.

Lemma decode64_loop_bound : forall k data s val v,
  val < u64 -> varint_decode64_loop k data s val = Ok v -> v < u64.
Proof.
  induction k as [|k IH]; intros data s val v Hv; cbn [varint_decode64_loop].
  - intro E; inversion E; subst; exact Hv.
  - destruct data as [|b rest]; [discriminate|]. apply IH.
    change u64 with (2 ^ 64). apply lor_lt_pow2; [exact Hv|].
    apply N.mod_lt. vm_compute. discriminate.
Qed.

Lemma decode64_bound : forall l n v, varint_decode64 l = Ok (n, v) -> v < u64.
Proof.
  intros l n v. unfold varint_decode64.
  destruct (varint_length_packed l 10) as [len| | | |]; cbn [bind]; try discriminate.
  destruct (Nat.ltb len 5).
  { intro E. apply decode32_bound in E. unfold u32, u64 in *. lia. }
  destruct (rd l 0) as [b0| | | |]; cbn [bind]; try discriminate.
  destruct (rd l 1) as [b1| | | |]; cbn [bind]; try discriminate.
  destruct (rd l 2) as [b2| | | |]; cbn [bind]; try discriminate.
  destruct (rd l 3) as [b3| | | |]; cbn [bind]; try discriminate.
  destruct (varint_decode64_loop _ _ _ _) as [x| | | |] eqn:E; cbn [bind]; try discriminate.
  intro E'; inversion E'; subst. apply decode64_loop_bound in E; [exact E|].
  change u64 with (2 ^ 64).
  repeat apply lor_lt_pow2.
  - apply land127_bound; lia.
  - apply shiftl_land127_bound; lia.
  - apply shiftl_land127_bound; lia.
  - apply shiftl_land127_bound; lia.
Qed.

Lemma triplet_unpack_bound : forall v a b c, triplet_unpack v = Ok (a, b, c) ->
  a < u64 /\ b < u64 /\ c < u64.
Proof.
  intros v a b c. unfold triplet_unpack.
  destruct (varint_decode64 v) as [[n1 x1]| | | |] eqn:E1; cbn [bind fst snd]; try discriminate.
  destruct (varint_decode64 (skipn n1 v)) as [[n2 x2]| | | |] eqn:E2; cbn [bind fst snd]; try discriminate.
  destruct (varint_decode64 (skipn (n1 + n2) v)) as [[n3 x3]| | | |] eqn:E3; cbn [bind fst snd]; try discriminate.
  destruct (Nat.eqb _ _); [|discriminate].
  intro E; inversion E; subst; repeat split; eauto using decode64_bound.
Qed.

Lemma pair_unpack_bound : forall v a b, pair_unpack v = Ok (a, b) -> a < u64 /\ b < u64.
Proof.
  intros v a b. unfold pair_unpack.
  destruct (varint_decode64 v) as [[n1 x1]| | | |] eqn:E1; cbn [bind fst snd]; try discriminate.
  destruct (varint_decode64 (skipn n1 v)) as [[n2 x2]| | | |] eqn:E2; cbn [bind fst snd]; try discriminate.
  destruct (Nat.eqb _ _); [|discriminate].
  intro E; inversion E; subst; repeat split; eauto using decode64_bound.
Qed.

Lemma triplet_unpack_nil : triplet_unpack [] = UB.
Proof. reflexivity. Qed.
Lemma pair_unpack_nil : pair_unpack [] = UB.
Proof. reflexivity. Qed.

(** ** One merge step *)

Lemma if_ltb_min : forall a b, (if a <? b then a else b) = N.min a b.
Proof. intros. destruct (N.ltb_spec a b); lia. Qed.
Lemma if_ltb_max : forall a b, (if b <? a then a else b) = N.max a b.
Proof. intros. destruct (N.ltb_spec b a); lia. Qed.

Lemma merge_triplets_ok : forall v0 v1 f0 l0 c0 f1 l1 c1,
  triplet_unpack v0 = Ok (f0, l0, c0) -> triplet_unpack v1 = Ok (f1, l1, c1) ->
  merge_triplets v0 v1 = Ok (triplet_pack (N.min f0 f1) (N.max l0 l1) ((c0 + c1) mod u64)).
Proof.
  intros v0 v1 f0 l0 c0 f1 l1 c1 H0 H1.
  destruct v0 as [|x0 v0]; [discriminate H0|].
  destruct v1 as [|x1 v1]; [discriminate H1|].
  unfold merge_triplets. rewrite H0, H1. cbn [assert_ok bind].
  rewrite if_ltb_min, if_ltb_max. reflexivity.
Qed.

Lemma merge_time_range_ok : forall v0 v1 f0 l0 f1 l1,
  pair_unpack v0 = Ok (f0, l0) -> pair_unpack v1 = Ok (f1, l1) ->
  merge_time_range v0 v1 = Ok (pair_pack (N.min f0 f1) (N.max l0 l1)).
Proof.
  intros v0 v1 f0 l0 f1 l1 H0 H1.
  destruct v0 as [|x0 v0]; [discriminate H0|].
  destruct v1 as [|x1 v1]; [discriminate H1|].
  unfold merge_time_range. rewrite H0, H1. cbn [assert_ok bind].
  rewrite if_ltb_min, if_ltb_max. reflexivity.
Qed.

(** ** Merge trees over RRset/RData values *)

Definition is_node (t : mtree) : Prop := match t with MLeaf _ => False | MNode _ _ => True end.

Lemma is_min_app : forall a b l1 l2, is_min a l1 -> is_min b l2 -> is_min (N.min a b) (l1 ++ l2).
Proof.
  intros a b l1 l2 [Ia Ha] [Ib Hb]. split.
  - apply in_or_app. destruct (N.min_spec a b) as [[_ ->]|[_ ->]]; auto.
  - intros x Hx. apply in_app_or in Hx. destruct Hx as [Hx|Hx]; [apply Ha in Hx|apply Hb in Hx]; lia.
Qed.
Lemma is_max_app : forall a b l1 l2, is_max a l1 -> is_max b l2 -> is_max (N.max a b) (l1 ++ l2).
Proof.
  intros a b l1 l2 [Ia Ha] [Ib Hb]. split.
  - apply in_or_app. destruct (N.max_spec a b) as [[_ ->]|[_ ->]]; auto.
  - intros x Hx. apply in_app_or in Hx. destruct Hx as [Hx|Hx]; [apply Ha in Hx|apply Hb in Hx]; lia.
Qed.
Lemma is_min_one : forall a, is_min a [a].
Proof. split; [left; reflexivity|]. intros x [->|[]]. lia. Qed.
Lemma is_max_one : forall a, is_max a [a].
Proof. split; [left; reflexivity|]. intros x [->|[]]. lia. Qed.
Lemma is_min_uniq : forall a b l, is_min a l -> is_min b l -> a = b.
Proof. intros a b l [Ia Ha] [Ib Hb]. apply Ha in Ib. apply Hb in Ia. lia. Qed.
Lemma is_max_uniq : forall a b l, is_max a l -> is_max b l -> a = b.
Proof. intros a b l [Ia Ha] [Ib Hb]. apply Ha in Ib. apply Hb in Ia. lia. Qed.
Lemma is_min_perm : forall a l l', Permutation l l' -> is_min a l -> is_min a l'.
Proof.
  intros a l l' P [I H]. split; [eapply Permutation_in; eauto|].
  intros x Hx. apply H. eapply Permutation_in; [apply Permutation_sym; exact P|exact Hx].
Qed.
Lemma is_max_perm : forall a l l', Permutation l l' -> is_max a l -> is_max a l'.
Proof.
  intros a l l' P [I H]. split; [eapply Permutation_in; eauto|].
  intros x Hx. apply H. eapply Permutation_in; [apply Permutation_sym; exact P|exact Hx].
Qed.
Lemma nsum_app : forall a b, nsum (a ++ b) = nsum a + nsum b.
Proof. induction a as [|x a IH]; intro b; cbn; [reflexivity|]. fold (nsum (a ++ b)). rewrite IH. cbn. fold (nsum a). lia. Qed.
Lemma nsum_perm : forall l l', Permutation l l' -> nsum l = nsum l'.
Proof. induction 1; cbn in *; unfold nsum in *; lia. Qed.

Definition triplet_of (v : bytes) (o : N * N * N) : Prop := triplet_unpack v = Ok o.
Definition t1 (o : N * N * N) : N := fst (fst o).
Definition t2 (o : N * N * N) : N := snd (fst o).
Definition t3 (o : N * N * N) : N := snd o.

Lemma mod_add_mod : forall a b n, n <> 0 -> (a mod n + b mod n) mod n = (a + b) mod n.
Proof. intros. rewrite <- N.add_mod by assumption. reflexivity. Qed.

Lemma meval_triplets : forall key k rest t os,
  key = k :: rest -> (k = ENTRY_TYPE_RRSET \/ k = ENTRY_TYPE_RDATA) ->
  Forall2 triplet_of (mleaves t) os ->
  exists f l c v, meval key t = Ok v /\ triplet_unpack v = Ok (f, l, c) /\
    is_min f (map t1 os) /\ is_max l (map t2 os) /\ c = nsum (map t3 os) mod u64 /\
    (is_node t -> v = triplet_pack f l c).
Proof.
  intros key k rest t os -> Hk. revert os.
  induction t as [v|tl IHl tr IHr]; intros os HF; cbn [mleaves] in HF.
  - inversion HF as [|? o ? os' Ho HF']; subst. inversion HF'; subst.
    destruct o as [[f l] c]. unfold triplet_of in Ho.
    exists f, l, c, v. cbn [map t1 t2 t3 fst snd].
    repeat split; try (left; reflexivity); auto.
    + intros x [<-|[]]; cbn; lia.
    + intros x [<-|[]]; cbn; lia.
    + apply triplet_unpack_bound in Ho. unfold nsum; cbn [fold_right map t3 snd].
      rewrite N.add_0_r, N.mod_small; tauto.
    + intros [].
  - apply Forall2_app_inv_l in HF. destruct HF as (os1 & os2 & HF1 & HF2 & ->).
    destruct (IHl _ HF1) as (f1 & l1 & c1 & v1 & E1 & U1 & Mi1 & Ma1 & S1 & _).
    destruct (IHr _ HF2) as (f2 & l2 & c2 & v2 & E2 & U2 & Mi2 & Ma2 & S2 & _).
    pose proof (triplet_unpack_bound _ _ _ _ U1) as (B1 & B2 & B3).
    pose proof (triplet_unpack_bound _ _ _ _ U2) as (B4 & B5 & B6).
    exists (N.min f1 f2), (N.max l1 l2), ((c1 + c2) mod u64),
      (triplet_pack (N.min f1 f2) (N.max l1 l2) ((c1 + c2) mod u64)).
    cbn [meval]. rewrite E1, E2. cbn [bind].
    assert (EM : merge_func (k :: rest) v1 v2 = merge_triplets v1 v2).
    { unfold merge_func. destruct Hk as [-> | ->]; reflexivity. }
    rewrite EM, (merge_triplets_ok _ _ _ _ _ _ _ _ U1 U2).
    rewrite !map_app. repeat split.
    + apply triplet_roundtrip; try lia; apply N.mod_lt; unfold u64; lia.
    + apply (is_min_app _ _ _ _ Mi1 Mi2).
    + apply (is_min_app _ _ _ _ Mi1 Mi2).
    + apply (is_max_app _ _ _ _ Ma1 Ma2).
    + apply (is_max_app _ _ _ _ Ma1 Ma2).
    + rewrite nsum_app, S1, S2. apply mod_add_mod. unfold u64; lia.
Qed.

Lemma Forall2_perm : forall (A B : Type) (R : A -> B -> Prop) l l' m,
  Permutation l l' -> Forall2 R l m -> exists m', Permutation m m' /\ Forall2 R l' m'.
Proof.
  intros A B R l l' m P. revert m. induction P as [|x l l' P IH|x y l|l l' l'' P1 IH1 P2 IH2]; intros m HF.
  - inversion HF; subst. exists []. split; constructor.
  - inversion HF as [|? b ? m0 Hb HF']; subst. destruct (IH _ HF') as (m' & Pm & HF2).
    exists (b :: m'). split; [constructor; exact Pm|constructor; assumption].
  - inversion HF as [|? b1 ? m0 Hb1 HF']; subst. inversion HF' as [|? b2 ? m1 Hb2 HF'']; subst.
    exists (b2 :: b1 :: m1). split; [constructor|]. repeat constructor; assumption.
  - destruct (IH1 _ HF) as (m' & Pm & HF2). destruct (IH2 _ HF2) as (m'' & Pm' & HF3).
    exists m''. split; [eapply Permutation_trans; eauto|exact HF3].
Qed.

Lemma mleaves_nonempty : forall t, mleaves t <> [].
Proof. induction t as [v|l IHl r IHr]; cbn; [discriminate|]. destruct (mleaves l); [congruence|discriminate]. Qed.

Lemma mleaves_leaf_length : forall t, length (mleaves t) = 1%nat -> exists v, t = MLeaf v.
Proof.
  intros [v|l r]; [eauto|]. cbn [mleaves]. rewrite app_length.
  pose proof (mleaves_nonempty l). pose proof (mleaves_nonempty r).
  destruct (mleaves l); [congruence|]. destruct (mleaves r); [congruence|]. cbn. lia.
Qed.

Lemma node_or_leaf : forall a b, Permutation (mleaves a) (mleaves b) ->
  (exists v, a = MLeaf v /\ b = MLeaf v) \/ (is_node a /\ is_node b).
Proof.
  intros a b P. pose proof (Permutation_length P) as L.
  destruct a as [v|al ar].
  - destruct (mleaves_leaf_length b) as [w ->]; [rewrite <- L; reflexivity|].
    left. cbn in P. apply Permutation_length_1 in P. subst. eauto.
  - destruct b as [w|bl br]; [|right; cbn; auto].
    destruct (mleaves_leaf_length (MNode al ar)) as [x Hx]; [rewrite L; reflexivity|]. discriminate.
Qed.

Lemma meval_triplets_perm : forall key k rest a b,
  key = k :: rest -> (k = ENTRY_TYPE_RRSET \/ k = ENTRY_TYPE_RDATA) ->
  Forall (fun v => exists o, triplet_of v o) (mleaves a) ->
  Permutation (mleaves a) (mleaves b) ->
  meval key a = meval key b.
Proof.
  intros key k rest a b Hkey Hk HF P.
  destruct (node_or_leaf _ _ P) as [(v & -> & ->)|[Na Nb]]; [reflexivity|].
  assert (exists os, Forall2 triplet_of (mleaves a) os) as [os Hos].
  { clear P Na. induction HF as [|v l [o Ho] HF [os IH]]; [exists []; constructor|].
    exists (o :: os). constructor; assumption. }
  destruct (Forall2_perm _ _ _ _ _ _ P Hos) as (os' & P' & Hos').
  destruct (meval_triplets _ _ _ _ _ Hkey Hk Hos) as (f & l & c & v & E & _ & Mi & Ma & S & Hv).
  destruct (meval_triplets _ _ _ _ _ Hkey Hk Hos') as (f' & l' & c' & v' & E' & _ & Mi' & Ma' & S' & Hv').
  rewrite E, E', Hv, Hv' by assumption. f_equal.
  rewrite (is_min_uniq f f' (map t1 os')), (is_max_uniq l l' (map t2 os')).
  - rewrite S, S', (nsum_perm (map t3 os) (map t3 os')); [reflexivity|apply Permutation_map; exact P'].
  - eapply is_max_perm; [apply Permutation_map; exact P'|exact Ma].
  - exact Ma'.
  - eapply is_min_perm; [apply Permutation_map; exact P'|exact Mi].
  - exact Mi'.
Qed.

(** ** Time ranges: [None] is the empty value *)

Definition range_of (v : bytes) (o : option (N * N)) : Prop :=
  match o with
  | None => v = []
  | Some p => pair_unpack v = Ok p
  end.

Fixpoint somes {A} (l : list (option A)) : list A :=
  match l with [] => [] | Some x :: t => x :: somes t | None :: t => somes t end.

Lemma somes_app : forall A (a b : list (option A)), somes (a ++ b) = somes a ++ somes b.
Proof. induction a as [|[x|] a IH]; intro b; cbn; [reflexivity| |apply IH]. rewrite IH. reflexivity. Qed.

Lemma merge_func_time_range : forall v0 v1,
  merge_func [ENTRY_TYPE_TIME_RANGE] v0 v1 = merge_time_range v0 v1.
Proof. reflexivity. Qed.

Lemma meval_ranges : forall t os, Forall2 range_of (mleaves t) os ->
  (In None os -> meval [ENTRY_TYPE_TIME_RANGE] t = Ok []) /\
  (~ In None os -> exists f l v, meval [ENTRY_TYPE_TIME_RANGE] t = Ok v /\
      pair_unpack v = Ok (f, l) /\
      is_min f (map fst (somes os)) /\ is_max l (map snd (somes os)) /\
      (is_node t -> v = pair_pack f l)).
Proof.
  induction t as [v|tl IHl tr IHr]; intros os HF; cbn [mleaves] in HF.
  - inversion HF as [|? o ? os' Ho HF']; subst. inversion HF'; subst. split.
    + intros [->|[]]. cbn in Ho. subst. reflexivity.
    + intro Hn. destruct o as [[f l]|]; [|exfalso; apply Hn; left; reflexivity].
      exists f, l, v. cbn in Ho |- *. repeat split; auto; try (left; reflexivity).
      * intros x [<-|[]]; lia.
      * intros x [<-|[]]; lia.
      * intros [].
  - apply Forall2_app_inv_l in HF. destruct HF as (os1 & os2 & HF1 & HF2 & ->).
    destruct (IHl _ HF1) as (L1 & L2). destruct (IHr _ HF2) as (R1 & R2).
    assert (D1 : In None os1 \/ ~ In None os1).
    { clear. induction os1 as [|[x|] os IH]; cbn; [auto| |auto]. destruct IH; [auto|]. right. intros [E|H']; [discriminate|auto]. }
    assert (D2 : In None os2 \/ ~ In None os2).
    { clear. induction os2 as [|[x|] os IH]; cbn; [auto| |auto]. destruct IH; [auto|]. right. intros [E|H']; [discriminate|auto]. }
    assert (E0 : forall x, merge_time_range [] x = Ok []) by (intro; reflexivity).
    assert (E1 : forall x, merge_time_range x [] = Ok []) by (intros [|? ?]; reflexivity).
    split.
    + intro Hin. cbn [meval].
      destruct D1 as [D1|D1].
      * rewrite (L1 D1). cbn [bind].
        destruct D2 as [D2|D2].
        -- rewrite (R1 D2). reflexivity.
        -- destruct (R2 D2) as (f & l & v & -> & _). reflexivity.
      * destruct (L2 D1) as (f & l & v & -> & _). cbn [bind].
        apply in_app_or in Hin. destruct Hin as [Hin|Hin]; [contradiction|].
        rewrite (R1 Hin). cbn [bind]. rewrite merge_func_time_range. apply E1.
    + intro Hn.
      destruct L2 as (f1 & l1 & v1 & EE1 & U1 & Mi1 & Ma1 & _); [intro; apply Hn; apply in_or_app; auto|].
      destruct R2 as (f2 & l2 & v2 & EE2 & U2 & Mi2 & Ma2 & _); [intro; apply Hn; apply in_or_app; auto|].
      pose proof (pair_unpack_bound _ _ _ U1). pose proof (pair_unpack_bound _ _ _ U2).
      exists (N.min f1 f2), (N.max l1 l2), (pair_pack (N.min f1 f2) (N.max l1 l2)).
      cbn [meval]. rewrite EE1, EE2. cbn [bind].
      rewrite merge_func_time_range, (merge_time_range_ok _ _ _ _ _ _ U1 U2).
      rewrite somes_app, !map_app. repeat split.
      * apply pair_roundtrip; lia.
      * apply (is_min_app _ _ _ _ Mi1 Mi2).
      * apply (is_min_app _ _ _ _ Mi1 Mi2).
      * apply (is_max_app _ _ _ _ Ma1 Ma2).
      * apply (is_max_app _ _ _ _ Ma1 Ma2).
Qed.

Lemma somes_perm : forall A (a b : list (option A)), Permutation a b -> Permutation (somes a) (somes b).
Proof.
  induction 1 as [|[x|] l l' P IH|[x|] [y|] l|]; cbn; auto using perm_skip, perm_swap, Permutation_refl.
  eapply Permutation_trans; eauto.
Qed.

Lemma meval_ranges_perm : forall a b,
  Forall (fun v => exists o, range_of v o) (mleaves a) ->
  Permutation (mleaves a) (mleaves b) ->
  meval [ENTRY_TYPE_TIME_RANGE] a = meval [ENTRY_TYPE_TIME_RANGE] b.
Proof.
  intros a b HF P.
  destruct (node_or_leaf _ _ P) as [(v & -> & ->)|[Na Nb]]; [reflexivity|].
  assert (exists os, Forall2 range_of (mleaves a) os) as [os Hos].
  { clear P Na. induction HF as [|v l [o Ho] HF [os IH]]; [exists []; constructor|].
    exists (o :: os). constructor; assumption. }
  destruct (Forall2_perm _ _ _ _ _ _ P Hos) as (os' & P' & Hos').
  destruct (meval_ranges _ _ Hos) as (A1 & A2). destruct (meval_ranges _ _ Hos') as (B1 & B2).
  assert (D : In None os \/ ~ In None os).
  { clear. induction os as [|[x|] os IH]; cbn; [auto| |auto]. destruct IH; [auto|]. right. intros [E|H']; [discriminate|auto]. }
  destruct D as [D|D].
  - rewrite A1, B1; auto. eapply Permutation_in; eauto.
  - destruct A2 as (f & l & v & E & _ & Mi & Ma & Hv); [exact D|].
    destruct B2 as (f' & l' & v' & E' & _ & Mi' & Ma' & Hv').
    { intro H. apply D. eapply Permutation_in; [apply Permutation_sym; exact P'|exact H]. }
    rewrite E, E', Hv, Hv' by assumption. f_equal.
    pose proof (somes_perm _ _ _ P') as PS.
    rewrite (is_min_uniq f f' (map fst (somes os'))), (is_max_uniq l l' (map snd (somes os'))); auto.
    + eapply is_max_perm; [apply Permutation_map; exact PS|exact Ma].
    + eapply is_min_perm; [apply Permutation_map; exact PS|exact Mi].
Qed.

(** ** Versions *)

Definition known_vtype (vt : N) : Prop :=
  vt = ENTRY_TYPE_RRSET \/ vt = ENTRY_TYPE_RRSET_NAME_FWD \/
  vt = ENTRY_TYPE_RDATA \/ vt = ENTRY_TYPE_RDATA_NAME_REV.

Definition version_of (v : bytes) (o : option N) : Prop :=
  match o with
  | None => v = []
  | Some n => v <> [] /\ decode_vers v = Ok n
  end.

Lemma decode_vers_bound : forall v n, decode_vers v = Ok n -> n < u32.
Proof.
  intros v n. unfold decode_vers. destruct (varint_decode32 v) as [[k x]| | | |] eqn:E; cbn [bind fst snd]; try discriminate.
  destruct (Nat.eqb _ _); [|discriminate]. intro H; inversion H; subst. eapply decode32_bound; eauto.
Qed.

Lemma decode_vers_encode : forall n, n < u32 -> decode_vers (varint_encode32 n) = Ok n.
Proof.
  intros n Hn. unfold decode_vers.
  rewrite <- (app_nil_r (varint_encode32 n)) at 1.
  rewrite varint32_roundtrip by exact Hn. cbn [bind fst snd]. rewrite Nat.eqb_refl. reflexivity.
Qed.

Lemma encode32_nonempty : forall n, varint_encode32 n <> [].
Proof.
  intro n. unfold varint_encode32.
  repeat match goal with |- context [if ?c then _ else _] => destruct c end; discriminate.
Qed.

(** The buffer allocated for a merged version has exactly the size the encoder fills. *)
Lemma varint_length_encode32 : forall n, n < u32 -> varint_length n = N.of_nat (length (varint_encode32 n)).
Proof.
  intros n Hn. unfold varint_length, u32 in *.
  assert (H7 : N.shiftr n 7 = n / 128) by (rewrite N.shiftr_div_pow2; reflexivity).
  assert (H14 : N.shiftr n 14 = n / 16384) by (rewrite N.shiftr_div_pow2; reflexivity).
  assert (H21 : N.shiftr n 21 = n / 2097152) by (rewrite N.shiftr_div_pow2; reflexivity).
  assert (H28 : N.shiftr n 28 = n / 268435456) by (rewrite N.shiftr_div_pow2; reflexivity).
  unfold varint_encode32.
  change (N.shiftl 1 7) with 128. change (N.shiftl 1 14) with 16384.
  change (N.shiftl 1 21) with 2097152. change (N.shiftl 1 28) with 268435456.
  cbn [varint_length_loop]. rewrite !N.shiftr_shiftr.
  change (7 + 7) with 14. change (14 + 7) with 21. change (21 + 7) with 28.
  destruct (N.ltb_spec n 128); destruct (N.leb_spec 128 n); try lia; [reflexivity|].
  destruct (N.ltb_spec n 16384); destruct (N.leb_spec 128 (N.shiftr n 7)); try lia; [reflexivity|].
  destruct (N.ltb_spec n 2097152); destruct (N.leb_spec 128 (N.shiftr n 14)); try lia; [reflexivity|].
  destruct (N.ltb_spec n 268435456); destruct (N.leb_spec 128 (N.shiftr n 21)); try lia; [reflexivity|].
  destruct (N.leb_spec 128 (N.shiftr n 28)); [lia|reflexivity].
Qed.

Lemma merge_version_ok : forall vt v0 v1 x0 x1, known_vtype vt -> v0 <> [] -> v1 <> [] ->
  decode_vers v0 = Ok x0 -> decode_vers v1 = Ok x1 ->
  merge_version vt v0 v1 = Ok (varint_encode32 (N.min x0 x1)).
Proof.
  intros vt v0 v1 x0 x1 Hvt N0 N1 H0 H1.
  destruct v0 as [|y0 v0]; [congruence|]. destruct v1 as [|y1 v1]; [congruence|].
  unfold merge_version. rewrite H0, H1. cbn [bind]. rewrite if_ltb_min.
  destruct Hvt as [->|[->|[->| ->]]]; reflexivity.
Qed.

Lemma merge_func_version : forall vt v0 v1,
  merge_func [ENTRY_TYPE_VERSION; vt] v0 v1 = merge_version vt v0 v1.
Proof. reflexivity. Qed.

Lemma in_none_dec : forall A (os : list (option A)), In None os \/ ~ In None os.
Proof. induction os as [|[x|] os IH]; cbn; [auto| |auto]. destruct IH; [auto|]. right. intros [E|H']; [discriminate|auto]. Qed.

Lemma meval_versions : forall vt t os, known_vtype vt -> Forall2 version_of (mleaves t) os ->
  (In None os -> meval [ENTRY_TYPE_VERSION; vt] t = Ok []) /\
  (~ In None os -> exists n v, meval [ENTRY_TYPE_VERSION; vt] t = Ok v /\ v <> [] /\
      decode_vers v = Ok n /\ is_min n (somes os) /\
      (is_node t -> v = varint_encode32 n)).
Proof.
  intros vt t os Hvt. revert os. induction t as [v|tl IHl tr IHr]; intros os HF; cbn [mleaves] in HF.
  - inversion HF as [|? o ? os' Ho HF']; subst. inversion HF'; subst. split.
    + intros [->|[]]. cbn in Ho. subst. reflexivity.
    + intro Hn. destruct o as [n|]; [|exfalso; apply Hn; left; reflexivity].
      exists n, v. cbn in Ho |- *. destruct Ho as [Ho1 Ho2]. repeat split; auto; try (left; reflexivity).
      * intros x [<-|[]]; lia.
      * intros [].
  - apply Forall2_app_inv_l in HF. destruct HF as (os1 & os2 & HF1 & HF2 & ->).
    destruct (IHl _ HF1) as (L1 & L2). destruct (IHr _ HF2) as (R1 & R2).
    assert (E1 : forall x, merge_version vt x [] = Ok []) by (intros [|? ?]; reflexivity).
    split.
    + intro Hin. cbn [meval].
      destruct (in_none_dec _ os1) as [D1|D1].
      * rewrite (L1 D1). cbn [bind].
        destruct (in_none_dec _ os2) as [D2|D2].
        -- rewrite (R1 D2). reflexivity.
        -- destruct (R2 D2) as (n & v & -> & _). reflexivity.
      * destruct (L2 D1) as (n & v & -> & _). cbn [bind].
        apply in_app_or in Hin. destruct Hin as [Hin|Hin]; [contradiction|].
        rewrite (R1 Hin). cbn [bind]. rewrite merge_func_version. apply E1.
    + intro Hn.
      destruct L2 as (n1 & v1 & EE1 & NE1 & U1 & Mi1 & _); [intro; apply Hn; apply in_or_app; auto|].
      destruct R2 as (n2 & v2 & EE2 & NE2 & U2 & Mi2 & _); [intro; apply Hn; apply in_or_app; auto|].
      pose proof (decode_vers_bound _ _ U1). pose proof (decode_vers_bound _ _ U2).
      exists (N.min n1 n2), (varint_encode32 (N.min n1 n2)).
      cbn [meval]. rewrite EE1, EE2. cbn [bind].
      rewrite merge_func_version, (merge_version_ok _ _ _ _ _ Hvt NE1 NE2 U1 U2).
      rewrite somes_app. repeat split.
      * apply encode32_nonempty.
      * apply decode_vers_encode. lia.
      * apply (is_min_app _ _ _ _ Mi1 Mi2).
      * apply (is_min_app _ _ _ _ Mi1 Mi2).
Qed.

Lemma meval_versions_perm : forall vt a b, known_vtype vt ->
  Forall (fun v => exists o, version_of v o) (mleaves a) ->
  Permutation (mleaves a) (mleaves b) ->
  meval [ENTRY_TYPE_VERSION; vt] a = meval [ENTRY_TYPE_VERSION; vt] b.
Proof.
  intros vt a b Hvt HF P.
  destruct (node_or_leaf _ _ P) as [(v & -> & ->)|[Na Nb]]; [reflexivity|].
  assert (exists os, Forall2 version_of (mleaves a) os) as [os Hos].
  { clear P Na. induction HF as [|v l [o Ho] HF [os IH]]; [exists []; constructor|].
    exists (o :: os). constructor; assumption. }
  destruct (Forall2_perm _ _ _ _ _ _ P Hos) as (os' & P' & Hos').
  destruct (meval_versions _ _ _ Hvt Hos) as (A1 & A2). destruct (meval_versions _ _ _ Hvt Hos') as (B1 & B2).
  destruct (in_none_dec _ os) as [D|D].
  - rewrite A1, B1; auto. eapply Permutation_in; eauto.
  - destruct A2 as (n & v & E & _ & _ & Mi & Hv); [exact D|].
    destruct B2 as (n' & v' & E' & _ & _ & Mi' & Hv').
    { intro H. apply D. eapply Permutation_in; [apply Permutation_sym; exact P'|exact H]. }
    rewrite E, E', Hv, Hv' by assumption. f_equal. f_equal.
    apply (is_min_uniq n n' (somes os')); auto.
    eapply is_min_perm; [apply somes_perm; exact P'|exact Mi].
Qed.

Lemma merge_version_unknown : forall vt v0 v1, ~ known_vtype vt -> merge_version vt v0 v1 = Ok [].
Proof.
  intros vt v0 v1 H. unfold merge_version. destruct v0; [reflexivity|]. destruct v1; [reflexivity|].
  unfold known_vtype in H.
  destruct (N.eqb_spec vt ENTRY_TYPE_RRSET); [tauto|].
  destruct (N.eqb_spec vt ENTRY_TYPE_RRSET_NAME_FWD); [tauto|].
  destruct (N.eqb_spec vt ENTRY_TYPE_RDATA); [tauto|].
  destruct (N.eqb_spec vt ENTRY_TYPE_RDATA_NAME_REV); [tauto|]. reflexivity.
Qed.

(** ** Everything else merges to the empty value *)
Lemma merge_func_other : forall key v0 v1,
  (match key with
   | [] => True
   | k :: rest =>
       k <> ENTRY_TYPE_RRSET /\ k <> ENTRY_TYPE_RDATA /\
       k <> ENTRY_TYPE_RRSET_NAME_FWD /\ k <> ENTRY_TYPE_RDATA_NAME_REV /\
       ~ (k = ENTRY_TYPE_TIME_RANGE /\ rest = []) /\
       ~ (k = ENTRY_TYPE_VERSION /\ exists vt, rest = [vt] /\ known_vtype vt)
   end) -> merge_func key v0 v1 = Ok [].
Proof.
  intros [|k rest] v0 v1; [reflexivity|].
  intros (H0 & H1 & H2 & H3 & H4 & H5). unfold merge_func.
  apply N.eqb_neq in H0, H1, H2, H3. rewrite H0, H1, H2, H3. cbn [orb].
  destruct rest as [|vt [|x rest]].
  - destruct (N.eqb_spec k ENTRY_TYPE_TIME_RANGE); [tauto|reflexivity].
  - destruct (N.eqb_spec k ENTRY_TYPE_VERSION); [|reflexivity].
    apply merge_version_unknown. intro Hk. apply H5. eauto.
  - reflexivity.
Qed.
