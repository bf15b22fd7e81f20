(** Proofs about RRtype unions. *)
From Coq Require Import Sorting.Sorted Permutation.
From Verif Require Import Base BaseFacts ModelUnion SpecUnion.

(** ** Bits *)

Lemma land_pow2_testbit : forall a k, (N.land a (N.shiftl 1 k) =? 0) = negb (N.testbit a k).
Proof.
  intros a k. rewrite N.shiftl_1_l. destruct (N.testbit a k) eqn:E; cbn [negb].
  - apply N.eqb_neq. intro H. 
    assert (HH : N.testbit (N.land a (2 ^ k)) k = true).
    { rewrite N.land_spec, E, N.pow2_bits_true. reflexivity. }
    rewrite H, N.bits_0 in HH. discriminate.
  - apply N.eqb_eq. apply N.bits_inj. intro n. rewrite N.land_spec, N.bits_0.
    destruct (N.eq_dec k n) as [<-|Hn].
    + rewrite E. reflexivity.
    + rewrite N.pow2_bits_false by congruence. apply andb_false_r.
Qed.

(** [offbit bm i]: bit [i mod 8] (from the top) of byte [i/8]. *)
Definition offbit (bm : bytes) (i : N) : bool :=
  N.testbit (nth (N.to_nat (i / 8)) bm 0) (7 - i mod 8).

Lemma lor_window : forall w lo, lo < 256 -> N.lor (N.shiftl w 8) lo = 256 * w + lo.
Proof.
  intros w lo H. rewrite N.lor_comm, lor_shiftl_add.
  - change (2 ^ 8) with 256. lia.
  - exact H.
Qed.

Lemma unpack_bits8 : forall w a lo, lo + 7 < 256 ->
  unpack_bits one_to_eight w a lo =
  flat_map (fun i => if N.testbit a (7 - i) then [256 * w + lo + i] else []) [0;1;2;3;4;5;6;7].
Proof.
  intros w a lo H. unfold one_to_eight. cbn [unpack_bits flat_map].
  rewrite !land_pow2_testbit.
  change (8-1) with 7. change (8-2) with 6. change (8-3) with 5. change (8-4) with 4.
  change (8-5) with 3. change (8-6) with 2. change (8-7) with 1. change (8-8) with 0.
  change (7-0) with 7. change (7-1) with 6. change (7-2) with 5. change (7-3) with 4.
  change (7-4) with 3. change (7-5) with 2. change (7-6) with 1. change (7-7) with 0.
  rewrite !lor_window by lia.
  repeat (apply (f_equal2 (@app N));
    [match goal with |- context [N.testbit a ?k] => destruct (N.testbit a k) end; cbn [negb];
     [apply (f_equal2 (@cons N)); [lia|reflexivity]|reflexivity]|]).
  reflexivity.
Qed.

Lemma in_bits8 : forall w a lo t, lo + 7 < 256 ->
  (In t (unpack_bits one_to_eight w a lo) <->
   256 * w + lo <= t /\ t < 256 * w + lo + 8 /\ N.testbit a (7 - (t - (256 * w + lo))) = true).
Proof.
  intros w a lo t H. rewrite unpack_bits8 by exact H. rewrite in_flat_map. split.
  - intros (i & Hi & Ht). 
    assert (Hi8 : i < 8) by (cbn [In] in Hi; lia).
    destruct (N.testbit a (7 - i)) eqn:E; [|destruct Ht].
    destruct Ht as [<-|[]]. repeat split; try lia.
    replace (256 * w + lo + i - (256 * w + lo)) with i by lia. exact E.
  - intros (H1 & H2 & H3). exists (t - (256 * w + lo)). split.
    + cbn [In]. lia.
    + rewrite H3. left. lia.
Qed.

Lemma in_unpack_block : forall bm w lo t,
  lo mod 8 = 0 -> lo + 8 * N.of_nat (length bm) <= 256 ->
  (In t (unpack_block w lo bm) <->
   256 * w + lo <= t /\ t < 256 * w + lo + 8 * N.of_nat (length bm) /\
   offbit bm (t - (256 * w + lo)) = true).
Proof.
  induction bm as [|a bm IH]; intros w lo t Hlo Hlen; cbn [unpack_block length] in *.
  - cbn. split; [tauto|]. lia.
  - rewrite in_app_iff, in_bits8, IH by lia.
    split.
    + intros [(H1 & H2 & H3)|(H1 & H2 & H3)].
      * repeat split; try lia. unfold offbit.
        replace ((t - (256 * w + lo)) / 8) with 0 by lia. cbn [N.to_nat nth].
        rewrite (N.mod_small _ 8) by lia. exact H3.
      * repeat split; try lia. unfold offbit in *.
        replace (N.to_nat ((t - (256 * w + lo)) / 8)) with (S (N.to_nat ((t - (256 * w + (lo + 8))) / 8))) by lia.
        cbn [nth]. replace ((t - (256 * w + lo)) mod 8) with ((t - (256 * w + (lo + 8))) mod 8) by lia.
        exact H3.
    + intros (H1 & H2 & H3). destruct (N.lt_ge_cases t (256 * w + lo + 8)) as [Hc|Hc].
      * left. repeat split; try lia. unfold offbit in H3.
        replace ((t - (256 * w + lo)) / 8) with 0 in H3 by lia. cbn [N.to_nat nth] in H3.
        rewrite (N.mod_small _ 8) in H3 by lia. exact H3.
      * right. repeat split; try lia. unfold offbit in *.
        replace (N.to_nat ((t - (256 * w + lo)) / 8)) with (S (N.to_nat ((t - (256 * w + (lo + 8))) / 8))) in H3 by lia.
        cbn [nth] in H3. replace ((t - (256 * w + lo)) mod 8) with ((t - (256 * w + (lo + 8))) mod 8) in H3 by lia.
        exact H3.
Qed.

(** ** Sortedness *)

Notation ssorted := (StronglySorted N.lt).

Lemma ssorted_app : forall l1 l2, ssorted l1 -> ssorted l2 ->
  (forall x y, In x l1 -> In y l2 -> x < y) -> ssorted (l1 ++ l2).
Proof.
  induction l1 as [|a l1 IH]; intros l2 H1 H2 H; cbn; [exact H2|].
  apply StronglySorted_inv in H1. destruct H1 as [H1 HF]. constructor.
  - apply IH; [exact H1|exact H2|]. intros x y Hx Hy. apply H; [right; exact Hx|exact Hy].
  - apply Forall_app. split; [exact HF|]. apply Forall_forall. intros y Hy. apply H; [left; reflexivity|exact Hy].
Qed.

Lemma ssorted_app_inv : forall l1 l2, ssorted (l1 ++ l2) ->
  ssorted l1 /\ ssorted l2 /\ (forall x y, In x l1 -> In y l2 -> x < y).
Proof.
  induction l1 as [|a l1 IH]; intros l2 H; cbn in *.
  - repeat split; [constructor|exact H|]. intros x y [].
  - apply StronglySorted_inv in H. destruct H as [H HF].
    destruct (IH _ H) as (A & B & C). apply Forall_app in HF. destruct HF as [F1 F2].
    repeat split; [constructor; assumption|exact B|].
    intros x y [<-|Hx] Hy; [rewrite Forall_forall in F2; apply F2; exact Hy|apply C; assumption].
Qed.

Lemma ssorted_bits8 : forall w a lo, lo + 7 < 256 -> ssorted (unpack_bits one_to_eight w a lo).
Proof.
  intros w a lo H. rewrite unpack_bits8 by exact H.
  assert (HI : ssorted [0;1;2;3;4;5;6;7]) by (repeat constructor).
  revert HI. generalize [0;1;2;3;4;5;6;7]. induction l as [|i l IH]; intro HI; cbn [flat_map]; [constructor|].
  apply StronglySorted_inv in HI. destruct HI as [HI HF]. specialize (IH HI).
  destruct (N.testbit a (7 - i)); cbn [app]; [|exact IH]. constructor; [exact IH|].
  apply Forall_forall. intros x Hx. apply in_flat_map in Hx. destruct Hx as (j & Hj & Hx).
  rewrite Forall_forall in HF. pose proof (HF j Hj).
  destruct (N.testbit a (7 - j)); [|destruct Hx]. destruct Hx as [<-|[]]. lia.
Qed.

Lemma ssorted_block : forall bm w lo, lo mod 8 = 0 -> lo + 8 * N.of_nat (length bm) <= 256 ->
  ssorted (unpack_block w lo bm).
Proof.
  induction bm as [|a bm IH]; intros w lo Hlo Hlen; cbn [unpack_block length] in *; [constructor|].
  apply ssorted_app.
  - apply ssorted_bits8. lia.
  - apply IH; lia.
  - intros x y Hx Hy. rewrite in_bits8 in Hx by lia. rewrite in_unpack_block in Hy by lia. lia.
Qed.

Definition types_of (ws : list window) : list N :=
  flat_map (fun wb : window => unpack_block (fst wb) 0 (snd wb)) ws.

(** Weaker than [window_ok]: trailing zero octets allowed. *)
Definition window_lenient (wb : window) : Prop :=
  fst wb < 256 /\ (1 <= length (snd wb) <= 32)%nat.

Definition windows_lenient (ws : list window) : Prop :=
  Forall window_lenient ws /\ ssorted (map fst ws).

Lemma windows_ok_lenient : forall ws, windows_ok ws -> windows_lenient ws.
Proof.
  intros ws [H S]. split; [|exact S]. eapply Forall_impl; [|exact H].
  intros wb (A & B & _). split; assumption.
Qed.

Lemma in_block_types : forall wb t, window_lenient wb ->
  (In t (unpack_block (fst wb) 0 (snd wb)) <-> t / 256 = fst wb /\ offbit (snd wb) (t mod 256) = true).
Proof.
  intros [w bm] t [Hw [Hl1 Hl2]]; cbn [fst snd] in *.
  rewrite in_unpack_block by lia.
  rewrite !N.add_0_r. split.
  - intros (H1 & H2 & H3). assert (t / 256 = w) by lia. split; [assumption|].
    replace (t - 256 * w) with (t mod 256) in H3 by lia. exact H3.
  - intros (H1 & H2). assert (Ht : t - 256 * w = t mod 256) by lia. rewrite Ht.
    repeat split; try lia; [|exact H2].
    destruct (N.lt_ge_cases (t mod 256) (8 * N.of_nat (length bm))) as [Hc|Hc]; [lia|].
    unfold offbit in H2. rewrite nth_overflow in H2 by lia. rewrite N.bits_0 in H2. discriminate.
Qed.

Lemma offbit_mem : forall bm t, offbit bm (t mod 256) =
  N.testbit (nth (N.to_nat (t mod 256 / 8)) bm 0) (7 - t mod 8).
Proof.
  intros bm t. unfold offbit. replace ((t mod 256) mod 8) with (t mod 8) by lia. reflexivity.
Qed.

Lemma in_types_of : forall ws t, Forall window_lenient ws -> (In t (types_of ws) <-> windows_mem ws t).
Proof.
  intros ws t H. unfold types_of, windows_mem. rewrite in_flat_map. split.
  - intros ([w bm] & Hin & Ht). rewrite Forall_forall in H.
    apply in_block_types in Ht; [|apply H; exact Hin]. cbn [fst snd] in Ht.
    destruct Ht as [<- Hb]. exists bm. split; [exact Hin|]. rewrite <- offbit_mem. exact Hb.
  - intros (bm & Hin & Hb). exists (t / 256, bm). split; [exact Hin|].
    rewrite Forall_forall in H. apply in_block_types; [apply H; exact Hin|]. cbn [fst snd].
    split; [reflexivity|]. rewrite offbit_mem. exact Hb.
Qed.

Lemma ssorted_types_of : forall ws, windows_lenient ws -> ssorted (types_of ws).
Proof.
  induction ws as [|wb ws IH]; intros [H S]; cbn [types_of flat_map map] in *; [constructor|].
  fold (types_of ws). inversion H as [|? ? Hwb Hws]; subst.
  apply StronglySorted_inv in S. destruct S as [S HF].
  apply ssorted_app.
  - destruct Hwb as [? [? ?]]. apply ssorted_block; [reflexivity|lia].
  - apply IH. split; assumption.
  - intros x y Hx Hy. apply in_block_types in Hx; [|exact Hwb].
    apply in_types_of in Hy; [|exact Hws]. destruct Hy as (bm & Hin & _).
    rewrite Forall_forall in HF. assert (fst wb < y / 256).
    { apply HF. change (y / 256) with (fst (y / 256, bm)). apply in_map. exact Hin. }
    lia.
Qed.

Lemma types_of_bound : forall ws t, Forall window_lenient ws -> In t (types_of ws) -> t < 65536.
Proof.
  intros ws t H Hin. apply in_types_of in Hin; [|exact H]. destruct Hin as (bm & Hin & _).
  rewrite Forall_forall in H. apply H in Hin. destruct Hin as [Hw _]. cbn in Hw. lia.
Qed.

(** ** unpack on encoded windows *)

Lemma encode_windows_cons : forall w bm ws,
  encode_windows ((w, bm) :: ws) = w :: blen bm :: bm ++ encode_windows ws.
Proof. reflexivity. Qed.

Lemma blen_app : forall a b, blen (a ++ b) = blen a + blen b.
Proof. intros. unfold blen. rewrite app_length. lia. Qed.

Lemma firstn_blen_app : forall a b, firstn (N.to_nat (blen a)) (a ++ b) = a.
Proof. intros. unfold blen. rewrite Nnat.Nat2N.id. apply firstn_app_len. Qed.
Lemma skipn_blen_app : forall a b, skipn (N.to_nat (blen a)) (a ++ b) = b.
Proof. intros. unfold blen. rewrite Nnat.Nat2N.id. apply skipn_app_len. Qed.

Lemma unpack_blocks_encode : forall ws fuel prev,
  windows_lenient ws -> (length (encode_windows ws) < fuel)%nat ->
  (forall p, prev = Some p -> Forall (N.lt p) (map fst ws)) ->
  unpack_blocks fuel prev (encode_windows ws) = Ok (Some (types_of ws)).
Proof.
  induction ws as [|[w bm] ws IH]; intros fuel prev [H S] Hf Hp.
  - destruct fuel; [lia|]. reflexivity.
  - rewrite encode_windows_cons in *. destruct fuel as [|fuel]; [cbn in Hf; lia|].
    cbn [unpack_blocks]. inversion H as [|? ? Hwb Hws]; subst. destruct Hwb as [Hw Hl]; cbn [fst snd] in *.
    cbn [map fst] in S. apply StronglySorted_inv in S. destruct S as [S HF].
    assert (Hprev : match prev with Some p => w <=? p | None => false end = false).
    { destruct prev as [p|]; [|reflexivity]. specialize (Hp p eq_refl). inversion Hp; subst. cbn [fst] in *. lia. }
    rewrite Hprev.
    destruct (N.ltb_spec (blen bm) 1); [unfold blen in *; lia|].
    destruct (N.ltb_spec (blen (bm ++ encode_windows ws)) (blen bm)); [rewrite blen_app in *; lia|].
    cbn [orb]. rewrite skipn_blen_app, firstn_blen_app.
    rewrite IH.
    + reflexivity.
    + split; assumption.
    + cbn [length] in Hf. rewrite app_length in Hf. lia.
    + intros p E; inversion E; subst. exact HF.
Qed.

Lemma encode_windows_shape : forall ws, ws <> [] -> windows_lenient ws ->
  exists a b c r, encode_windows ws = a :: b :: c :: r.
Proof.
  intros [|[w [|c bm]] ws] H [HF _]; [congruence| |].
  - inversion HF as [|? ? Hw _]; subst. destruct Hw as [_ Hl]. cbn in Hl. lia.
  - rewrite encode_windows_cons. cbn [app]. eauto.
Qed.

Lemma ssorted_length_bound : forall l k n, ssorted l -> (forall x, In x l -> k <= x < k + N.of_nat n) ->
  (length l <= n)%nat.
Proof.
  intros l k n. revert l k. induction n as [|n IH]; intros l k Hs Hb.
  - destruct l as [|x l]; [cbn; lia|]. specialize (Hb x (or_introl eq_refl)). lia.
  - destruct l as [|x l]; [cbn; lia|]. cbn [length]. apply StronglySorted_inv in Hs. destruct Hs as [Hs HF].
    apply le_n_S. apply (IH l (k + 1)); [exact Hs|].
    intros y Hy. rewrite Forall_forall in HF. pose proof (HF y Hy). pose proof (Hb x (or_introl eq_refl)).
    pose proof (Hb y (or_intror Hy)). lia.
Qed.

Lemma ssorted_missing_length : forall l n t, ssorted l -> (forall x, In x l -> x < N.of_nat (S n)) ->
  t < N.of_nat (S n) -> ~ In t l -> (length l <= n)%nat.
Proof.
  intros l n t Hs Hb Ht Hn.
  assert (exists l1 l2, l = l1 ++ l2 /\ (forall x, In x l1 -> x < t) /\ (forall x, In x l2 -> t < x))
    as (l1 & l2 & -> & H1 & H2).
  { clear Hb. induction l as [|x l IH].
    - exists [], []. repeat split; intros ? [].
    - apply StronglySorted_inv in Hs. destruct Hs as [Hs HF]. rewrite Forall_forall in HF.
      destruct (N.lt_trichotomy x t) as [Hx|[->|Hx]].
      + destruct IH as (l1 & l2 & -> & A & B); [exact Hs|intro; apply Hn; right; assumption|].
        exists (x :: l1), l2. repeat split; [|exact B]. intros y [<-|Hy]; [exact Hx|apply A; exact Hy].
      + exfalso. apply Hn. left. reflexivity.
      + exists [], (x :: l). repeat split; [intros ? []|]. intros y [<-|Hy]; [exact Hx|]. pose proof (HF y Hy). lia. }
  apply ssorted_app_inv in Hs. destruct Hs as (S1 & S2 & _).
  rewrite app_length.
  assert (A : (length l1 <= N.to_nat t)%nat).
  { apply (ssorted_length_bound l1 0); [exact S1|]. intros x Hx. apply H1 in Hx. lia. }
  assert (B : (length l2 <= n - N.to_nat t)%nat).
  { apply (ssorted_length_bound l2 (t + 1)); [exact S2|]. intros x Hx. pose proof (H2 x Hx).
    pose proof (Hb x (in_or_app _ _ _ (or_intror Hx))). lia. }
  lia.
Qed.

Lemma types_not_full : forall l t, ssorted l -> (forall x, In x l -> x < 65536) -> t < 65536 -> ~ In t l ->
  (length l <= N.to_nat MAX_RRTYPES_MAPPABLE)%nat.
Proof.
  intros l t Hs Hb Ht Hn.
  apply (ssorted_missing_length l (N.to_nat MAX_RRTYPES_MAPPABLE) t Hs); [| |exact Hn];
  rewrite Nnat.Nat2N.inj_succ, Nnat.N2Nat.id; unfold MAX_RRTYPES_MAPPABLE; [exact Hb|exact Ht].
Qed.

Lemma unpack_windows : forall ws t, ws <> [] -> windows_lenient ws -> t < 65536 -> ~ windows_mem ws t ->
  rrtype_union_unpack (encode_windows ws) = Ok (Some (types_of ws)).
Proof.
  intros ws t Hne Hok Ht Hmiss.
  destruct (encode_windows_shape ws Hne Hok) as (a & b & c & r & E).
  unfold rrtype_union_unpack. rewrite E. rewrite <- E.
  rewrite unpack_blocks_encode; [|exact Hok|lia|discriminate]. cbn [bind].
  assert (HL : (length (types_of ws) <= N.to_nat MAX_RRTYPES_MAPPABLE)%nat).
  { apply (types_not_full _ t).
    - apply ssorted_types_of. exact Hok.
    - intros x Hx. eapply types_of_bound; [apply Hok|exact Hx].
    - exact Ht.
    - rewrite in_types_of by apply Hok. exact Hmiss. }
  destruct (N.ltb_spec MAX_RRTYPES_MAPPABLE (N.of_nat (length (types_of ws)))); [lia|reflexivity].
Qed.

Lemma unpack_windows_full : forall ws, ws <> [] -> windows_lenient ws ->
  (forall t, t < 65536 -> windows_mem ws t) ->
  rrtype_union_unpack (encode_windows ws) = Ok None.
Proof.
  intros ws Hne Hok Hfull.
  destruct (encode_windows_shape ws Hne Hok) as (a & b & c & r & E).
  unfold rrtype_union_unpack. rewrite E. rewrite <- E.
  rewrite unpack_blocks_encode; [|exact Hok|lia|discriminate]. cbn [bind].
  assert (HL : (N.to_nat 65536 <= length (types_of ws))%nat).
  { assert (HI : incl (map N.of_nat (seq 0 (N.to_nat 65536))) (types_of ws)).
    { intros x Hx. apply in_map_iff in Hx. destruct Hx as (k & <- & Hk). apply in_seq in Hk.
      apply in_types_of; [apply Hok|]. apply Hfull. lia. }
    apply NoDup_incl_length in HI.
    - rewrite map_length, seq_length in HI. exact HI.
    - apply FinFun.Injective_map_NoDup; [intros x y Hxy; lia|apply seq_NoDup]. }
  destruct (N.ltb_spec MAX_RRTYPES_MAPPABLE (N.of_nat (length (types_of ws)))) as [|Hbad]; [reflexivity|].
  unfold MAX_RRTYPES_MAPPABLE in Hbad. lia.
Qed.

(** ** sorted_merge_dedup *)

Lemma smd_in_sub : forall max l1 l2 x, In x (sorted_merge_dedup max l1 l2) -> In x l1 \/ In x l2.
Proof.
  induction max as [|m IH]; intros l1 l2 x; cbn [sorted_merge_dedup]; [intros []|].
  destruct l1 as [|a l1]; destruct l2 as [|b l2].
  - intros [].
  - intros [<-|H]; [right; left; reflexivity|]. apply IH in H. cbn. tauto.
  - intros [<-|H]; [left; left; reflexivity|]. apply IH in H. cbn. tauto.
  - destruct (N.ltb_spec b a) as [Hc|Hc].
    + intros [<-|H]; [right; left; reflexivity|]. apply IH in H. cbn in *. tauto.
    + destruct (N.ltb_spec a b) as [Hc'|Hc'].
      * intros [<-|H]; [left; left; reflexivity|]. apply IH in H. cbn in *. tauto.
      * intros [<-|H]; [right; left; reflexivity|]. apply IH in H. cbn in *. tauto.
Qed.

Lemma smd_sorted : forall max l1 l2, ssorted l1 -> ssorted l2 -> ssorted (sorted_merge_dedup max l1 l2).
Proof.
  induction max as [|m IH]; intros l1 l2 S1 S2; cbn [sorted_merge_dedup]; [constructor|].
  destruct l1 as [|a l1]; destruct l2 as [|b l2]; [constructor| | |].
  - pose proof (StronglySorted_inv S2) as [S2' F2]. rewrite Forall_forall in F2. constructor.
    + apply IH; [constructor|exact S2'].
    + apply Forall_forall. intros x Hx. apply smd_in_sub in Hx. destruct Hx as [[]|Hx]. apply F2; exact Hx.
  - pose proof (StronglySorted_inv S1) as [S1' F1]. rewrite Forall_forall in F1. constructor.
    + apply IH; [exact S1'|constructor].
    + apply Forall_forall. intros x Hx. apply smd_in_sub in Hx. destruct Hx as [Hx|[]]. apply F1; exact Hx.
  - pose proof (StronglySorted_inv S1) as [S1' F1]. rewrite Forall_forall in F1.
    pose proof (StronglySorted_inv S2) as [S2' F2]. rewrite Forall_forall in F2.
    destruct (N.ltb_spec b a) as [Hc|Hc].
    + constructor; [apply IH; assumption|]. apply Forall_forall. intros x Hx.
      apply smd_in_sub in Hx. destruct Hx as [[<-|Hx]|Hx]; [exact Hc| |apply F2; exact Hx].
      apply F1 in Hx. lia.
    + destruct (N.ltb_spec a b) as [Hc'|Hc'].
      * constructor; [apply IH; assumption|]. apply Forall_forall. intros x Hx.
        apply smd_in_sub in Hx. destruct Hx as [Hx|[<-|Hx]]; [apply F1; exact Hx|exact Hc'|].
        apply F2 in Hx. lia.
      * assert (a = b) by lia. subst. constructor; [apply IH; assumption|]. apply Forall_forall. intros x Hx.
        apply smd_in_sub in Hx. destruct Hx as [Hx|Hx]; [apply F1; exact Hx|apply F2; exact Hx].
Qed.

Lemma smd_complete_gen : forall max l1 l2 x,
  In x l1 \/ In x l2 -> In x (sorted_merge_dedup max l1 l2) \/ length (sorted_merge_dedup max l1 l2) = max.
Proof.
  induction max as [|m IH]; intros l1 l2 x Hx; cbn [sorted_merge_dedup]; [right; reflexivity|].
  destruct l1 as [|a l1]; destruct l2 as [|b l2]; [cbn in Hx; tauto| | |].
  - destruct Hx as [[]|[<-|Hx]]; [left; left; reflexivity|].
    destruct (IH [] l2 x (or_intror Hx)); [left; right; assumption|right; cbn; congruence].
  - destruct Hx as [[<-|Hx]|[]]; [left; left; reflexivity|].
    destruct (IH l1 [] x (or_introl Hx)); [left; right; assumption|right; cbn; congruence].
  - destruct (N.ltb_spec b a) as [Hc|Hc].
    + destruct Hx as [Hx|[<-|Hx]]; [|left; left; reflexivity|].
      * destruct (IH (a :: l1) l2 x (or_introl Hx)); [left; right; assumption|right; cbn; congruence].
      * destruct (IH (a :: l1) l2 x (or_intror Hx)); [left; right; assumption|right; cbn; congruence].
    + destruct (N.ltb_spec a b) as [Hc'|Hc'].
      * destruct Hx as [[<-|Hx]|Hx]; [left; left; reflexivity| |].
        -- destruct (IH l1 (b :: l2) x (or_introl Hx)); [left; right; assumption|right; cbn; congruence].
        -- destruct (IH l1 (b :: l2) x (or_intror Hx)); [left; right; assumption|right; cbn; congruence].
      * assert (a = b) by lia. subst.
        destruct Hx as [[<-|Hx]|[<-|Hx]]; [left; left; reflexivity| |left; left; reflexivity|].
        -- destruct (IH l1 l2 x (or_introl Hx)); [left; right; assumption|right; cbn; congruence].
        -- destruct (IH l1 l2 x (or_intror Hx)); [left; right; assumption|right; cbn; congruence].
Qed.

(** Truncating at [max] keeps a prefix of the full merge. *)
Lemma smd_firstn : forall max max' l1 l2, (max <= max')%nat ->
  sorted_merge_dedup max l1 l2 = firstn max (sorted_merge_dedup max' l1 l2).
Proof.
  induction max as [|m IH]; intros max' l1 l2 H; [reflexivity|].
  destruct max' as [|m']; [lia|]. cbn [sorted_merge_dedup].
  destruct l1 as [|a l1]; destruct l2 as [|b l2]; [reflexivity| | |].
  - cbn [firstn]. rewrite <- IH by lia. reflexivity.
  - cbn [firstn]. rewrite <- IH by lia. reflexivity.
  - destruct (b <? a); [cbn [firstn]; rewrite <- IH by lia; reflexivity|].
    destruct (a <? b); cbn [firstn]; rewrite <- IH by lia; reflexivity.
Qed.

Lemma smd_length : forall max l1 l2, (length (sorted_merge_dedup max l1 l2) <= length l1 + length l2)%nat.
Proof.
  induction max as [|m IH]; intros l1 l2; cbn [sorted_merge_dedup]; [cbn; lia|].
  destruct l1 as [|a l1]; destruct l2 as [|b l2]; [cbn; lia| | |].
  - cbn [length]. specialize (IH [] l2). cbn [length] in IH. lia.
  - cbn [length]. specialize (IH l1 []). cbn [length] in IH. lia.
  - destruct (b <? a); [cbn [length]; specialize (IH (a :: l1) l2); cbn [length] in IH; lia|].
    destruct (a <? b); cbn [length].
    + specialize (IH l1 (b :: l2)); cbn [length] in IH; lia.
    + specialize (IH l1 l2). lia.
Qed.

Lemma smd_union : forall l1 l2 t, ssorted l1 -> ssorted l2 ->
  (forall x, In x l1 -> x < 65536) -> (forall x, In x l2 -> x < 65536) ->
  t < 65536 -> ~ In t l1 -> ~ In t l2 ->
  let l := sorted_merge_dedup (N.to_nat MAX_RRTYPES_MAPPABLE) l1 l2 in
  ssorted l /\ (forall x, In x l <-> In x l1 \/ In x l2).
Proof.
  intros l1 l2 t S1 S2 B1 B2 Ht N1 N2 l.
  set (full := sorted_merge_dedup (length l1 + length l2 + N.to_nat MAX_RRTYPES_MAPPABLE + 1) l1 l2).
  assert (Hfull : forall x, In x full <-> In x l1 \/ In x l2).
  { intro x. split; [apply smd_in_sub|]. intro Hx.
    destruct (smd_complete_gen (length l1 + length l2 + N.to_nat MAX_RRTYPES_MAPPABLE + 1) l1 l2 x Hx) as [|E]; [assumption|].
    pose proof (smd_length (length l1 + length l2 + N.to_nat MAX_RRTYPES_MAPPABLE + 1) l1 l2). lia. }
  assert (Sfull : ssorted full) by (apply smd_sorted; assumption).
  assert (HL : (length full <= N.to_nat MAX_RRTYPES_MAPPABLE)%nat).
  { apply (types_not_full full t); [exact Sfull| |exact Ht|].
    - intros x Hx. apply Hfull in Hx. destruct Hx; auto.
    - rewrite Hfull. tauto. }
  assert (E : l = full).
  { unfold l. rewrite (smd_firstn _ (length l1 + length l2 + N.to_nat MAX_RRTYPES_MAPPABLE + 1)) by lia.
    fold full. apply firstn_all2. exact HL. }
  rewrite E. split; [exact Sfull|exact Hfull].
Qed.
