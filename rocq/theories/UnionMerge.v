(** Merging, testing and unpacking RRtype-union values. *)
From Coq Require Import Sorting.Sorted Permutation.
From Verif Require Import Base BaseFacts ModelUnion SpecUnion UnionProofs UnionBuild ModelMerge MergeProofs.

Lemma app_len_inj : forall (a a' b b' : bytes), length a = length a' -> a ++ b = a' ++ b' -> a = a' /\ b = b'.
Proof.
  induction a as [|x a IH]; intros [|y a'] b b' HL E; cbn in *; try discriminate; [split; auto|].
  inversion E; subst. inversion HL. destruct (IH a' b b'); auto. subst. split; reflexivity.
Qed.

Lemma encode_windows_inj : forall ws1 ws2, encode_windows ws1 = encode_windows ws2 -> ws1 = ws2.
Proof.
  induction ws1 as [|[w1 b1] ws1 IH]; intros [|[w2 b2] ws2] E; try discriminate; [reflexivity|].
  rewrite !encode_windows_cons in E. inversion E as [[A B C]].
  apply app_len_inj in C; [|unfold blen in B; lia]. destruct C as [-> C]. f_equal. apply IH. exact C.
Qed.

Lemma union_mem_windows : forall ws t, ws <> [] -> windows_ok ws ->
  (union_mem (encode_windows ws) t <-> windows_mem ws t).
Proof.
  intros ws t Hne Hok.
  destruct (encode_windows_shape ws Hne (windows_ok_lenient _ Hok)) as (a & b & c & r & E).
  unfold union_mem. rewrite E. rewrite <- E. split.
  - intros (ws' & Hok' & E' & M). apply encode_windows_inj in E'. subst. exact M.
  - intro M. exists ws. repeat split; try exact M; apply Hok.
Qed.

Lemma rfc4034_unique : forall m1 m2, rfc4034 m1 -> rfc4034 m2 ->
  (forall t, union_mem m1 t <-> union_mem m2 t) -> m1 = m2.
Proof.
  intros m1 m2 (ws1 & N1 & O1 & ->) (ws2 & N2 & O2 & ->) H. f_equal.
  apply windows_unique; [exact O1|exact O2|]. intro t.
  rewrite <- !union_mem_windows by assumption. apply H.
Qed.

Lemma rfc4034_mono : forall m1 m2, rfc4034 m1 -> rfc4034 m2 ->
  (forall t, union_mem m1 t -> union_mem m2 t) -> blen m1 <= blen m2.
Proof.
  intros m1 m2 (ws1 & N1 & O1 & ->) (ws2 & N2 & O2 & ->) H.
  apply windows_mono; [exact O1|exact O2|]. intro t.
  rewrite <- !union_mem_windows by assumption. apply H.
Qed.

Lemma rfc4034_valid : forall m, rfc4034 m -> union_valid m.
Proof. intros m (ws & N1 & O1 & ->). constructor; assumption. Qed.

Lemma union_valid_nonempty : forall m, union_valid m -> m <> [].
Proof.
  intros m H. inversion H; subst; try discriminate.
  destruct (encode_windows_shape ws H0 (windows_ok_lenient _ H1)) as (a & b & c & r & E). rewrite E. discriminate.
Qed.

(** The sorted list of types of a valid value. *)
Lemma union_types : forall m, union_valid m ->
  exists l, ssorted l /\ l <> [] /\ (forall t, In t l -> t < 65536) /\ (forall t, In t l <-> union_mem m t) /\
    (forall t, t < 65536 -> ~ In t l -> rrtype_union_unpack m = Ok (Some l)).
Proof.
  intros m H. inversion H; subst.
  - exists [b]. repeat split.
    + repeat constructor.
    + discriminate.
    + intros t [<-|[]]. lia.
    + intros [<-|[]]. reflexivity.
    + intros ->. left. reflexivity.
  - exists [lo + 256 * hi]. repeat split.
    + repeat constructor.
    + discriminate.
    + intros t [<-|[]]. lia.
    + intros [<-|[]]. reflexivity.
    + intros ->. left. reflexivity.
  - pose proof (windows_ok_lenient _ H1) as HL. exists (types_of ws). split; [|split; [|split; [|split]]].
    + apply ssorted_types_of. exact HL.
    + destruct ws as [|[w bm] ws]; [congruence|]. pose proof (windows_ok_inv _ _ _ H1) as (Hw & _).
      destruct (window_ok_last _ _ Hw) as (t & A & _ & B).
      intro E. assert (M : In t []).
      { rewrite <- E. apply in_types_of; [apply HL|]. apply windows_mem_cons. tauto. }
      destruct M.
    + intros t Ht. eapply types_of_bound; [apply HL|exact Ht].
    + intro t. rewrite union_mem_windows by assumption. apply in_types_of. apply HL.
    + intros t Ht Hn. apply (unpack_windows ws t); try assumption. rewrite <- in_types_of by apply HL. exact Hn.
Qed.

Lemma unpack_bits8_length : forall w a lo, lo + 7 < 256 -> (length (unpack_bits one_to_eight w a lo) <= 8)%nat.
Proof.
  intros w a lo H. apply (ssorted_length_bound _ (256 * w + lo)); [apply ssorted_bits8; exact H|].
  intros x Hx. rewrite in_bits8 in Hx by exact H. lia.
Qed.

Lemma unpack_block_length : forall bm w lo, lo mod 8 = 0 -> lo + 8 * N.of_nat (length bm) <= 256 ->
  (length (unpack_block w lo bm) <= 8 * length bm)%nat.
Proof.
  intros bm w lo H1 H2. apply (ssorted_length_bound _ (256 * w + lo)); [apply ssorted_block; assumption|].
  intros x Hx. rewrite in_unpack_block in Hx by assumption. lia.
Qed.

Lemma types_of_length : forall ws, windows_lenient ws -> (length (types_of ws) <= 8 * length (encode_windows ws))%nat.
Proof.
  induction ws as [|[w bm] ws IH]; intros [HF S]; [cbn; lia|].
  inversion HF as [|? ? Hw Hws]; subst. cbn [map fst] in S. apply StronglySorted_inv in S. destruct S as [S _].
  cbn [types_of flat_map fst snd]. fold (types_of ws). rewrite encode_windows_cons.
  cbn [length]. rewrite !app_length. specialize (IH (conj Hws S)).
  destruct Hw as [_ Hl]; cbn [fst snd] in Hl. pose proof (unpack_block_length bm w 0 eq_refl). lia.
Qed.

(** A short list misses some type. *)
Lemma missing_type : forall l : list N, (length l < N.to_nat 65536)%nat -> exists t, t < 65536 /\ ~ In t l.
Proof.
  intros l HL.
  set (all := map N.of_nat (seq 0 (N.to_nat 65536))).
  destruct (Forall_dec (fun t => In t l) (fun t => in_dec N.eq_dec t l) all) as [HF|HF].
  - exfalso. assert (HI : incl all l) by (intros x Hx; rewrite Forall_forall in HF; apply HF; exact Hx).
    apply NoDup_incl_length in HI.
    + unfold all in HI. rewrite map_length, seq_length in HI. lia.
    + apply FinFun.Injective_map_NoDup; [intros x y Hxy; lia|apply seq_NoDup].
  - apply neg_Forall_Exists_neg in HF; [|intro; apply in_dec, N.eq_dec].
    apply Exists_exists in HF. destruct HF as (t & Hin & Hn). exists t. split; [|exact Hn].
    unfold all in Hin. apply in_map_iff in Hin. destruct Hin as (k & <- & Hk). apply in_seq in Hk. lia.
Qed.

Lemma small_rfc_missing : forall m, rfc4034 m -> blen m < 8192 -> exists t, t < 65536 /\ ~ union_mem m t.
Proof.
  intros m (ws & Hne & Hok & ->) HL. pose proof (windows_ok_lenient _ Hok) as Hlen.
  destruct (missing_type (types_of ws)) as (t & Ht & Hn).
  { pose proof (types_of_length ws Hlen). unfold blen in HL. lia. }
  exists t. split; [exact Ht|]. rewrite union_mem_windows, <- in_types_of by (try assumption; apply Hlen). exact Hn.
Qed.

Lemma merge_nonempty : forall v0 v1 l0 l1, v0 <> [] -> v1 <> [] -> v0 <> v1 ->
  rrtype_union_unpack v0 = Ok (Some l0) -> rrtype_union_unpack v1 = Ok (Some l1) ->
  merge_rrtype_bitmaps v0 v1 = build_bitmap (sorted_merge_dedup (N.to_nat MAX_RRTYPES_MAPPABLE) l0 l1).
Proof.
  intros v0 v1 l0 l1 N0 N1 Hne U0 U1. unfold merge_rrtype_bitmaps.
  destruct v0 as [|a0 v0]; [congruence|]. destruct v1 as [|a1 v1]; [congruence|].
  destruct (beq (a0 :: v0) (a1 :: v1)) eqn:E; [apply beq_true in E; congruence|].
  destruct v0 as [|b0 v0]; destruct v1 as [|b1 v1].
  - cbn in U0, U1. inversion U0; inversion U1; subst. reflexivity.
  - rewrite U0, U1. destruct v1; reflexivity.
  - rewrite U0, U1. destruct v0; reflexivity.
  - destruct v0 as [|c0 v0]; destruct v1 as [|c1 v1]; try (rewrite U0, U1; reflexivity).
    cbn in U0, U1. inversion U0; inversion U1; subst. reflexivity.
Qed.

Lemma union_exists : forall l, ssorted l -> l <> [] -> (forall t, In t l -> t < 65536) ->
  exists m, rfc4034 m /\ forall t, union_mem m t <-> In t l.
Proof.
  intros l S Hne Hb. destruct (build_bitmap_spec l Hne S Hb) as (ws & Nw & Ow & Mw & _).
  exists (encode_windows ws). split; [exists ws; auto|].
  intro t. rewrite union_mem_windows by assumption. apply Mw.
Qed.

Lemma smd_big : forall l1 l2, ssorted l1 -> ssorted l2 ->
  exists l, l = sorted_merge_dedup (length l1 + length l2 + 1) l1 l2 /\ ssorted l /\
    forall x, In x l <-> In x l1 \/ In x l2.
Proof.
  intros l1 l2 S1 S2. eexists. split; [reflexivity|]. split; [apply smd_sorted; assumption|].
  intro x. split; [apply smd_in_sub|]. intro Hx.
  destruct (smd_complete_gen (length l1 + length l2 + 1) l1 l2 x Hx) as [|E]; [assumption|].
  pose proof (smd_length (length l1 + length l2 + 1) l1 l2). lia.
Qed.

(** The union of two valid values has an RFC 4034 encoding. *)
Lemma union_of_two_exists : forall v0 v1, union_valid v0 -> union_valid v1 ->
  exists m, rfc4034 m /\ forall t, union_mem m t <-> union_mem v0 t \/ union_mem v1 t.
Proof.
  intros v0 v1 H0 H1. destruct (union_types v0 H0) as (l0 & S0 & N0 & B0 & M0 & _).
  destruct (union_types v1 H1) as (l1 & S1 & N1 & B1 & M1 & _).
  destruct (smd_big l0 l1 S0 S1) as (l & _ & S & M).
  destruct (union_exists l S) as (m & Hm & HM).
  - destruct l0 as [|x l0]; [congruence|]. intro E. subst. destruct (M x) as [_ Hx].
    specialize (Hx (or_introl (or_introl eq_refl))). destruct Hx.
  - intros t Ht. apply M in Ht. destruct Ht; auto.
  - exists m. split; [exact Hm|]. intro t. rewrite HM, M, M0, M1. reflexivity.
Qed.

(** Two different valid values whose union fits merge to the RFC 4034 form of
    the union. *)
Lemma merge_union_fits : forall v0 v1 m, union_valid v0 -> union_valid v1 -> v0 <> v1 ->
  rfc4034 m -> (forall t, union_mem m t <-> union_mem v0 t \/ union_mem v1 t) ->
  blen m < 1024 -> merge_rrtype_bitmaps v0 v1 = Ok m.
Proof.
  intros v0 v1 m H0 H1 Hne Hm HM Hlen.
  destruct (small_rfc_missing m Hm) as (t & Ht & Hmiss); [lia|].
  destruct (union_types v0 H0) as (l0 & S0 & N0 & B0 & M0 & U0).
  destruct (union_types v1 H1) as (l1 & S1 & N1 & B1 & M1 & U1).
  assert (A0 : ~ In t l0) by (rewrite M0; intro; apply Hmiss, HM; tauto).
  assert (A1 : ~ In t l1) by (rewrite M1; intro; apply Hmiss, HM; tauto).
  rewrite (merge_nonempty v0 v1 l0 l1); eauto using union_valid_nonempty.
  destruct (smd_union l0 l1 t S0 S1 B0 B1 Ht A0 A1) as [SS SM].
  set (l := sorted_merge_dedup (N.to_nat MAX_RRTYPES_MAPPABLE) l0 l1) in *.
  assert (Nl : l <> []).
  { destruct l0 as [|x l0]; [congruence|]. intro E. destruct (SM x) as [_ Hx].
    specialize (Hx (or_introl (or_introl eq_refl))). rewrite E in Hx. destruct Hx. }
  destruct (build_bitmap_spec l Nl SS) as (ws & Nw & Ow & Mw & ->).
  { intros x Hx. apply SM in Hx. destruct Hx; auto. }
  assert (E : encode_windows ws = m).
  { apply rfc4034_unique; [exists ws; auto|exact Hm|]. intro x.
    rewrite union_mem_windows, Mw, SM, HM, M0, M1 by assumption. reflexivity. }
  rewrite E. destruct (N.ltb_spec (blen m) bm_assert_limit) as [|Hb]; [reflexivity|].
  change bm_assert_limit with 1024 in Hb. lia.
Qed.

(** ... and otherwise the merge does not produce a value. *)
Lemma firstn_ssorted : forall n l, ssorted l -> ssorted (firstn n l).
Proof.
  intros n l H. rewrite <- (firstn_skipn n l) in H. apply ssorted_app_inv in H. apply H.
Qed.

Lemma many_types_big : forall ws, windows_ok ws -> (N.to_nat 8192 <= length (types_of ws))%nat ->
  1024 <= blen (encode_windows ws).
Proof.
  intros ws Hok H. pose proof (types_of_length ws (windows_ok_lenient _ Hok)). unfold blen. lia.
Qed.

Lemma ssorted_nodup : forall l, ssorted l -> NoDup l.
Proof.
  induction 1 as [|a l S IH HF]; constructor; [|exact IH]. intro Hin.
  rewrite Forall_forall in HF. apply HF in Hin. lia.
Qed.

Lemma ssorted_same_length : forall l l', ssorted l -> ssorted l' -> (forall t, In t l <-> In t l') -> length l = length l'.
Proof.
  intros l l' S S' H. apply Permutation_length. apply NoDup_Permutation; auto using ssorted_nodup.
Qed.

Lemma merge_union_overflow : forall v0 v1 m, union_valid v0 -> union_valid v1 -> v0 <> v1 ->
  rfc4034 m -> (forall t, union_mem m t <-> union_mem v0 t \/ union_mem v1 t) ->
  1024 <= blen m -> merge_rrtype_bitmaps v0 v1 = Abort \/ merge_rrtype_bitmaps v0 v1 = Fail.
Proof.
  intros v0 v1 m H0 H1 Hne Hm HM Hlen.
  destruct (union_types v0 H0) as (l0 & S0 & N0 & B0 & M0 & U0).
  destruct (union_types v1 H1) as (l1 & S1 & N1 & B1 & M1 & U1).
  assert (Hdec : forall v l, union_valid v -> ssorted l -> (forall t, In t l -> t < 65536) ->
     (forall t, In t l <-> union_mem v t) ->
     (exists t, t < 65536 /\ ~ In t l) \/ rrtype_union_unpack v = Ok None).
  { intros v l Hv S B M. destruct (Nat.lt_ge_cases (length l) (N.to_nat 65536)) as [Hc|Hc].
    - left. apply missing_type. exact Hc.
    - right.
      assert (Hall : forall t, t < 65536 -> In t l).
      { intros t Ht. destruct (in_dec N.eq_dec t l) as [|Hn]; [assumption|].
        pose proof (types_not_full l t S B Ht Hn) as HL. unfold MAX_RRTYPES_MAPPABLE in HL. lia. }
      inversion Hv; subst.
      + exfalso. pose proof (Hall 0 eq_refl) as A. pose proof (Hall 1 eq_refl) as A'. apply M in A. apply M in A'.
        cbn in A, A'. lia.
      + exfalso. pose proof (Hall 0 eq_refl) as A. apply M in A. unfold union_mem in A. lia.
      + apply unpack_windows_full; [assumption|apply windows_ok_lenient; assumption|].
        intros t Ht. rewrite <- union_mem_windows, <- M by assumption. apply Hall. exact Ht. }
  assert (NE0 := union_valid_nonempty _ H0). assert (NE1 := union_valid_nonempty _ H1).
  destruct (Hdec v0 l0 H0 S0 B0 M0) as [(t0 & T0 & X0)|UN0].
  - destruct (Hdec v1 l1 H1 S1 B1 M1) as [(t1 & T1 & X1)|UN1].
    + left. rewrite (merge_nonempty v0 v1 l0 l1); eauto.
      destruct (smd_big l0 l1 S0 S1) as (full & Ef & Sf & Mf).
      set (lim := N.to_nat MAX_RRTYPES_MAPPABLE) in *.
      set (l := sorted_merge_dedup lim l0 l1).
      assert (Sl : ssorted l) by (apply smd_sorted; assumption).
      assert (Bl : forall x, In x l -> x < 65536).
      { intros x Hx. apply smd_in_sub in Hx. destruct Hx; auto. }
      assert (Nl : l <> []).
      { intro E. destruct l0 as [|x l0]; [congruence|].
        destruct (smd_complete_gen lim (x :: l0) l1 x (or_introl (or_introl eq_refl))) as [A|A];
        fold l in A; rewrite E in A; [destruct A|]. 
        apply (f_equal N.of_nat) in A. unfold lim in A. rewrite Nnat.N2Nat.id in A. discriminate. }
      destruct (build_bitmap_spec l Nl Sl Bl) as (ws & Nw & Ow & Mw & ->).
      destruct (N.ltb_spec (blen (encode_windows ws)) bm_assert_limit) as [Hs|]; [|reflexivity]. exfalso.
      change bm_assert_limit with 1024 in Hs.
      assert (HL : (length l < N.to_nat 8192)%nat).
      { assert (Elen : length l = length (types_of ws)).
        { apply ssorted_same_length; [exact Sl|apply ssorted_types_of, windows_ok_lenient, Ow|].
          intro x. rewrite in_types_of, Mw by (apply windows_ok_lenient; exact Ow). reflexivity. }
        destruct (Nat.lt_ge_cases (length l) (N.to_nat 8192)) as [|Hc]; [assumption|].
        rewrite Elen in Hc. apply (many_types_big ws Ow) in Hc. lia. }
      assert (Hin : forall x, In x l <-> In x l0 \/ In x l1).
      { intro x. split; [apply smd_in_sub|]. intro Hx.
        destruct (smd_complete_gen lim l0 l1 x Hx) as [A|A]; [exact A|]. fold l in A.
        unfold lim, MAX_RRTYPES_MAPPABLE in A. lia. }
      assert (E : encode_windows ws = m).
      { apply rfc4034_unique; [exists ws; auto|exact Hm|]. intro x.
        rewrite union_mem_windows, Mw, Hin, HM, M0, M1 by assumption. reflexivity. }
      rewrite E in Hs. lia.
    + right. pose proof (U0 t0 T0 X0) as E0. unfold merge_rrtype_bitmaps.
      destruct v0 as [|a0 v0]; [congruence|]. destruct v1 as [|a1 v1]; [congruence|].
      destruct (beq (a0 :: v0) (a1 :: v1)) eqn:E; [apply beq_true in E; congruence|].
      destruct v1 as [|b1 v1]; [discriminate|]. destruct v1 as [|c1 v1]; [discriminate|].
      rewrite E0, UN1. destruct v0 as [|b0 v0]; [reflexivity|]. destruct v0; reflexivity.
  - right. unfold merge_rrtype_bitmaps.
    destruct v0 as [|a0 v0]; [congruence|]. destruct v1 as [|a1 v1]; [congruence|].
    destruct (beq (a0 :: v0) (a1 :: v1)) eqn:E; [apply beq_true in E; congruence|].
    destruct v0 as [|b0 v0]; [discriminate|]. destruct v0 as [|c0 v0]; [discriminate|].
    rewrite UN0. destruct v1 as [|b1 v1]; [reflexivity|]. destruct v1; reflexivity.
Qed.

Lemma merge_union_same : forall v, merge_rrtype_bitmaps v v = Ok v.
Proof.
  intros [|a v]; [reflexivity|]. unfold merge_rrtype_bitmaps.
  assert (E : beq (a :: v) (a :: v) = true) by (apply beq_true; reflexivity). rewrite E. reflexivity.
Qed.

Lemma merge_union_empty : forall v, merge_rrtype_bitmaps [] v = Ok [] /\ merge_rrtype_bitmaps v [] = Ok [].
Proof. intros [|a v]; split; reflexivity. Qed.

(** ** Trees of merges *)

Definition union_key (key : bytes) : Prop :=
  exists rest, key = ENTRY_TYPE_RRSET_NAME_FWD :: rest \/ key = ENTRY_TYPE_RDATA_NAME_REV :: rest.

Lemma merge_func_union : forall key v0 v1, union_key key -> merge_func key v0 v1 = merge_rrtype_bitmaps v0 v1.
Proof. intros key v0 v1 (rest & [->| ->]); reflexivity. Qed.

Definition nonempties (l : list bytes) : list bytes := filter (fun v => negb (beq v [])) l.

Lemma beq_nil : forall v, beq v [] = match v with [] => true | _ => false end.
Proof. intros [|]; reflexivity. Qed.

Lemma in_nonempties : forall l v, In v (nonempties l) <-> In v l /\ v <> [].
Proof.
  intros l v. unfold nonempties. rewrite filter_In, beq_nil. destruct v; cbn; split; intros [A B]; split; auto; congruence.
Qed.

Lemma list_eq_dec_bytes : forall a b : bytes, {a = b} + {a <> b}.
Proof. apply list_eq_dec, N.eq_dec. Qed.

(** Evaluation of a merge tree: invariant.  [m] bounds the union of the
    non-empty leaves. *)
Lemma meval_union_inv : forall key m, union_key key -> rfc4034 m -> blen m < 1024 ->
  forall t, (forall v, In v (mleaves t) -> v = [] \/ (union_valid v /\ forall x, union_mem v x -> union_mem m x)) ->
  (In [] (mleaves t) -> meval key t = Ok []) /\
  (~ In [] (mleaves t) ->
   exists r, meval key t = Ok r /\ union_valid r /\
     (forall x, union_mem r x <-> exists v, In v (mleaves t) /\ union_mem v x) /\
     ((forall v, In v (mleaves t) -> v = r) \/ rfc4034 r)).
Proof.
  intros key m Hk Hm Hlen. induction t as [v|t1 IH1 t2 IH2]; intro H; cbn [mleaves meval] in *.
  - split.
    + intros [->|[]]. reflexivity.
    + intro Hn. exists v. split; [reflexivity|].
      destruct (H v (or_introl eq_refl)) as [->|[Hv _]]; [exfalso; apply Hn; left; reflexivity|].
      split; [exact Hv|]. split.
      * intro x. split; [intro; exists v; split; [left; reflexivity|assumption]|].
        intros (v' & [<-|[]] & M). exact M.
      * left. intros v' [<-|[]]. reflexivity.
  - destruct (IH1 (fun v Hv => H v (in_or_app _ _ _ (or_introl Hv)))) as [E1 R1].
    destruct (IH2 (fun v Hv => H v (in_or_app _ _ _ (or_intror Hv)))) as [E2 R2].
    assert (D1 : In [] (mleaves t1) \/ ~ In [] (mleaves t1)) by (destruct (in_dec list_eq_dec_bytes [] (mleaves t1)); tauto).
    assert (D2 : In [] (mleaves t2) \/ ~ In [] (mleaves t2)) by (destruct (in_dec list_eq_dec_bytes [] (mleaves t2)); tauto).
    split.
    + intro Hin. apply in_app_iff in Hin.
      destruct D1 as [D1|D1].
      * rewrite (E1 D1). cbn [bind]. destruct D2 as [D2|D2].
        -- rewrite (E2 D2). cbn [bind]. rewrite merge_func_union by exact Hk. reflexivity.
        -- destruct (R2 D2) as (r2 & -> & _). cbn [bind]. rewrite merge_func_union by exact Hk. apply merge_union_empty.
      * destruct Hin as [|D2']; [tauto|]. destruct (R1 D1) as (r1 & -> & _). rewrite (E2 D2'). cbn [bind].
        rewrite merge_func_union by exact Hk. apply merge_union_empty.
    + intro Hn. assert (N1 : ~ In [] (mleaves t1)) by (intro; apply Hn, in_app_iff; tauto).
      assert (N2 : ~ In [] (mleaves t2)) by (intro; apply Hn, in_app_iff; tauto).
      destruct (R1 N1) as (r1 & -> & V1 & M1 & S1). destruct (R2 N2) as (r2 & -> & V2 & M2 & S2). cbn [bind].
      rewrite merge_func_union by exact Hk.
      assert (Hex : forall x, (exists v, In v (mleaves t1 ++ mleaves t2) /\ union_mem v x) <-> union_mem r1 x \/ union_mem r2 x).
      { intro x. rewrite M1, M2. split.
        - intros (v & Hin & M). apply in_app_iff in Hin. destruct Hin; [left|right]; eauto.
        - intros [(v & Hin & M)|(v & Hin & M)]; exists v; rewrite in_app_iff; tauto. }
      destruct (list_eq_dec_bytes r1 r2) as [->|Hne].
      * exists r2. rewrite merge_union_same. split; [reflexivity|]. split; [exact V2|]. split.
        { intro x. rewrite Hex. tauto. }
        destruct S1 as [S1|S1]; [|right; exact S1]. destruct S2 as [S2|S2]; [|right; exact S2].
        left. intros v Hin. apply in_app_iff in Hin. destruct Hin; auto.
      * destruct (union_of_two_exists r1 r2 V1 V2) as (u & Hu & HU).
        assert (Hul : blen u <= blen m).
        { apply rfc4034_mono; [exact Hu|exact Hm|]. intros x Hx. apply HU in Hx. rewrite <- Hex in Hx.
          destruct Hx as (v & Hin & M). destruct (H v Hin) as [->|[_ HH]]; [contradiction|]. apply HH. exact M. }
        exists u. split; [|split; [apply rfc4034_valid; exact Hu|split; [|right; exact Hu]]].
        -- apply merge_union_fits; try assumption. lia.
        -- intro x. rewrite HU, Hex. reflexivity.
Qed.

(** Result of any merge tree over values whose union fits. *)
Lemma meval_union : forall key m t, union_key key ->
  (forall v, In v (mleaves t) -> v = [] \/ union_valid v) ->
  rfc4034 m -> (forall x, union_mem m x <-> exists v, In v (mleaves t) /\ v <> [] /\ union_mem v x) ->
  blen m < 1024 ->
  (In [] (mleaves t) -> meval key t = Ok []) /\
  (~ In [] (mleaves t) ->
     (forall v, (forall v', In v' (mleaves t) -> v' = v) -> meval key t = Ok v) /\
     ((exists v v', In v (mleaves t) /\ In v' (mleaves t) /\ v <> v') -> meval key t = Ok m)).
Proof.
  intros key m t Hk Hv Hm HM Hlen.
  destruct (meval_union_inv key m Hk Hm Hlen t) as [A B].
  { intros v Hin. destruct (Hv v Hin) as [->|Hval]; [left; reflexivity|]. right. split; [exact Hval|].
    intros x Hx. apply HM. exists v. repeat split; try assumption. apply union_valid_nonempty. exact Hval. }
  split; [exact A|]. intro Hn. destruct (B Hn) as (r & Er & Vr & Mr & Sr). split.
  - intros v Hall. rewrite Er. f_equal. destruct Sr as [Sr|Sr].
    + pose proof (mleaves_nonempty t). destruct (mleaves t) as [|v0 vs]; [congruence|].
      rewrite <- (Sr v0), <- (Hall v0) by (left; reflexivity). reflexivity.
    + (* all leaves equal: evaluation is that leaf *)
      assert (Hev : meval key t = Ok v).
      { clear - Hall Hk. induction t as [v0|t1 IH1 t2 IH2]; cbn [mleaves meval] in *.
        - f_equal. apply Hall. left. reflexivity.
        - rewrite IH1, IH2 by (intros; apply Hall, in_app_iff; tauto). cbn [bind].
          rewrite merge_func_union by exact Hk. apply merge_union_same. }
      rewrite Er in Hev. congruence.
  - intros (v & v' & H1 & H2 & Hne). rewrite Er. f_equal. destruct Sr as [Sr|Sr].
    + exfalso. apply Hne. rewrite (Sr v H1), (Sr v' H2). reflexivity.
    + apply rfc4034_unique; [exact Sr|exact Hm|]. intro x. rewrite Mr, HM. split.
      * intros (u & Hin & M). exists u. repeat split; try assumption. intros ->. contradiction.
      * intros (u & Hin & _ & M). exists u. split; assumption.
Qed.

Lemma meval_union_perm : forall key m a b, union_key key ->
  Permutation (mleaves a) (mleaves b) ->
  (forall v, In v (mleaves a) -> v = [] \/ union_valid v) ->
  rfc4034 m -> (forall x, union_mem m x <-> exists v, In v (mleaves a) /\ v <> [] /\ union_mem v x) ->
  blen m < 1024 ->
  meval key a = meval key b /\ exists r, meval key a = Ok r.
Proof.
  intros key m a b Hk HP Hv Hm HM Hlen.
  assert (HI : forall v, In v (mleaves b) <-> In v (mleaves a)).
  { intro v. split; apply Permutation_in; [apply Permutation_sym|]; exact HP. }
  destruct (meval_union key m a Hk Hv Hm HM Hlen) as [A1 A2].
  destruct (meval_union key m b Hk) as [B1 B2]; try assumption.
  { intros v Hin. apply Hv, HI, Hin. }
  { intro x. rewrite HM. split; intros (v & H1 & H2 & H3); exists v; repeat split; try assumption; apply HI; assumption. }
  destruct (in_dec list_eq_dec_bytes [] (mleaves a)) as [Hin|Hn].
  - rewrite A1 by exact Hin. rewrite B1 by (apply HI; exact Hin). split; [reflexivity|eauto].
  - destruct (A2 Hn) as [A3 A4]. destruct B2 as [B3 B4]; [rewrite HI; exact Hn|].
    pose proof (mleaves_nonempty a). destruct (mleaves a) as [|v vs] eqn:Ea; [congruence|]. rewrite <- Ea in *.
    assert (Hva : In v (mleaves a)) by (rewrite Ea; left; reflexivity).
    destruct (Forall_dec (fun v' => v' = v) (fun v' => list_eq_dec_bytes v' v) (mleaves a)) as [HF|HF].
    + rewrite Forall_forall in HF. rewrite (A3 v HF), (B3 v) by (intros; apply HF, HI; assumption). split; [reflexivity|eauto].
    + apply neg_Forall_Exists_neg in HF; [|intro; apply list_eq_dec_bytes].
      apply Exists_exists in HF. destruct HF as (v' & Hin' & Hne).
      rewrite A4, B4; [split; [reflexivity|eauto]| |].
      * exists v', v. repeat split; try (apply HI); assumption.
      * exists v', v. repeat split; assumption.
Qed.

(** ** rrtype_union_check *)

Lemma union_check_blocks_spec : forall ws t fuel, windows_lenient ws -> bytes_ok (encode_windows ws) ->
  (length (encode_windows ws) < fuel)%nat -> t < 65536 ->
  (forall bm, In (t / 256, bm) ws -> t mod 256 / 8 <> blen bm) ->
  exists b, union_check_blocks fuel (t / 256) (t mod 256 / 8) (t mod 256 mod 8) (encode_windows ws) = Ok b /\
    (b = true <-> windows_mem ws t).
Proof.
  induction ws as [|[w bm] ws IH]; intros t fuel [HF S] Hbo Hfuel Ht Hne.
  - destruct fuel; [cbn in Hfuel; lia|]. exists false. split; [reflexivity|].
    split; [discriminate|]. intros (? & [] & _).
  - rewrite encode_windows_cons in *. destruct fuel as [|fuel]; [lia|]. cbn [union_check_blocks].
    destruct (N.ltb_spec (blen (bm ++ encode_windows ws)) (blen bm)) as [Hc|_]; [rewrite blen_app in Hc; lia|].
    inversion HF as [|? ? Hw Hws]; subst. cbn [map fst] in S. apply StronglySorted_inv in S. destruct S as [S G].
    assert (Hbo' : bytes_ok (encode_windows ws)).
    { inversion Hbo as [|? ? _ Hb1]; subst. inversion Hb1 as [|? ? _ Hb2]; subst. apply bytes_ok_app in Hb2. apply Hb2. }
    destruct (N.eqb_spec w (t / 256)) as [E|E]; cbn [negb].
    + pose proof (Hne bm) as Hnb. rewrite <- E in Hnb. specialize (Hnb (or_introl eq_refl)).
      assert (Hnm : ~ windows_mem ws t) by (intro M; apply (windows_mem_gt _ _ _ G) in M; lia).
      destruct (N.ltb_spec (blen bm) (t mod 256 / 8)) as [Hc|Hc].
      * exists false. split; [reflexivity|]. split; [discriminate|]. rewrite windows_mem_cons. intros [[_ M]|M]; [|tauto].
        apply offbit_in_range in M. lia.
      * assert (Hr : rd (bm ++ encode_windows ws) (N.to_nat (t mod 256 / 8)) = Ok (nth (N.to_nat (t mod 256 / 8)) bm 0)).
        { unfold rd. rewrite nth_error_app1 by (unfold blen in *; lia).
          rewrite (nth_error_nth' bm 0) by (unfold blen in *; lia). reflexivity. }
        rewrite Hr. cbn [bind]. eexists. split; [reflexivity|].
        rewrite windows_mem_cons. rewrite shiftr_128 by lia. rewrite <- N.shiftl_1_l, land_pow2_testbit, negb_involutive.
        unfold offbit. split; [intro M; left; split; [congruence|exact M]|]. intros [[_ M]|M]; [exact M|tauto].
    + rewrite skipn_blen_app. destruct (IH t fuel (conj Hws S) Hbo') as (b & Hb & HB).
      * cbn [length] in Hfuel. rewrite app_length in Hfuel. lia.
      * exact Ht.
      * intros bm' Hin. apply Hne. right. exact Hin.
      * exists b. split; [exact Hb|]. rewrite HB, windows_mem_cons. split; [tauto|]. intros [[M _]|M]; [congruence|exact M].
Qed.

(** Membership always makes the test succeed. *)
Lemma union_check_blocks_true : forall ws t fuel, windows_lenient ws ->
  (length (encode_windows ws) < fuel)%nat -> t < 65536 -> windows_mem ws t ->
  union_check_blocks fuel (t / 256) (t mod 256 / 8) (t mod 256 mod 8) (encode_windows ws) = Ok true.
Proof.
  induction ws as [|[w bm] ws IH]; intros t fuel [HF S] Hfuel Ht M.
  - destruct M as (? & [] & _).
  - rewrite encode_windows_cons in *. destruct fuel as [|fuel]; [lia|]. cbn [union_check_blocks].
    destruct (N.ltb_spec (blen (bm ++ encode_windows ws)) (blen bm)) as [Hc|_]; [rewrite blen_app in Hc; lia|].
    inversion HF as [|? ? Hw Hws]; subst. cbn [map fst] in S. apply StronglySorted_inv in S. destruct S as [S G].
    apply windows_mem_cons in M.
    destruct (N.eqb_spec w (t / 256)) as [E|E]; cbn [negb].
    + destruct M as [[_ M]|M]; [|apply (windows_mem_gt _ _ _ G) in M; lia].
      pose proof (offbit_in_range _ _ M) as Hr.
      destruct (N.ltb_spec (blen bm) (t mod 256 / 8)) as [Hc|Hc]; [lia|].
      assert (Hrd : rd (bm ++ encode_windows ws) (N.to_nat (t mod 256 / 8)) = Ok (nth (N.to_nat (t mod 256 / 8)) bm 0)).
      { unfold rd. rewrite nth_error_app1 by (unfold blen in *; lia).
        rewrite (nth_error_nth' bm 0) by (unfold blen in *; lia). reflexivity. }
      rewrite Hrd. cbn [bind]. rewrite shiftr_128 by lia. rewrite <- N.shiftl_1_l, land_pow2_testbit, negb_involutive.
      unfold offbit in M. rewrite M. reflexivity.
    + destruct M as [[M _]|M]; [congruence|]. rewrite skipn_blen_app. apply IH; auto; [split; assumption|].
      cbn [length] in Hfuel. rewrite app_length in Hfuel. lia.
Qed.

Lemma union_check_no_false_negative : forall m t, union_valid m -> t < 65536 -> union_mem m t ->
  rrtype_union_check t m = Ok true.
Proof.
  intros m t H Ht M. inversion H; subst.
  - cbn in M. subst. unfold rrtype_union_check. rewrite N.eqb_refl. reflexivity.
  - unfold union_mem in M. subst. unfold rrtype_union_check, le16. rewrite N.eqb_refl. reflexivity.
  - pose proof (windows_ok_lenient _ H1) as HL. rewrite union_mem_windows in M by assumption.
    destruct (encode_windows_shape ws H0 HL) as (a & b & c & r & E).
    unfold rrtype_union_check. rewrite E. rewrite <- E. apply union_check_blocks_true; try assumption. lia.
Qed.

Lemma encode_windows_bytes_ok : forall ws, windows_ok ws -> bytes_ok (encode_windows ws).
Proof.
  intros ws [HF _]. induction HF as [|[w bm] ws (Hw & Hl & Hb & _) HF IH]; [constructor|].
  rewrite encode_windows_cons. cbn [fst snd] in *. constructor; [exact Hw|]. constructor; [unfold byte_ok, blen; lia|].
  apply bytes_ok_app. split; assumption.
Qed.

(** Exactness away from the byte that follows a bitmap. *)
Lemma union_check_exact : forall m t, union_valid m -> t < 65536 ->
  (forall ws bm, windows_ok ws -> m = encode_windows ws -> In (t / 256, bm) ws -> t mod 256 / 8 <> blen bm) ->
  exists b, rrtype_union_check t m = Ok b /\ (b = true <-> union_mem m t).
Proof.
  intros m t H Ht Hne. inversion H; subst.
  - exists (t =? b). split; [reflexivity|]. cbn. apply N.eqb_eq.
  - exists (t =? le16 lo hi). split; [reflexivity|]. unfold union_mem. apply N.eqb_eq.
  - pose proof (windows_ok_lenient _ H1) as HL.
    destruct (encode_windows_shape ws H0 HL) as (a & b & c & r & E).
    destruct (union_check_blocks_spec ws t (S (length (encode_windows ws)))) as (b' & Hb & HB); try assumption.
    + apply encode_windows_bytes_ok; assumption.
    + lia.
    + intros bm Hin. apply (Hne ws bm H1 eq_refl Hin).
    + exists b'. split.
      * unfold rrtype_union_check. rewrite E. rewrite <- E. exact Hb.
      * rewrite HB, union_mem_windows by assumption. reflexivity.
Qed.

(** At the byte that follows the bitmap, the answer is the bit of whatever byte
    comes next in memory: undefined when the map ends there. *)
Lemma union_check_boundary : forall ws1 w bm ws2 t fuel, windows_lenient (ws1 ++ (w, bm) :: ws2) ->
  (length (encode_windows (ws1 ++ (w, bm) :: ws2)) < fuel)%nat ->
  t / 256 = w -> t mod 256 / 8 = blen bm ->
  union_check_blocks fuel (t / 256) (t mod 256 / 8) (t mod 256 mod 8) (encode_windows (ws1 ++ (w, bm) :: ws2)) =
  match ws2 with
  | [] => UB
  | (w', _) :: _ => Ok (N.testbit w' (7 - t mod 8))
  end.
Proof.
  induction ws1 as [|[w1 bm1] ws1 IH]; intros w bm ws2 t fuel [HF S] Hfuel Hw Hb.
  - cbn [app] in *. rewrite encode_windows_cons in *. destruct fuel as [|fuel]; [lia|]. cbn [union_check_blocks].
    destruct (N.ltb_spec (blen (bm ++ encode_windows ws2)) (blen bm)) as [Hc|_]; [rewrite blen_app in Hc; lia|].
    rewrite Hw, N.eqb_refl. cbn [negb]. rewrite Hb. rewrite N.ltb_irrefl.
    unfold rd. rewrite nth_error_app2 by (unfold blen; lia).
    replace (N.to_nat (blen bm) - length bm)%nat with 0%nat by (unfold blen; lia).
    destruct ws2 as [|[w' bm'] ws2]; [reflexivity|]. rewrite encode_windows_cons. cbn [nth_error bind].
    rewrite shiftr_128 by lia. rewrite <- N.shiftl_1_l, land_pow2_testbit, negb_involutive.
    replace (t mod 256 mod 8) with (t mod 8) by lia. reflexivity.
  - cbn [app] in *. rewrite encode_windows_cons in *. destruct fuel as [|fuel]; [lia|]. cbn [union_check_blocks].
    match goal with |- context [?a <? blen bm1] => destruct (N.ltb_spec a (blen bm1)) as [Hc|_]; [rewrite blen_app in Hc; lia|] end.
    cbn [map fst] in S. apply StronglySorted_inv in S. destruct S as [S G].
    assert (Hlt : w1 < w).
    { rewrite Forall_forall in G. apply G. rewrite map_app. apply in_app_iff. right. left. reflexivity. }
    destruct (N.eqb_spec w1 (t / 256)) as [E|E]; [lia|]. cbn [negb]. rewrite skipn_blen_app.
    apply IH; try assumption.
    + inversion HF; subst. split; assumption.
    + cbn [length] in Hfuel. rewrite app_length in Hfuel. lia.
Qed.

(** ** rrtype_union_unpack on arbitrary input *)

(** What the decoder accepts: increasing windows, each with a non-empty bitmap
    (of up to 255 octets, not 32). *)
Definition window_loose (wb : window) : Prop := (1 <= length (snd wb))%nat.

Lemma unpack_blocks_inv : forall fuel prev m l, unpack_blocks fuel prev m = Ok (Some l) ->
  exists ws, m = encode_windows ws /\ Forall window_loose ws /\ ssorted (map fst ws) /\
    (forall p, prev = Some p -> Forall (N.lt p) (map fst ws)) /\ l = types_of ws.
Proof.
  induction fuel as [|fuel IH]; intros prev m l H; [discriminate|]. cbn [unpack_blocks] in H.
  destruct m as [|w [|bl rest]].
  - inversion H; subst. exists []. repeat split; constructor.
  - discriminate.
  - destruct (match prev with Some p => w <=? p | None => false end) eqn:Ep; [discriminate|].
    destruct ((bl <? 1) || (blen rest <? bl)) eqn:Eb; [discriminate|].
    destruct (unpack_blocks fuel (Some w) (skipn (N.to_nat bl) rest)) as [r| | | |] eqn:Er; try discriminate.
    cbn [bind] in H. destruct r as [l'|]; [|discriminate]. inversion H; subst.
    apply IH in Er. destruct Er as (ws & Em & HF & S & HP & ->).
    apply orb_false_iff in Eb. destruct Eb as [E1 E2]. apply N.ltb_ge in E1. apply N.ltb_ge in E2.
    assert (HL : length (firstn (N.to_nat bl) rest) = N.to_nat bl).
    { rewrite firstn_length. unfold blen in E2. lia. }
    exists ((w, firstn (N.to_nat bl) rest) :: ws). split; [|split; [|split; [|split]]].
    + rewrite encode_windows_cons, <- Em, firstn_skipn. f_equal. f_equal. unfold blen. lia.
    + constructor; [|exact HF]. unfold window_loose. cbn [snd]. lia.
    + cbn [map fst]. constructor; [exact S|]. apply HP. reflexivity.
    + intros p ->. cbn [map fst]. constructor; [lia|]. specialize (HP w eq_refl).
      eapply Forall_impl; [|exact HP]. cbn. intros; lia.
    + reflexivity.
Qed.
