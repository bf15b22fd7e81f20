(** What the filter functions answer on the keys and values of records. *)
From Verif Require Import Base BaseFacts ModelVarint VarintProofs SpecMerge MergeProofs ModelWdns SpecName NameFacts.
From Verif Require Import ModelEntry SpecEntry EntryProofs PropsEntry ModelUnion ModelIter SpecIter IterProofs ModelQuery SpecQuery KeyProofs.

Definition yes_no (b : bool) : fres := if b then FMatch else FSkip.

Lemma rrset_key_type_pos : forall ow ty bw rs key, name_ok ow -> name_ok bw -> rrset_key ow ty bw rs key ->
  exists t rest, leb128 ty t /\ key = ENTRY_TYPE_RRSET :: rwire ow ++ t ++ rest /\ 
    rrtype_pos key = Ok (length (rwire ow)) /\ (1 <= length rest)%nat.
Proof.
  intros ow ty bw rs key Ho Hb (t & rd & Ht & Hr & ->). exists t, (rwire bw ++ rd).
  pose proof (leb128_nonempty _ _ Ht). pose proof (wire_nonempty bw).
  assert (L : (1 <= length (rwire bw ++ rd))%nat) by (rewrite app_length, length_rwire; lia).
  split; [exact Ht|]. split; [reflexivity|]. split; [|exact L].
  unfold rrtype_pos.
  change (Base.rd (ENTRY_TYPE_RRSET :: rwire ow ++ t ++ rwire bw ++ rd) 0) with (@Ok N ENTRY_TYPE_RRSET).
  cbn [bind]. change (ENTRY_TYPE_RRSET =? ENTRY_TYPE_RRSET) with true. cbn [skipn].
  unfold rwire at 1. rewrite len_uname_wire by (apply name_ok_rev; exact Ho). cbn [bind].
  change (wire (rev ow)) with (rwire ow).
  destruct (Nat.leb_spec (length (ENTRY_TYPE_RRSET :: rwire ow ++ t ++ rwire bw ++ rd)) (length (rwire ow) + 2)) as [C|_]; [|reflexivity].
  exfalso. cbn [length] in C. rewrite !app_length in C. rewrite app_length in L. lia.
Qed.

Lemma rdata_key_len : forall ow ty head tail key, name_ok ow -> blen tail <= 65535 ->
  rdata_key ow ty head tail key -> rdata_len key = Ok (length tail).
Proof.
  intros ow ty head tail key Ho Hl (t & Ht & ->).
  pose proof (leb128_nonempty _ _ Ht). pose proof (wire_nonempty ow).
  set (front := ENTRY_TYPE_RDATA :: tail ++ t ++ rwire ow ++ head).
  replace (ENTRY_TYPE_RDATA :: tail ++ t ++ rwire ow ++ head ++ enc_le16 (blen tail))
    with (front ++ enc_le16 (blen tail)) by (unfold front; cbn [app]; rewrite <- !app_assoc; reflexivity).
  unfold rdata_len. rewrite app_length. cbn [enc_le16 length].
  assert (LF : (length tail + 3 <= length front)%nat).
  { unfold front. cbn [length]. rewrite !app_length, length_rwire. lia. }
  destruct (Nat.ltb_spec (length front + 2) 2); [lia|].
  replace (length front + 2 - 2)%nat with (length front) by lia.
  replace (length front + 2 - 1)%nat with (S (length front)) by lia.
  rewrite rd_app2 by lia. rewrite Nat.sub_diag.
  change (rd (enc_le16 (blen tail)) 0) with (@Ok N (blen tail mod 256)). cbn [bind].
  rewrite rd_app2 by lia. replace (S (length front) - length front)%nat with 1%nat by lia.
  change (rd (enc_le16 (blen tail)) 1) with (@Ok N (blen tail / 256)). cbn [bind]. cbv zeta.
  replace (blen tail mod 256 + 256 * (blen tail / 256)) with (blen tail) by lia.
  destruct (N.leb_spec (N.of_nat (length front + 2)) (blen tail + 2)) as [C|_]; [unfold blen in C; lia|].
  f_equal. unfold blen. apply Nnat.Nat2N.id.
Qed.

Lemma skipn_len_app : forall (a b : bytes) n, n = length a -> skipn n (a ++ b) = b.
Proof. intros a b n ->. apply skipn_app_len. Qed.

Lemma rrtype_res_rrset : forall want ow ty bw rs key, name_ok ow -> name_ok bw -> ty < 65536 ->
  rrset_key ow ty bw rs key -> rrtype_res want key = yes_no (ty =? want).
Proof.
  intros want ow ty bw rs key Ho Hb Ht HK.
  destruct (rrset_key_type_pos _ _ _ _ _ Ho Hb HK) as (t & rest & Hl & E & EP & _).
  unfold rrtype_res. rewrite EP. cbn [bind]. rewrite E.
  replace (length (rwire ow) + 1)%nat with (S (length (rwire ow))) by lia. cbn [skipn].
  rewrite skipn_app_len. rewrite (leb128_decode32 ty t) by (try assumption; unfold u32; lia). cbn [bind fst snd].
  pose proof (leb128_nonempty _ _ Hl). destruct (Nat.eqb_spec (length t) 0); [lia|].
  unfold yes_no. destruct (ty =? want); reflexivity.
Qed.

Lemma rrtype_res_rdata : forall want ow ty head tail key, name_ok ow -> ty < 65536 -> blen tail <= 65535 ->
  rdata_key ow ty head tail key -> rrtype_res want key = yes_no (ty =? want).
Proof.
  intros want ow ty head tail key Ho Ht Hl HK. pose proof (rdata_key_len _ _ _ _ _ Ho Hl HK) as EL.
  destruct HK as (t & Hlb & ->). unfold rrtype_res, rrtype_pos.
  change (Base.rd (ENTRY_TYPE_RDATA :: tail ++ t ++ rwire ow ++ head ++ enc_le16 (blen tail)) 0) with (@Ok N ENTRY_TYPE_RDATA).
  cbn [bind]. change (ENTRY_TYPE_RDATA =? ENTRY_TYPE_RRSET) with false.
  change (ENTRY_TYPE_RDATA =? ENTRY_TYPE_RDATA) with true. cbv iota. rewrite EL. cbn [bind].
  replace (length tail + 1)%nat with (S (length tail)) by lia. cbn [skipn].
  rewrite skipn_app_len. rewrite (leb128_decode32 ty t) by (try assumption; unfold u32; lia). cbn [bind fst snd].
  pose proof (leb128_nonempty _ _ Hlb). destruct (Nat.eqb_spec (length t) 0); [lia|].
  unfold yes_no. destruct (ty =? want); reflexivity.
Qed.

Lemma rdata_name_res_rdata : forall ow ty head tail key, name_ok ow -> ty < 65536 -> blen tail <= 65535 ->
  rdata_key ow ty head tail key -> rdata_name_res key = yes_no (name_type_all ty).
Proof.
  intros ow ty head tail key Ho Ht Hl HK. pose proof (rdata_key_len _ _ _ _ _ Ho Hl HK) as EL.
  destruct HK as (t & Hlb & ->). unfold rdata_name_res. rewrite EL. cbn [bind].
  replace (length tail + 1)%nat with (S (length tail)) by lia. cbn [skipn].
  rewrite skipn_app_len. rewrite (leb128_decode32 ty t) by (try assumption; unfold u32; lia). cbn [bind fst snd].
  unfold yes_no. destruct (name_type_all ty); reflexivity.
Qed.

Lemma bailiwick_res_rrset : forall bwq ow ty bw rs key, name_ok ow -> name_ok bw -> ty < 65536 ->
  rrset_key ow ty bw rs key -> bailiwick_res bwq key = yes_no (beq bwq (rwire bw)).
Proof.
  intros bwq ow ty bw rs key Ho Hb Ht (t & rd & Hl & Hr & ->). unfold bailiwick_res.
  pose proof (leb128_nonempty _ _ Hl). pose proof (wire_nonempty bw).
  cbn [skipn]. unfold rwire at 1. rewrite len_uname_wire by (apply name_ok_rev; exact Ho). cbn [bind].
  change (wire (rev ow)) with (rwire ow).
  set (key := ENTRY_TYPE_RRSET :: rwire ow ++ t ++ rwire bw ++ rd).
  assert (LK : length key = (1 + length (rwire ow) + length t + length (rwire bw) + length rd)%nat).
  { unfold key. cbn [length]. rewrite !app_length. lia. }
  pose proof (length_rwire bw) as LB.
  destruct (Nat.leb_spec (length key) (length (rwire ow) + 2)) as [C|_]; [lia|].
  replace (length (rwire ow) + 1)%nat with (S (length (rwire ow))) by lia. unfold key at 1. cbn [skipn].
  rewrite skipn_app_len, (leb128_decode32 ty t) by (try assumption; unfold u32; lia). cbn [bind fst].
  destruct (Nat.leb_spec (length key) (S (length (rwire ow)) + length t)) as [C|_]; [lia|].
  assert (ES : skipn (S (length (rwire ow)) + length t) key = rwire bw ++ rd).
  { unfold key. cbn [skipn Nat.add]. rewrite <- skipn_skipn_add, skipn_app_len, skipn_app_len. reflexivity. }
  rewrite ES. unfold rwire at 1. rewrite len_uname_wire by (apply name_ok_rev; exact Hb). cbn [bind].
  change (wire (rev bw)) with (rwire bw). rewrite firstn_app_len.
  destruct (Nat.eqb_spec (length (rwire bw)) (length bwq)) as [E|NE]; cbn [negb].
  - unfold yes_no. destruct (beq bwq (rwire bw)); reflexivity.
  - destruct (beq bwq (rwire bw)) eqn:EB; [|reflexivity]. apply beq_true in EB. subst bwq. congruence.
Qed.

Lemma triplet_unpack_obs : forall o v, obs_ok o -> obs_value o v -> triplet_unpack v = Ok (o_first o, o_last o, o_count o).
Proof.
  intros o v Ho Hv. apply (obs_value_pack o v Ho) in Hv. subst v. destruct Ho as (A & B & C).
  apply triplet_roundtrip; assumption.
Qed.

(** The decision of the time filters as a function. *)
Definition strict_fence (q : query) (o : obs) : bool :=
  negb (q_do_tfa q && (o_first o <? q_tfa q)) && negb (q_do_tlb q && (q_tlb q <? o_last o)).
Definition fence (q : query) (o : obs) : bool :=
  strict_fence q o && negb (q_do_tla q && (o_last o <? q_tla q)) && negb (q_do_tfb q && (q_tfb q <? o_first o)).
Definition prefence (q : query) (o : obs) : bool :=
  strict_fence q o && negb (q_do_tla q && (o_last o <? q_tla q)) &&
  (negb (q_do_tfb q && (q_tfb q <? o_first o)) || q_do_tla q).

Lemma fence_spec : forall q o, fence q o = true <-> in_fence q o.
Proof.
  intros q o. unfold fence, strict_fence, in_fence.
  destruct (q_do_tfa q), (q_do_tlb q), (q_do_tla q), (q_do_tfb q); cbn;
    rewrite ?andb_true_iff, ?andb_true_r; repeat rewrite negb_true_iff; repeat rewrite N.ltb_ge; split; intros; intuition (auto; try congruence).
Qed.

Lemma fence_prefence : forall q o, fence q o = true -> prefence q o = true.
Proof.
  intros q o. unfold fence, prefence. rewrite !andb_true_iff. intros [[A B] C]. rewrite A, B, C. auto.
Qed.

Lemma time_res_obs : forall q o v, obs_ok o -> obs_value o v ->
  time_res q false v = yes_no (fence q o) /\ time_res q true v = yes_no (prefence q o).
Proof.
  intros q o v Ho Hv. unfold time_res. rewrite (triplet_unpack_obs o v Ho Hv). cbn [bind].
  unfold fence, prefence, strict_fence.
  destruct (q_do_tfa q && (o_first o <? q_tfa q)); [split; reflexivity|].
  destruct (q_do_tlb q && (q_tlb q <? o_last o)); [split; reflexivity|].
  destruct (q_do_tla q); cbn [andb].
  - destruct (o_last o <? q_tla q); [split; reflexivity|].
    destruct (q_do_tfb q && (q_tfb q <? o_first o)); split; reflexivity.
  - destruct (q_do_tfb q && (q_tfb q <? o_first o)); split; reflexivity.
Qed.

(** ** Filters that only match or skip *)

Definition answers (r : fres) (b : bool) : Prop := r = yes_no b.

Lemma plain_good : forall (f : filter_fn) (g : kv -> fres) (p : kv -> bool) t,
  (forall w k v, f w k v = (g (k, v), w)) ->
  (forall e, In e t -> g e = yes_no (p e)) -> good_filter f p t.
Proof.
  intros f g p t Hf Hp w k v Hin. rewrite Hf. cbn [fst snd]. split; [reflexivity|].
  rewrite (Hp _ Hin). unfold yes_no. destruct (p (k, v)); reflexivity.
Qed.

(** ** Label sequences and their encodings *)

Lemma enc_labels_cons : forall l ls, enc_labels (l :: ls) = blen l :: l ++ enc_labels ls.
Proof. reflexivity. Qed.

(** A label sequence is a byte prefix of a name exactly when it is a label prefix. *)
Lemma enc_prefix : forall x n rest, Forall label_ok x -> Forall label_ok n ->
  is_prefix (enc_labels x) (wire n ++ rest) = true <-> exists more, n = x ++ more.
Proof.
  induction x as [|l x IH]; intros n rest Hx Hn.
  - split; [intros _; exists n; reflexivity|reflexivity].
  - inversion Hx as [|? ? Hl Hx']; subst. destruct n as [|m n].
    + split; [|intros (more & E); discriminate]. rewrite enc_labels_cons. cbn. intro H.
      apply andb_prop in H. destruct H as [H _]. apply N.eqb_eq in H. destruct Hl as [Hl _]. unfold blen in H. lia.
    + inversion Hn as [|? ? Hm Hn']; subst. rewrite enc_labels_cons, wire_cons. cbn [app is_prefix].
      rewrite <- app_assoc. split.
      * intro H. apply andb_prop in H. destruct H as [E H]. apply N.eqb_eq in E.
        apply prefix_split in H. destruct H as (r & H). rewrite <- app_assoc in H.
        apply app_inj_len in H; [|unfold blen in E; lia]. destruct H as [-> H].
        destruct (proj1 (IH n rest Hx' Hn')) as (more & ->).
        { rewrite H. apply is_prefix_app. }
        exists more. reflexivity.
      * intros (more & E). inversion E; subst. rewrite N.eqb_refl. cbn [andb].
        rewrite prefix_app_head. apply IH; auto. eauto.
Qed.

Lemma wire_prefix : forall x n rest, Forall label_ok x -> Forall label_ok n ->
  is_prefix (wire x) (wire n ++ rest) = true <-> n = x.
Proof.
  intros x n rest Hx Hn. split.
  - intro H. apply prefix_split in H. destruct H as (r & H). apply wire_prefix_inj in H; auto. tauto.
  - intros ->. apply is_prefix_app.
Qed.

(** Numbers are self-delimiting too. *)
Lemma leb128_prefix_inj : forall a x, leb128 a x -> forall b y r s, leb128 b y -> x ++ r = y ++ s -> a = b /\ x = y /\ r = s.
Proof.
  induction 1 as [v Hv|v l Hv H IH]; intros b y r s Hy E; inversion Hy as [w Hw|w m Hw Hm]; subst; cbn [app] in E; inversion E; subst.
  - auto.
  - exfalso. lia.
  - exfalso. lia.
  - destruct (IH _ _ _ _ Hm H2) as (E1 & E2 & E3). subst. split; [lia|]. split; [congruence|reflexivity].
Qed.

Lemma encode32_leb128 : forall v, v < u32 -> leb128 v (varint_encode32 v).
Proof. intros v Hv. rewrite encode32_eq_64 by exact Hv. apply leb128_encode64; unfold u32, u64 in *; lia. Qed.

(** filter_single_label on a key holding a whole name. *)
Lemma single_label_name : forall T x n rest, Forall label_ok x -> Forall label_ok n ->
  matched (single_label_res (length (T :: enc_labels x)) (T :: wire (x ++ n) ++ rest)) = (length n =? 1)%nat.
Proof.
  intros T x n rest Hx Hn.
  set (K := T :: enc_labels x).
  assert (EK : T :: wire (x ++ n) ++ rest = K ++ wire n ++ rest).
  { unfold K, wire. rewrite enc_labels_app. cbn [app]. rewrite <- !app_assoc. reflexivity. }
  rewrite EK. unfold single_label_res.
  destruct (Nat.leb_spec (length (K ++ wire n ++ rest)) (length K)) as [C|_].
  { rewrite !app_length in C. pose proof (wire_nonempty n). lia. }
  rewrite rd_app2 by lia. rewrite Nat.sub_diag. destruct n as [|l n].
  - cbn [wire enc_labels flat_map app]. change (rd (0 :: rest) 0) with (@Ok N 0). cbv iota beta.
    change (0 =? 0) with true. cbv iota. unfold seek_past. destruct (increment_key _ _) as [[? ?]| | | |]; reflexivity.
  - inversion Hn as [|? ? Hl Hn']; subst. rewrite wire_cons. cbn [app].
    change (rd (blen l :: (l ++ wire n) ++ rest) 0) with (@Ok N (blen l)). cbv iota beta.
    destruct (N.eqb_spec (blen l) 0) as [E|_]; [destruct Hl as [Hl _]; unfold blen in E; lia|].
    replace (N.to_nat (blen l)) with (length l) by (unfold blen; lia).
    assert (Er : K ++ blen l :: (l ++ wire n) ++ rest = (K ++ blen l :: l) ++ wire n ++ rest).
    { rewrite <- !app_assoc. reflexivity. }
    rewrite Er. destruct (Nat.leb_spec (length ((K ++ blen l :: l) ++ wire n ++ rest)) (length K + length l + 1)) as [C|_].
    { rewrite !app_length in C. cbn [length] in C. pose proof (wire_nonempty n). lia. }
    rewrite rd_app2 by (rewrite app_length; cbn [length]; lia).
    replace (length K + length l + 1 - length (K ++ blen l :: l))%nat with 0%nat by (rewrite app_length; cbn [length]; lia).
    destruct n as [|m n].
    + change (rd (wire [] ++ rest) 0) with (@Ok N 0). reflexivity.
    + inversion Hn' as [|? ? Hm Hn'']; subst. rewrite wire_cons.
      change (rd ((blen m :: m ++ wire n) ++ rest) 0) with (@Ok N (blen m)). cbv iota beta.
      destruct (N.eqb_spec (blen m) 0) as [E|_]; [destruct Hm as [Hm _]; unfold blen in E; lia|].
      unfold seek_past. destruct (increment_key _ _) as [[? ?]| | | |]; reflexivity.
Qed.
