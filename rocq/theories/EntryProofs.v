(** Proofs about entry decoding. *)
From Verif Require Import Base BaseFacts ModelVarint VarintProofs SpecMerge MergeProofs.
From Verif Require Import ModelWdns SpecName NameFacts ModelEntry SpecEntry.

Lemma leb128_decode32 : forall v a rest, v < u32 -> leb128 v a ->
  varint_decode32 (a ++ rest) = Ok (length a, v).
Proof.
  intros v a rest Hv Ha. apply leb128_is_encode64 in Ha; [|unfold u32, u64 in *; lia]. subst a.
  rewrite <- encode32_eq_64 by exact Hv. apply varint32_roundtrip. exact Hv.
Qed.

Lemma leb128_nonempty : forall v a, leb128 v a -> (1 <= length a)%nat.
Proof. intros v a H. destruct H; cbn; lia. Qed.

Lemma rev_name_ok : forall ls rest avail, name_ok ls -> (length (wire ls) <= avail)%nat ->
  decode_rev_name (rwire ls ++ rest) avail = Ok (length (wire ls), wire ls).
Proof.
  intros ls rest avail H Ha. unfold decode_rev_name.
  rewrite firstn_app. rewrite length_rwire.
  rewrite firstn_all2 by (rewrite length_rwire; exact Ha).
  unfold rwire at 1. rewrite len_uname_wire by (apply name_ok_rev; exact H). cbn [bind].
  change (wire (rev ls)) with (rwire ls). rewrite length_rwire.
  rewrite reverse_rwire by apply H. reflexivity.
Qed.

Lemma rdata_array_length : forall rs l, rdata_array rs l -> (length rs <= length l)%nat.
Proof.
  induction 1 as [|r rs len l Hr Hl H IH]; [cbn; lia|]. apply leb128_nonempty in Hl.
  cbn [length]. rewrite !app_length. lia.
Qed.

Lemma decode_rdatas_ok : forall rs l fuel, rdata_array rs l -> (length rs < fuel)%nat ->
  decode_rdatas fuel l = Ok rs.
Proof.
  intros rs l fuel H. revert fuel. induction H as [|r rs len l Hr Hl H IH]; intros fuel Hf.
  - destruct fuel; [lia|reflexivity].
  - destruct fuel as [|fuel]; [lia|]. cbn [decode_rdatas].
    assert (Hne : exists x y, len ++ r ++ l = x :: y).
    { apply leb128_nonempty in Hl. destruct len as [|x y]; [cbn in Hl; lia|]. eexists; eexists; reflexivity. }
    destruct Hne as (x & y & E). rewrite E. rewrite <- E.
    rewrite (leb128_decode32 (blen r)) by (try exact Hl; unfold u32; lia). cbn [bind fst snd].
    rewrite skipn_app_len.
    destruct (N.ltb_spec 65535 (blen r)); [unfold blen in *; lia|].
    destruct (N.ltb_spec (blen (r ++ l)) (blen r)) as [Hc|_]; [unfold blen in Hc; rewrite app_length in Hc; lia|].
    rewrite skipn_blen, firstn_blen. rewrite IH by (cbn [length] in Hf; lia). reflexivity.
Qed.

Lemma decode_rrset_ok : forall owner ty bw rs t rd, name_ok owner -> name_ok bw -> ty < u32 ->
  leb128 ty t -> rdata_array rs rd ->
  decode_rrset (rwire owner ++ t ++ rwire bw ++ rd) = Ok (wire owner, ty, wire bw, rs).
Proof.
  intros owner ty bw rs t rd Ho Hb Ht Hl Hr. unfold decode_rrset, decode_rrset_fuel.
  rewrite rev_name_ok; [|exact Ho|rewrite app_length, length_rwire; lia]. cbn [bind fst snd].
  rewrite <- (length_rwire owner) at 1. rewrite <- (length_rwire owner). rewrite !skipn_app_len.
  rewrite (leb128_decode32 ty) by assumption. cbn [bind fst snd]. rewrite !skipn_app_len.
  rewrite rev_name_ok; [|exact Hb|rewrite app_length, length_rwire; lia]. cbn [bind fst snd].
  rewrite <- (length_rwire bw) at 1. rewrite skipn_app_len.
  rewrite (decode_rdatas_ok rs); [reflexivity|exact Hr|].
  apply rdata_array_length in Hr. rewrite !app_length. lia.
Qed.

Lemma rd_app_at : forall a x y, rd (a ++ x :: y) (length a) = Ok x.
Proof. intros. unfold rd. rewrite nth_error_app2 by lia. rewrite Nat.sub_diag. reflexivity. Qed.

Lemma decode_rdata_gen : forall owner ty head tail t, name_ok owner -> ty < u32 -> leb128 ty t ->
  blen tail <= 65535 ->
  decode_rdata (tail ++ t ++ rwire owner ++ head ++ enc_le16 (blen tail)) = 
  Ok (wire owner, ty, firstn (N.to_nat (blen (head ++ tail) mod 65536)) (head ++ tail)).
Proof.
  intros owner ty head tail t Ho Ht Hl HL. unfold decode_rdata.
  set (buf := tail ++ t ++ rwire owner ++ head ++ enc_le16 (blen tail)).
  assert (Ebuf : buf = (tail ++ t ++ rwire owner ++ head) ++ enc_le16 (blen tail)).
  { unfold buf. rewrite <- !app_assoc. reflexivity. }
  assert (Lbuf : length buf = (length tail + length t + length (wire owner) + length head + 2)%nat).
  { rewrite Ebuf, !app_length, length_rwire. cbn [length enc_le16]. lia. }
  destruct (N.ltb_spec (blen buf) 2) as [Hc|_]; [unfold blen in Hc; lia|].
  assert (Lbody : (length buf - 2 = length (tail ++ t ++ rwire owner ++ head))%nat).
  { rewrite Lbuf, !app_length, length_rwire. lia. }
  set (body := (length buf - 2)%nat) in *.
  assert (R1 : rd buf body = Ok (blen tail mod 256)).
  { rewrite Lbody, Ebuf. unfold enc_le16. apply rd_app_at. }
  assert (R2 : rd buf (S body) = Ok (blen tail / 256)).
  { rewrite Ebuf. unfold enc_le16.
    change ((tail ++ t ++ rwire owner ++ head) ++ [blen tail mod 256; blen tail / 256])
      with ((tail ++ t ++ rwire owner ++ head) ++ [blen tail mod 256] ++ [blen tail / 256]).
    rewrite app_assoc. 
    replace (S body) with (length ((tail ++ t ++ rwire owner ++ head) ++ [blen tail mod 256])).
    - apply rd_app_at.
    - rewrite app_length, Lbody. cbn [length]. lia. }
  rewrite R1, R2. cbn [bind].
  replace (blen tail mod 256 + 256 * (blen tail / 256)) with (blen tail) by lia.
  assert (Lb : (body = length tail + length t + length (wire owner) + length head)%nat) by (unfold body; lia).
  destruct (N.ltb_spec (N.of_nat body) (blen tail)) as [Hc|_]; [unfold blen in Hc; lia|].
  assert (S1 : skipn (N.to_nat (blen tail)) buf = t ++ rwire owner ++ head ++ enc_le16 (blen tail)) by apply skipn_blen.
  rewrite S1. rewrite (leb128_decode32 ty) by assumption. cbn [bind fst snd].
  assert (Eoff : (N.to_nat (blen tail) + length t)%nat = length (tail ++ t)).
  { rewrite app_length. unfold blen. lia. }
  rewrite Eoff.
  assert (S2 : skipn (length (tail ++ t)) buf = rwire owner ++ head ++ enc_le16 (blen tail)).
  { unfold buf. rewrite app_assoc. apply skipn_app_len. }
  destruct (Nat.ltb_spec body (length (tail ++ t))) as [Hc|_]; [rewrite app_length in Hc; lia|].
  rewrite S2. rewrite rev_name_ok; [|exact Ho|rewrite app_length; lia]. cbn [bind fst snd].
  assert (S3 : skipn (length (tail ++ t) + length (wire owner)) buf = head ++ enc_le16 (blen tail)).
  { unfold buf. replace (length (tail ++ t) + length (wire owner))%nat with (length ((tail ++ t) ++ rwire owner)).
    - rewrite app_assoc, (app_assoc (tail ++ t)). apply skipn_app_len.
    - rewrite app_length, length_rwire. reflexivity. }
  rewrite S3.
  replace (body - (length (tail ++ t) + length (wire owner)))%nat with (length head) by (rewrite app_length; lia).
  rewrite firstn_app_len. 
  assert (F1 : firstn (N.to_nat (blen tail)) buf = tail) by apply firstn_blen. rewrite F1.
  reflexivity.
Qed.

Lemma decode_rdata_ok : forall owner ty head tail t, name_ok owner -> ty < u32 -> leb128 ty t ->
  blen head + blen tail <= 65535 ->
  decode_rdata (tail ++ t ++ rwire owner ++ head ++ enc_le16 (blen tail)) = Ok (wire owner, ty, head ++ tail).
Proof.
  intros owner ty head tail t Ho Ht Hl HL. rewrite decode_rdata_gen with (ty := ty) by (assumption || lia).
  rewrite N.mod_small by (unfold blen in *; rewrite app_length; lia).
  rewrite firstn_all2; [reflexivity|]. unfold blen. lia.
Qed.

Lemma decode_val_triplet_ok : forall o v, obs_ok o -> obs_value o v ->
  decode_val_triplet v = Ok (o_first o, (if o_last o =? 0 then o_first o else o_last o),
                             (if o_count o =? 0 then 1 else o_count o)).
Proof.
  intros o v Ho Hv. apply (obs_value_pack o v Ho) in Hv. subst v. destruct Ho as (A & B & C).
  unfold decode_val_triplet. rewrite triplet_roundtrip by assumption. reflexivity.
Qed.

(** ** Arbitrary input *)

(** [seven l]: some byte of [l] ends a varint. *)
Definition has_term (l : bytes) : Prop := exists b, In b l /\ N.land b 128 = 0.

Lemma length_packed_from_ok_term : forall n i l, has_term l ->
  exists k, varint_length_packed_from n i l = Ok k /\ (k = 0%nat \/ (i < k <= i + length l)%nat) /\
            (k <= i + n)%nat.
Proof.
  induction n as [|n IH]; intros i l H; cbn [varint_length_packed_from].
  - exists 0%nat. split; [reflexivity|]. split; [left; reflexivity|lia].
  - destruct l as [|b l]; [destruct H as (? & [] & _)|]. destruct (N.eqb_spec (N.land b 128) 0) as [E|E].
    + exists (S i). split; [reflexivity|]. cbn [length]. split; [right; lia|lia].
    + destruct (IH (S i) l) as (k & Hk & Hr & Hn).
      { destruct H as (b' & [<-|Hin] & Hb); [congruence|]. exists b'. split; assumption. }
      exists k. split; [exact Hk|]. cbn [length]. split; [destruct Hr; [left; assumption|right; lia]|lia].
Qed.

Lemma rd_lt : forall l i, (i < length l)%nat -> exists b, rd l i = Ok b.
Proof.
  intros l i H. unfold rd. destruct (nth_error l i) eqn:E; [eauto|]. apply nth_error_None in E. lia.
Qed.

Lemma has_term_nonempty : forall l, has_term l -> (0 < length l)%nat.
Proof. intros [|b l] H; [destruct H as (? & [] & _)|cbn; lia]. Qed.

Lemma decode32_term : forall l, has_term l -> exists k v, varint_decode32 l = Ok (k, v) /\ (k <= length l)%nat.
Proof.
  intros l H. unfold varint_decode32, varint_length_packed.
  destruct (length_packed_from_ok_term 5 0 l H) as (k & -> & Hk & H5). cbn [bind].
  pose proof (has_term_nonempty l H) as Hpos.
  assert (Hkl : (k <= length l)%nat) by lia.
  destruct (rd_lt l 0) as (b0 & ->); [lia|]. cbn [bind].
  destruct (Nat.ltb_spec 1 k) as [H1|H1]; [|eauto].
  destruct (rd_lt l 1) as (b1 & ->); [lia|]. cbn [bind].
  destruct (Nat.ltb_spec 2 k) as [H2|H2]; [|eauto].
  destruct (rd_lt l 2) as (b2 & ->); [lia|]. cbn [bind].
  destruct (Nat.ltb_spec 3 k) as [H3|H3]; [|eauto].
  destruct (rd_lt l 3) as (b3 & ->); [lia|]. cbn [bind].
  destruct (Nat.ltb_spec 4 k) as [H4|H4]; [|eauto].
  destruct (rd_lt l 4) as (b4 & ->); [lia|]. cbn [bind]. eauto.
Qed.

Lemma decode64_loop_term : forall k data s v, (k <= length data)%nat -> exists r, varint_decode64_loop k data s v = Ok r.
Proof.
  induction k as [|k IH]; intros data s v H; cbn [varint_decode64_loop]; [eauto|].
  destruct data as [|b data]; [cbn in H; lia|]. apply IH. cbn in H. lia.
Qed.

Lemma decode64_term : forall l, has_term l -> exists k v, varint_decode64 l = Ok (k, v) /\ (k <= length l)%nat.
Proof.
  intros l H. unfold varint_decode64, varint_length_packed.
  destruct (length_packed_from_ok_term 10 0 l H) as (k & -> & Hk & H10). cbn [bind].
  destruct (Nat.ltb_spec k 5) as [H5|H5]; [apply decode32_term; exact H|].
  assert (Hkl : (k <= length l)%nat) by lia.
  destruct (rd_lt l 0) as (b0 & ->); [lia|]. destruct (rd_lt l 1) as (b1 & ->); [lia|].
  destruct (rd_lt l 2) as (b2 & ->); [lia|]. destruct (rd_lt l 3) as (b3 & ->); [lia|]. cbn [bind].
  match goal with |- context [varint_decode64_loop ?a ?b ?c ?d] =>
    destruct (decode64_loop_term a b c d) as (r & ->); [rewrite skipn_length; lia|] end.
  cbn [bind]. eauto.
Qed.

(** How many terminating bytes a value has. *)
Definition terms (l : bytes) : nat := length (filter (fun b => N.land b 128 =? 0) l).

Lemma terms_has : forall l, (1 <= terms l)%nat -> has_term l.
Proof.
  intros l H. unfold terms in H. destruct (filter (fun b => N.land b 128 =? 0) l) as [|b r] eqn:E; [cbn in H; lia|].
  assert (Hin : In b (filter (fun b => N.land b 128 =? 0) l)) by (rewrite E; left; reflexivity).
  apply filter_In in Hin. destruct Hin as [Hin Hb]. exists b. split; [exact Hin|]. apply N.eqb_eq. exact Hb.
Qed.

Lemma length_packed_terms : forall n i l k, varint_length_packed_from n i l = Ok k -> (k <> 0)%nat ->
  (i < k)%nat /\ (terms (firstn (k - i) l) = 1)%nat.
Proof.
  induction n as [|n IH]; intros i l k H Hk; cbn [varint_length_packed_from] in H; [congruence|].
  destruct l as [|b l]; [discriminate|]. destruct (N.land b 128 =? 0) eqn:E.
  - inversion H; subst. split; [lia|]. replace (S i - i)%nat with 1%nat by lia. cbn [firstn].
    unfold terms. cbn [filter]. rewrite E. reflexivity.
  - apply IH in H; [|exact Hk]. destruct H as [H1 H2]. split; [lia|].
    replace (k - i)%nat with (S (k - S i)) by lia. cbn [firstn]. unfold terms in *. cbn [filter]. rewrite E. exact H2.
Qed.

Lemma terms_skipn : forall l k, terms l = (terms (firstn k l) + terms (skipn k l))%nat.
Proof.
  intros l k. unfold terms. rewrite <- app_length, <- filter_app, firstn_skipn. reflexivity.
Qed.

Lemma length_packed_from_mono : forall n m i l k, varint_length_packed_from n i l = Ok k -> (k <> 0)%nat ->
  (k <= i + m)%nat -> varint_length_packed_from m i l = Ok k.
Proof.
  induction n as [|n IH]; intros m i l k H Hk Hm; cbn [varint_length_packed_from] in H; [congruence|].
  destruct l as [|b l]; [discriminate|].
  pose proof (length_packed_terms (S n) i (b :: l) k) as HT. cbn [varint_length_packed_from] in HT.
  specialize (HT H Hk). destruct HT as [Hlt _].
  destruct m as [|m]; [lia|]. cbn [varint_length_packed_from].
  destruct (N.land b 128 =? 0) eqn:E; [exact H|]. apply IH; auto. lia.
Qed.

Lemma decode32_consumes : forall l k v, varint_decode32 l = Ok (k, v) -> k = 0%nat \/ terms (firstn k l) = 1%nat.
Proof.
  intros l k v H. unfold varint_decode32, varint_length_packed in H.
  destruct (varint_length_packed_from 5 0 l) as [n| | | |] eqn:E; try discriminate. cbn [bind] in H.
  assert (Hk : k = n).
  { destruct (rd l 0) as [b0| | | |]; try discriminate. cbn [bind] in H.
    destruct (Nat.ltb 1 n); [|congruence]. destruct (rd l 1) as [b1| | | |]; try discriminate. cbn [bind] in H.
    destruct (Nat.ltb 2 n); [|congruence]. destruct (rd l 2) as [b2| | | |]; try discriminate. cbn [bind] in H.
    destruct (Nat.ltb 3 n); [|congruence]. destruct (rd l 3) as [b3| | | |]; try discriminate. cbn [bind] in H.
    destruct (Nat.ltb 4 n); [|congruence]. destruct (rd l 4) as [b4| | | |]; try discriminate. cbn [bind] in H.
    congruence. }
  subst n. destruct (Nat.eq_dec k 0) as [|Hk]; [left; assumption|right].
  apply length_packed_terms in E; [|exact Hk]. rewrite Nat.sub_0_r in E. apply E.
Qed.

Lemma decode64_consumes : forall l k v, varint_decode64 l = Ok (k, v) -> k = 0%nat \/ terms (firstn k l) = 1%nat.
Proof.
  intros l k v H. unfold varint_decode64, varint_length_packed in H.
  destruct (varint_length_packed_from 10 0 l) as [n| | | |] eqn:E; try discriminate. cbn [bind] in H.
  destruct (Nat.ltb_spec n 5) as [H5|H5]; [apply decode32_consumes in H; exact H|].
  assert (Hk : k = n).
  { destruct (rd l 0) as [b0| | | |]; try discriminate. destruct (rd l 1) as [b1| | | |]; try discriminate.
    destruct (rd l 2) as [b2| | | |]; try discriminate. destruct (rd l 3) as [b3| | | |]; try discriminate. cbn [bind] in H.
    match type of H with context [varint_decode64_loop ?a ?b ?c ?d] => destruct (varint_decode64_loop a b c d) end; try discriminate.
    cbn [bind] in H. congruence. }
  subst n. right. apply length_packed_terms in E; [|lia]. rewrite Nat.sub_0_r in E. apply E.
Qed.

Lemma terms_after : forall l k v n, varint_decode64 l = Ok (k, v) -> (S n <= terms l)%nat -> (n <= terms (skipn k l))%nat.
Proof.
  intros l k v n H Hn. rewrite (terms_skipn l k) in Hn. destruct (decode64_consumes _ _ _ H) as [->|E]; [cbn in *; lia|lia].
Qed.

Lemma skipn_skipn_add : forall (l : bytes) a b, skipn b (skipn a l) = skipn (a + b) l.
Proof.
  intros l a b. revert l. induction a as [|a IH]; intros [|x l]; cbn [skipn Nat.add]; try reflexivity.
  - destruct b; reflexivity.
  - apply IH.
Qed.

Lemma triplet_unpack_in_bounds : forall v, (3 <= terms v)%nat ->
  triplet_unpack v = Fail \/ exists o, triplet_unpack v = Ok o.
Proof.
  intros v H. unfold triplet_unpack.
  destruct (decode64_term v) as (k1 & v1 & E1 & _); [apply terms_has; lia|]. rewrite E1. cbn [bind fst snd].
  pose proof (terms_after _ _ _ 2 E1 H) as H2.
  destruct (decode64_term (skipn k1 v)) as (k2 & v2 & E2 & _); [apply terms_has; lia|]. rewrite E2. cbn [bind fst snd].
  pose proof (terms_after _ _ _ 1 E2 H2) as H3. rewrite skipn_skipn_add in H3.
  destruct (decode64_term (skipn (k1 + k2) v)) as (k3 & v3 & E3 & _); [apply terms_has; lia|]. rewrite E3. cbn [bind fst snd].
  destruct (Nat.eqb _ _); [right; eauto|left; reflexivity].
Qed.

Lemma pair_unpack_in_bounds : forall v, (2 <= terms v)%nat ->
  pair_unpack v = Fail \/ exists o, pair_unpack v = Ok o.
Proof.
  intros v H. unfold pair_unpack.
  destruct (decode64_term v) as (k1 & v1 & E1 & _); [apply terms_has; lia|]. rewrite E1. cbn [bind fst snd].
  pose proof (terms_after _ _ _ 1 E1 H) as H2.
  destruct (decode64_term (skipn k1 v)) as (k2 & v2 & E2 & _); [apply terms_has; lia|]. rewrite E2. cbn [bind fst snd].
  destruct (Nat.eqb _ _); [right; eauto|left; reflexivity].
Qed.

(** Strings whose last byte ends a varint. *)
Definition ends_term (l : bytes) : Prop := exists a b, l = a ++ [b] /\ N.land b 128 = 0.

Lemma ends_has_term : forall l, ends_term l -> has_term l.
Proof. intros l (a & b & -> & Hb). exists b. split; [apply in_or_app; right; left; reflexivity|exact Hb]. Qed.

Lemma ends_term_skipn : forall l k, ends_term l -> skipn k l = [] \/ ends_term (skipn k l).
Proof.
  intros l k (a & b & -> & Hb). destruct (Nat.le_gt_cases k (length a)) as [Hk|Hk].
  - right. exists (skipn k a), b. rewrite skipn_app. replace (k - length a)%nat with 0%nat by lia. split; [reflexivity|exact Hb].
  - left. apply skipn_all2. rewrite app_length. cbn. lia.
Qed.

(** The rdata loop: in bounds when the key's last byte ends a varint. *)
Lemma decode_rdatas_in_bounds : forall fuel l, l = [] \/ ends_term l ->
  decode_rdatas fuel l <> UB /\ decode_rdatas fuel l <> Abort.
Proof.
  induction fuel as [|fuel IH]; intros l H; [split; discriminate|]. cbn [decode_rdatas].
  destruct l as [|x l']; [split; discriminate|]. set (l := x :: l') in *.
  destruct H as [H|H]; [discriminate H|].
  destruct (decode32_term l (ends_has_term l H)) as (k & v & -> & Hk). cbn [bind fst snd].
  destruct (65535 <? v); [split; discriminate|].
  destruct (N.ltb_spec (blen (skipn k l)) v) as [|Hv]; [split; discriminate|].
  rewrite skipn_skipn_add.
  destruct (IH (skipn (k + N.to_nat v) l) (ends_term_skipn l _ H)) as [A B].
  destruct (decode_rdatas fuel (skipn (k + N.to_nat v) l)); cbn [bind]; split; congruence.
Qed.

Lemma decode_rev_name_total : forall mem avail, decode_rev_name mem avail = Fail \/
  exists ls rest, firstn avail mem = wire ls ++ rest /\ decode_rev_name mem avail = Ok (length (wire ls), wire (rev ls)).
Proof.
  intros mem avail. unfold decode_rev_name.
  destruct (wdns_len_uname (firstn avail mem)) as [n| | | |] eqn:E;
    try (destruct (len_uname_total (firstn avail mem)) as [F|(m & F)]; rewrite E in F; try discriminate F; left; reflexivity).
  cbn [bind]. apply len_uname_inv in E. destruct E as (ls & rest & Em & -> & HF & _). right.
  exists ls, rest. split; [exact Em|].
  assert (Emem : mem = wire ls ++ (rest ++ skipn avail mem)).
  { rewrite app_assoc, <- Em, firstn_skipn. reflexivity. }
  rewrite Emem at 1. rewrite reverse_wire_gen; [reflexivity|].
  eapply Forall_impl; [|exact HF]. cbn. intros; lia.
Qed.

(** Fuel beyond the length of the input does not matter. *)
Lemma decode_rdatas_stuck : forall fuel l, (length l < fuel)%nat -> decode_rdatas fuel l = Hang ->
  forall fuel', decode_rdatas fuel' l = Hang.
Proof.
  induction fuel as [|fuel IH]; intros l Hf H; [lia|]. cbn [decode_rdatas] in H.
  destruct l as [|x l']; [discriminate|]. set (l := x :: l') in *.
  destruct (varint_decode32 l) as [[k v]| | | |] eqn:E; try discriminate; cbn [bind fst snd] in H.
  2:{ exfalso. clear - E. unfold varint_decode32, varint_length_packed in E.
      assert (G : forall n i d, varint_length_packed_from n i d <> Hang).
      { induction n as [|n IHn]; intros i [|b d]; cbn; try discriminate. destruct (N.land b 128 =? 0); [discriminate|apply IHn]. }
      assert (R : forall d i, rd d i <> Hang) by (intros d i; unfold rd; destruct (nth_error d i); discriminate).
      destruct (varint_length_packed_from 5 0 l) as [n| | | |] eqn:E1; try discriminate; [|apply (G 5%nat 0%nat l); exact E1].
      cbn [bind] in E.
      pose proof (R l 0%nat). pose proof (R l 1%nat). pose proof (R l 2%nat). pose proof (R l 3%nat). pose proof (R l 4%nat).
      destruct (rd l 0); cbn [bind] in E; try congruence. destruct (Nat.ltb 1 n); [|congruence].
      destruct (rd l 1); cbn [bind] in E; try congruence. destruct (Nat.ltb 2 n); [|congruence].
      destruct (rd l 2); cbn [bind] in E; try congruence. destruct (Nat.ltb 3 n); [|congruence].
      destruct (rd l 3); cbn [bind] in E; try congruence. destruct (Nat.ltb 4 n); [|congruence].
      destruct (rd l 4); cbn [bind] in E; congruence. }
  destruct (65535 <? v) eqn:E1; [discriminate|].
  destruct (blen (skipn k l) <? v) eqn:E2; [discriminate|].
  destruct (decode_rdatas fuel (skipn (N.to_nat v) (skipn k l))) eqn:E3; try discriminate. clear H.
  destruct (Nat.eq_dec (k + N.to_nat v) 0) as [Ez|Ez].
  - assert (k = 0%nat) by lia. assert (v = 0) by lia. subst k v.
    intro fuel'. induction fuel' as [|fuel' IH']; [reflexivity|]. cbn [decode_rdatas]. unfold l at 1.
    rewrite E. cbn [bind fst snd skipn N.to_nat]. rewrite E1. cbn [skipn] in E2. rewrite E2.
    fold l. rewrite IH'. reflexivity.
  - assert (Hstuck : forall fuel', decode_rdatas fuel' (skipn (N.to_nat v) (skipn k l)) = Hang).
    { apply IH; [|exact E3]. rewrite !skipn_length. unfold l in *. cbn [length] in *. lia. }
    intros [|fuel']; [reflexivity|]. cbn [decode_rdatas]. unfold l at 1. fold l.
    rewrite E. cbn [bind fst snd]. rewrite E1, E2, Hstuck. reflexivity.
Qed.
