(** C79: whatever a file holds, every entry a query returns is a stored one and is asked for. *)
From Verif Require Import Base BaseFacts UnionProofs ModelVarint ModelUnion ModelMerge ModelEntry ModelIter ModelQuery ModelFileset
  JsonProofs SpecName SpecMerge SpecEntry SpecDecode SpecQuery SpecLookup SpecReader SpecSound
  SoundProofs SoundKeys PropsIter PropsDecode PropsQuery PropsReader PropsFileset Demo FilesetDemo.

(** Tables hold bytes. *)
Definition stored_bytes (t : table) : Prop := forall k v, In (k, v) t -> bytes_ok k /\ bytes_ok v.

(** ** Merging gives bytes *)

Lemma encode64_bytes : forall v, bytes_ok (varint_encode64 v).
Proof.
  intro v. unfold varint_encode64. generalize 10%nat. intro n. revert v.
  assert (B : forall v, byte_ok (to_byte v)) by (intro v; unfold byte_ok, to_byte; apply N.mod_lt; lia).
  induction n as [|n IH]; intro v; cbn [varint_encode64_loop]; [constructor; [apply B|constructor]|].
  destruct (128 <=? v); [constructor; [|apply IH]|constructor; [apply B|constructor]].
  unfold byte_ok. rewrite land_127. pose proof (N.mod_lt v 128 ltac:(discriminate)). rewrite lor_128_lt by assumption. lia.
Qed.

Lemma lor16 : forall a b, a < 65536 -> b < 65536 -> N.lor a b < 65536.
Proof.
  intros a b Ha Hb. destruct (N.eq_dec (N.lor a b) 0) as [->|HZ]; [lia|]. change 65536 with (2 ^ 16) in *. apply N.log2_lt_pow2; [lia|]. rewrite N.log2_lor.
  apply N.max_lub_lt; [destruct (N.eq_dec a 0) as [->|]; [cbn; lia|]|destruct (N.eq_dec b 0) as [->|]; [cbn; lia|]]; apply N.log2_lt_pow2; lia.
Qed.
Lemma lor8 : forall a b, a < 256 -> b < 256 -> N.lor a b < 256.
Proof.
  intros a b Ha Hb. destruct (N.eq_dec (N.lor a b) 0) as [->|HZ]; [lia|]. change 256 with (2 ^ 8) in *. apply N.log2_lt_pow2; [lia|]. rewrite N.log2_lor.
  apply N.max_lub_lt; [destruct (N.eq_dec a 0) as [->|]; [cbn; lia|]|destruct (N.eq_dec b 0) as [->|]; [cbn; lia|]]; apply N.log2_lt_pow2; lia.
Qed.

Lemma bits_16 : forall js w a lo x, w < 256 -> lo + N.of_nat (length js) <= 65536 -> In x (unpack_bits js w a lo) -> x < 65536.
Proof.
  induction js as [|j js IH]; intros w a lo x Hw Hl H; [destruct H|]. cbn [unpack_bits length] in *. apply in_app_iff in H. destruct H as [H|H].
  - destruct (_ =? 0); [destruct H|]. destruct H as [<-|[]]. apply lor16; [rewrite N.shiftl_mul_pow2; change (2 ^ 8) with 256; lia|lia].
  - eapply (IH w a (lo + 1)); [exact Hw|lia|exact H].
Qed.
Lemma block_16 : forall bm w lo x, w < 256 -> lo + 8 * blen bm <= 65536 -> In x (unpack_block w lo bm) -> x < 65536.
Proof.
  induction bm as [|a bm IH]; intros w lo x Hw Hl H; [destruct H|]. cbn [unpack_block] in H. unfold blen in *. cbn [length] in Hl. apply in_app_iff in H. destruct H as [H|H].
  - eapply (bits_16 one_to_eight w a lo); [exact Hw|cbn; lia|exact H].
  - eapply (IH w (lo + 8)); [exact Hw|lia|exact H].
Qed.
Lemma blocks_16 : forall f prev m l x, bytes_ok m -> unpack_blocks f prev m = Ok (Some l) -> In x l -> x < 65536.
Proof.
  induction f as [|f IH]; intros prev m l x HB E H; [discriminate|]. cbn [unpack_blocks] in E. destruct m as [|w [|bl rest]]; [injection E as <-; destruct H|discriminate|].
  inversion HB as [|? ? Hw HB1]; subst. inversion HB1 as [|? ? Hbl HB2]; subst. unfold byte_ok in Hw, Hbl.
  match type of E with (if ?b then _ else _) = _ => destruct b; [discriminate|] end.
  match type of E with (if ?b then _ else _) = _ => destruct b; [discriminate|] end.
  destruct (unpack_blocks f (Some w) (skipn (N.to_nat bl) rest)) as [[l'|]| | | |] eqn:E1; cbn [bind] in E; try discriminate. injection E as <-.
  apply in_app_iff in H. destruct H as [H|H].
  - eapply (block_16 (firstn (N.to_nat bl) rest) w 0); [exact Hw| |exact H]. pose proof (firstn_le_length (N.to_nat bl) rest). unfold blen. lia.
  - eapply (IH (Some w)); [|exact E1|exact H]. apply bytes_ok_skipn. exact HB2.
Qed.
Lemma unpack_16 : forall m l x, bytes_ok m -> rrtype_union_unpack m = Ok (Some l) -> In x l -> x < 65536.
Proof.
  intros m l x HB E H. destruct m as [|a [|b [|c m]]]; unfold rrtype_union_unpack in E.
  - injection E as <-. destruct H.
  - injection E as <-. destruct H as [<-|[]]. inversion HB; subst. unfold byte_ok in *. lia.
  - injection E as <-. destruct H as [<-|[]]. inversion HB as [|? ? Ha HB1]; subst. inversion HB1; subst. unfold byte_ok, le16 in *. lia.
  - destruct (unpack_blocks _ None (a :: b :: c :: m)) as [[l'|]| | | |] eqn:E1; cbn [bind] in E; try discriminate. destruct (_ <? _); [discriminate|]. injection E as <-.
    eapply blocks_16; [exact HB|exact E1|exact H].
Qed.

Record bm_ok (s : bmstate) : Prop := { bo_bitmap : bytes_ok (bm_bitmap s); bo_window : bm_window s < 256; bo_len : bm_len s < 256; bo_result : bytes_ok (bm_result s) }.
Lemma flush_bytes : forall s r, bm_ok s -> bm_flush s = Ok r -> bytes_ok r.
Proof.
  intros s r [H1 H2 H3 H4] E. unfold bm_flush in E. destruct (_ <? _); [|discriminate]. injection E as <-.
  apply bytes_ok_app. split; [exact H4|]. constructor; [exact H2|]. constructor; [exact H3|]. apply bytes_ok_firstn. exact H1.
Qed.
Lemma set_nth_bytes : forall n v l, byte_ok v -> bytes_ok l -> bytes_ok (set_nth n v l).
Proof. induction n as [|n IH]; intros v [|x l] Hv Hl; cbn [set_nth]; try constructor; inversion Hl; subst; auto. apply IH; assumption. Qed.
Lemma zero_bytes : bytes_ok zero_bitmap.
Proof. unfold zero_bitmap. apply Forall_forall. intros x H. apply repeat_spec in H. subst x. unfold byte_ok. lia. Qed.
Lemma step_bytes : forall s t s', bm_ok s -> t < 65536 -> bm_step s t = Ok s' -> bm_ok s'.
Proof.
  intros s t s' HS Ht E. unfold bm_step in E.
  assert (H1 : forall s1, (if negb (t / 256 =? bm_window s) then
       let* r := (if 0 <? bm_len s then bm_flush s else Ok (bm_result s)) in
       Ok {| bm_bitmap := zero_bitmap; bm_window := t / 256; bm_len := (if 0 <? bm_len s then 0 else bm_len s); bm_result := r |}
     else Ok s) = Ok s1 -> bm_ok s1).
  { intros s1 E1. destruct (negb _); [|injection E1 as <-; exact HS].
    destruct (if 0 <? bm_len s then bm_flush s else Ok (bm_result s)) as [r| | | |] eqn:ER; cbn [bind] in E1; try discriminate. injection E1 as <-. constructor; cbn [bm_bitmap bm_window bm_len bm_result].
    - apply zero_bytes.
    - apply N.div_lt_upper_bound; lia.
    - destruct (0 <? bm_len s); [lia|apply HS].
    - destruct (0 <? bm_len s); [eapply flush_bytes; eauto|injection ER as <-; apply HS]. }
  match type of E with (let* s1 := ?a in _) = _ => destruct a as [s1| | | |] eqn:ES; cbn [bind] in E; try discriminate end.
  specialize (H1 s1 eq_refl). destruct H1 as [A1 A2 A3 A4]. injection E as <-. constructor; cbn [bm_bitmap bm_window bm_len bm_result]; try assumption.
  - apply set_nth_bytes; [|exact A1]. apply lor8.
    + destruct (Nat.ltb_spec (N.to_nat (t mod 256 / 8)) (length (bm_bitmap s1))) as [HL|HL]; [|rewrite nth_overflow by exact HL; lia].
      unfold bytes_ok in A1. rewrite Forall_forall in A1. apply A1. apply nth_In. exact HL.
    + rewrite N.shiftr_div_pow2. apply N.le_lt_trans with 128; [apply N.div_le_upper_bound; [apply N.pow_nonzero; discriminate|]|lia].
      pose proof (N.pow_nonzero 2 (t mod 256 mod 8) ltac:(discriminate)). nia.
  - assert (H32 : t mod 256 / 8 < 32) by (apply N.div_lt_upper_bound; [discriminate|]; pose proof (N.mod_lt t 256 ltac:(discriminate)) as HM; change (8 * 32) with 256; exact HM).
    revert H32. generalize (t mod 256 / 8). intros n H32. change (1 + n < 256). lia.
Qed.
Lemma bitmap_bytes : forall l r, (forall x, In x l -> x < 65536) -> build_bitmap l = Ok r -> bytes_ok r.
Proof.
  intros l r HL E. unfold build_bitmap in E.
  assert (HS : forall l s s', (forall x, In x l -> x < 65536) -> bm_ok s -> bm_loop s l = Ok s' -> bm_ok s').
  { clear. induction l as [|t l IH]; intros s s' HL HS E; cbn [bm_loop] in E; [injection E as <-; exact HS|].
    destruct (bm_step s t) as [s1| | | |] eqn:E1; cbn [bind] in E; try discriminate. eapply IH; [|eapply step_bytes; [exact HS| |exact E1]|exact E]; [intros x Hx; apply HL; right; exact Hx|apply HL; left; reflexivity]. }
  destruct (bm_loop bm_init l) as [s| | | |] eqn:E1; cbn [bind] in E; try discriminate.
  assert (H0 : bm_ok s). { eapply HS; [exact HL| |exact E1]. constructor; cbn; [apply zero_bytes|lia|lia|constructor]. }
  destruct (negb _); [eapply flush_bytes; eauto|injection E as <-; apply H0].
Qed.

Lemma merge_bytes : forall k a b m, bytes_ok a -> bytes_ok b -> merge_func k a b = Ok m -> bytes_ok m.
Proof.
  intros k a b m Ha Hb E. unfold merge_func in E. destruct k as [|k0 kr]; [injection E as <-; constructor|].
  destruct (_ || _).
  { unfold merge_triplets in E. destruct a as [|a0 a]; [discriminate|]. destruct b as [|b0 b]; [discriminate|].
    destruct (assert_ok (triplet_unpack (a0 :: a))) as [[[? ?] ?]| | | |]; cbn [bind] in E; try discriminate.
    destruct (assert_ok (triplet_unpack (b0 :: b))) as [[[? ?] ?]| | | |]; cbn [bind] in E; try discriminate. injection E as <-.
    unfold triplet_pack. rewrite !bytes_ok_app. repeat split; apply encode64_bytes. }
  destruct (_ || _).
  { unfold merge_rrtype_bitmaps in E. destruct a as [|a0 a]; [injection E as <-; constructor|]. destruct b as [|b0 b]; [injection E as <-; constructor|].
    destruct (beq _ _); [injection E as <-; exact Ha|].
    match type of E with (let* sets := ?x in _) = _ => destruct x as [[s0 s1]| | | |] eqn:ES; cbn [bind fst snd] in E; try discriminate end.
    assert (HS : (forall x, In x s0 -> x < 65536) /\ (forall x, In x s1 -> x < 65536)).
    { assert (G : (let* u0 := rrtype_union_unpack (a0 :: a) in match u0 with None => Fail | Some s0 =>
                  let* u1 := rrtype_union_unpack (b0 :: b) in match u1 with None => Fail | Some s1 => Ok (s0, s1) end end) = Ok (s0, s1) ->
         (forall x, In x s0 -> x < 65536) /\ (forall x, In x s1 -> x < 65536)).
      { intro G. destruct (rrtype_union_unpack (a0 :: a)) as [[u0|]| | | |] eqn:E0; cbn [bind] in G; try discriminate.
        destruct (rrtype_union_unpack (b0 :: b)) as [[u1|]| | | |] eqn:E1; cbn [bind] in G; try discriminate. injection G as <- <-.
        split; intros x Hx; [exact (unpack_16 _ _ x Ha E0 Hx)|exact (unpack_16 _ _ x Hb E1 Hx)]. }
      destruct a as [|a1 [|a2 a]]; destruct b as [|b1 [|b2 b]]; try (apply G; exact ES); apply G; rewrite <- ES; reflexivity. }
    eapply bitmap_bytes; [|exact E]. intros x Hx. apply smd_in_sub in Hx. destruct HS as [H0 H1], Hx; auto. }
  destruct kr as [|vt [|]]; [destruct (_ =? _); [|injection E as <-; constructor]|destruct (_ =? _); [|injection E as <-; constructor]|injection E as <-; constructor].
  - unfold merge_time_range in E. destruct a as [|a0 a]; [injection E as <-; constructor|]. destruct b as [|b0 b]; [injection E as <-; constructor|].
    destruct (assert_ok (pair_unpack (a0 :: a))) as [[? ?]| | | |]; cbn [bind] in E; try discriminate.
    destruct (assert_ok (pair_unpack (b0 :: b))) as [[? ?]| | | |]; cbn [bind] in E; try discriminate. injection E as <-. unfold pair_pack. rewrite !bytes_ok_app. split; apply encode64_bytes.
  - unfold merge_version in E. destruct a as [|a0 a]; [injection E as <-; constructor|]. destruct b as [|b0 b]; [injection E as <-; constructor|].
    destruct (_ || _); [|injection E as <-; constructor].
    destruct (decode_vers (a0 :: a)); cbn [bind] in E; try discriminate. destruct (decode_vers (b0 :: b)); cbn [bind] in E; try discriminate. injection E as <-. apply encode32_bytes.
Qed.

(** ** The theorems *)

Lemma common_asked : forall q fc t ti qi fuel ts w e,
  stored_bytes t -> (forall f, f_fill fc = Some f -> stored_bytes f) -> well_posed q -> query_iter_common q fc (SBase t) (SBase ti) = Ok qi ->
  In (QEntry e) (timed_calls fuel ts qi w) ->
  exists k v0 v c, In (k, v0) t /\ (v = v0 \/ exists f v1, f_fill fc = Some f /\ In (k, v1) f /\ merge_func k v0 v1 = Ok v) /\
    holds k v c /\ tells e c /\ asked q k c.
Proof.
  intros q fc t ti qi fuel ts w e HB HF HW E H. destruct (start_running _ _ _ _ _ E) as (p & EP & HR).
  pose proof (plan_index _ _ _ _ EP) as HX. destruct (calls_running _ _ _ _ _ _ _ _ _ _ HR HX H) as (k & v & HD & ED).
  assert (HP : exists v0, placed q p (if is_timed q then STimeout (SBase ti) else SBase ti) k v0 /\ In (k, v0) t /\
    (has_time_bound q = true -> time_res q false v = FMatch) /\ (v = v0 \/ exists f v1, f_fill fc = Some f /\ In (k, v1) f /\ merge_func k v0 v1 = Ok v)).
  { assert (HIn : forall h v0, sat h (p_source p) k v0 -> In (k, v0) t).
    { intros h v0 HS. eapply plan_stored; eassumption. }
    unfold delivered in HD. unfold placed. destruct (p_index p) as [[tb it]|].
    - destruct HD as (ki & vi & fk & H1 & H2 & H3). apply stack_sat in H3. destruct H3 as (HT & v0 & H3 & HV). exists v0. split; [eauto 6|]. split; [eapply HIn; exact H3|]. auto.
    - apply stack_sat in HD. destruct HD as (HT & v0 & H3 & HV). exists v0. split; [exact H3|]. split; [eapply HIn; exact H3|]. auto. }
  destruct HP as (v0 & HPl & HIn & HT & HV). destruct (HB _ _ HIn) as [BK BV0].
  assert (BV : bytes_ok v) by (destruct HV as [->|(f & v1 & Ef & Hf & Em)]; [exact BV0|eapply merge_bytes; [exact BV0| |exact Em]; apply (HF f Ef k v1 Hf)]).
  destruct (decode_succeeds_iff k v BK BV) as [HDec _]. destruct (HDec e ED) as (c & Hh & Ht).
  exists k, v0, v, c. split; [exact HIn|]. split; [exact HV|]. split; [exact Hh|]. split; [exact Ht|].
  exact (planned q (is_timed q) t ti p k v0 v c HW EP HPl Hh BK BV HT).
Qed.

(** A file may hold anything: keys in any order, several times, cut short or followed by
    junk.  Every entry any sequence of calls returns, also while timeout and deadline are
    changed, is what a stored entry says, and one of the kind, name, type, bailiwick and
    times the query asks for. *)
Theorem answers_stored_and_asked : forall t q qi fuel ts w e, stored_bytes t -> well_posed q ->
  dnstable_query_iter q t = Ok qi -> In (QEntry e) (timed_calls fuel ts qi w) ->
  exists k v c, In (k, v) t /\ holds k v c /\ tells e c /\ asked q k c.
Proof.
  intros t q qi fuel ts w e HB HW E H. unfold dnstable_query_iter in E.
  destruct (common_asked q no_fence t t qi fuel ts w e HB ltac:(discriminate) HW E H) as (k & v0 & v & c & H1 & [->|(f & v1 & Ef & _)] & H3); [|discriminate Ef].
  exists k, v0, c. auto.
Qed.
Print Assumptions answers_stored_and_asked.

(** The same for several files: the entry is one of those libmtbl finds in some of the
    files, or this one merged with one under the same key from others of them. *)
Theorem fileset_answers_stored_and_asked : forall lib files q qi fuel ts w e,
  (forall l, incl l files -> stored_bytes (lib_merged lib l) /\ stored_bytes (lib_unmerged lib l)) -> well_posed q ->
  dnstable_query_iter_fileset lib q files = Ok qi -> In (QEntry e) (timed_calls fuel ts qi w) ->
  exists kept filled k v0 v c, incl kept files /\ incl filled files /\
    In (k, v0) (if q_aggregated q then lib_merged lib kept else lib_unmerged lib kept) /\
    (v = v0 \/ exists v1, q_aggregated q = true /\ ~ no_bounds q /\ In (k, v1) (lib_merged lib filled) /\ merge_func k v0 v1 = Ok v) /\
    holds k v c /\ tells e c /\ asked q k c.
Proof.
  intros lib files q qi fuel ts w e HL HW E H. unfold dnstable_query_iter_fileset in E.
  destruct (fates q files) as [l| | | |] eqn:EF; cbn [bind] in E; try discriminate.
  assert (HI : forall x, incl (files_with x l) files).
  { intros x f Hf. unfold files_with in Hf. apply in_map_iff in Hf. destruct Hf as ([y f'] & <- & Hf). apply filter_In in Hf. destruct Hf as [Hf _]. cbn [snd].
    clear -EF Hf. revert l EF Hf. induction files as [|f0 files IH]; intros l EF Hf; cbn [fates] in EF; [injection EF as <-; destruct Hf|].
    destruct (reader_time_filter q f0) as [x0| | | |]; cbn [bind] in EF; try discriminate. destruct (fates q files) as [l'| | | |]; cbn [bind] in EF; try discriminate. injection EF as <-.
    destruct Hf as [Hf|Hf]; [injection Hf as <- <-; left; reflexivity|right; eapply IH; eauto]. }
  set (fc := {| f_remove := _; f_fill := _ |}) in E.
  assert (HF : forall f, f_fill fc = Some f -> q_aggregated q = true /\ ~ no_bounds q /\ f = lib_merged lib (files_with Fill l)).
  { intros f Ef. unfold fc in Ef. cbn [f_fill] in Ef. destruct (q_aggregated q); [|discriminate]. cbn [andb] in Ef. destruct (has_time_bound q) eqn:EH; [|discriminate]. injection Ef as <-.
    split; [reflexivity|]. split; [|reflexivity]. intros (A1 & A2 & A3 & A4). unfold has_time_bound in EH. rewrite A1, A2, A3, A4 in EH. discriminate. }
  assert (HFB : forall f, f_fill fc = Some f -> stored_bytes f) by (intros f Ef; destruct (HF f Ef) as (_ & _ & ->); apply HL, HI).
  assert (HT : exists t ti, query_iter_common q fc (SBase t) (SBase ti) = Ok qi /\ t = (if q_aggregated q then lib_merged lib (files_with Keep l) else lib_unmerged lib (files_with Keep l))).
  { destruct (q_aggregated q); [|cbn [bind] in E]; eauto. }
  destruct HT as (t & ti & E2 & Et).
  assert (HB : stored_bytes t) by (rewrite Et; destruct (q_aggregated q); apply HL, HI).
  destruct (common_asked q fc t ti qi fuel ts w e HB HFB HW E2 H) as (k & v0 & v & c & H1 & H2 & H3).
  exists (files_with Keep l), (files_with Fill l), k, v0, v, c. split; [apply HI|]. split; [apply HI|]. split; [rewrite Et in H1; exact H1|]. split; [|exact H3].
  destruct H2 as [->|(f & v1 & Ef & Hf & Em)]; [left; reflexivity|]. right. exists v1. destruct (HF f Ef) as (A & B & ->). auto.
Qed.
Print Assumptions fileset_answers_stored_and_asked.

(** With libmtbl merging by dnstable_merge_func: the entry is what values say that are stored
    under one key in the files, merged; without aggregation, what one such value says. *)
Lemma stored_incl : forall part files k v, incl part files -> stored_under part k v -> stored_under files k v.
Proof. intros part files k v HI (f & Hf & Hv). exists f. auto. Qed.
Lemma meval_bytes : forall k tr v, Forall bytes_ok (mleaves tr) -> meval k tr = Ok v -> bytes_ok v.
Proof.
  intros k. induction tr as [a|l IHl r IHr]; intros v HL E; cbn [mleaves meval] in *; [injection E as <-; inversion HL; assumption|].
  apply Forall_app in HL. destruct HL as [H1 H2]. destruct (meval k l) as [a| | | |] eqn:El; cbn [bind] in E; try discriminate. destruct (meval k r) as [b| | | |] eqn:Er; cbn [bind] in E; try discriminate.
  eapply merge_bytes; [apply (IHl a H1 eq_refl)|apply (IHr b H2 eq_refl)|exact E].
Qed.
Theorem fileset_answers_from_files : forall lib files q qi fuel ts w e,
  Forall stored_bytes files -> delivers lib files -> well_posed q ->
  dnstable_query_iter_fileset lib q files = Ok qi -> In (QEntry e) (timed_calls fuel ts qi w) ->
  exists k tr v c, Forall (stored_under files k) (mleaves tr) /\ meval k tr = Ok v /\ (q_aggregated q = false -> tr = MLeaf v) /\
    holds k v c /\ tells e c /\ asked q k c.
Proof.
  intros lib files q qi fuel ts w e HB HD HW E H. rewrite Forall_forall in HB.
  assert (HS : forall part k v, incl part files -> stored_under part k v -> bytes_ok k /\ bytes_ok v).
  { intros part k v HI (f & Hf & Hv). apply (HB f (HI f Hf) k v Hv). }
  assert (HL : forall l, incl l files -> stored_bytes (lib_merged lib l) /\ stored_bytes (lib_unmerged lib l)).
  { intros l HI. destruct (HD l HI) as [H1 H2]. split; intros k v Hv.
    - destruct (H1 k v Hv) as (tr & HT & Em). assert (HBT : Forall bytes_ok (mleaves tr)) by (eapply Forall_impl; [|exact HT]; intros a Ha; apply (HS l k a HI Ha)). split; [|eapply meval_bytes; eauto].
      assert (HN : exists a, In a (mleaves tr)) by (clear; induction tr as [a|l [a Ha] r _]; [exists a; left; reflexivity|exists a; cbn [mleaves]; apply in_or_app; left; exact Ha]).
      destruct HN as (a & Ha). rewrite Forall_forall in HT. apply (HS l k a HI (HT a Ha)).
    - apply (HS l k v HI (H2 k v Hv)). }
  destruct (fileset_answers_stored_and_asked lib files q qi fuel ts w e HL HW E H) as (kept & filled & k & v0 & v & c & HK & HF & H0 & HV & Hh & Ht & Ha).
  assert (HUp : forall part, incl part files -> forall l, Forall (stored_under part k) l -> Forall (stored_under files k) l).
  { intros part HI l. apply Forall_impl. intros a. apply stored_incl. exact HI. }
  destruct HV as [->|(v1 & Eag & _ & Hf & Em)].
  - destruct (q_aggregated q).
    + destruct (proj1 (HD kept HK) k v0 H0) as (tr & HT & Em). exists k, tr, v0, c. split; [exact (HUp kept HK _ HT)|]. split; [exact Em|]. split; [discriminate|]. auto.
    + exists k, (MLeaf v0), v0, c. split; [|auto]. constructor; [|constructor]. eapply stored_incl; [exact HK|]. apply (proj2 (HD kept HK) k v0 H0).
  - rewrite Eag in H0. destruct (proj1 (HD kept HK) k v0 H0) as (tr0 & HT0 & Em0). destruct (proj1 (HD filled HF) k v1 Hf) as (tr1 & HT1 & Em1).
    exists k, (MNode tr0 tr1), v, c. split; [cbn [mleaves]; apply Forall_app; split; [exact (HUp kept HK _ HT0)|exact (HUp filled HF _ HT1)]|].
    split; [cbn [meval]; rewrite Em0, Em1; exact Em|]. split; [rewrite Eag; discriminate|]. auto.
Qed.
Print Assumptions fileset_answers_from_files.

(** A file out of order, with keys cut short, keys twice, junk after the data and junk for
    values, and queries over it that return entries. *)
Definition junk_set (v : bytes) : kv := ([0; 1; 97; 0; 1; 0; 1; 9], v).
Definition junk_data (v : bytes) : kv := ([2; 1; 97; 0; 2; 1; 98; 0; 3; 0], v).
Definition junk : table :=
  [([255; 0], [5]); ([1; 1; 97], []); junk_data [10; 20; 3]; junk_set [10; 20; 3]; ([0; 1; 97], [1]); ([0; 1; 97; 1; 98; 0; 1; 0; 1; 9], [7; 8; 9]); junk_set [200; 1; 30; 128; 0]; ([1; 1; 97; 0], [1]); ([2; 2], [])].
Definition reports (q : query) : list (option (N * res bytes * res N * res N)) :=
  match dnstable_query_iter q junk with
  | Ok qi => map (fun r => match r with QEntry e => Some (get_type e, get_rrname e, get_rrtype e, get_time_first e) | _ => None end)
                 (timed_calls 100 [TKeep; TDeadline {| tv_sec := 5; tv_nsec := 0 |}; TKeep] qi (load_offset q world0))
  | _ => []
  end.
Definition Q79 := ask QRrset (Some 1) (Some (wire [[97]])) None None [] [] 0 None (Some 100) None None.
Definition Q79below := ask QRrset None (Some (wire [[43]; [97]])) (Some (rwire [])) None [] [] 0 None None None None.
Definition Q79after := ask QRrset (Some 1) (Some (wire [[97]; [42]])) None None [] [] 0 (Some 100) None None None.
Definition Q79data := ask QRdataName None (Some (wire [[97]])) None None [] [] 0 None None None None.
Example c79_case : stored_bytes junk /\ ~ SpecIter.sorted junk /\
  well_posed Q79 /\ well_posed Q79below /\ well_posed Q79after /\ well_posed Q79data /\
  reports Q79 = [Some (0, Ok [1; 97; 0], Ok 1, Ok 10); None; None] /\
  (* the keys being out of order, the search goes back and finds the entry again *)
  reports Q79below = [Some (0, Ok [1; 98; 1; 97; 0], Ok 1, Ok 7); Some (0, Ok [1; 98; 1; 97; 0], Ok 1, Ok 7); Some (0, Ok [1; 98; 1; 97; 0], Ok 1, Ok 7)] /\
  reports Q79after = [None; Some (0, Ok [1; 97; 0], Ok 1, Ok 200); None] /\
  reports Q79data = [Some (2, Ok [1; 98; 0], Ok 2, Ok 10); None; None].
Proof.
  assert (NW : one_sided [[97]]).
  { apply os_plain; [no_wild_left|]. apply (no_wild_right [] [97]); [intros [C|C]; discriminate C|discriminate]. }
  split.
  { assert (H : forallb (fun e => forallb (fun b => b <? 256) (fst e) && forallb (fun b => b <? 256) (snd e)) junk = true) by reflexivity.
    intros k v Hin. rewrite forallb_forall in H. specialize (H _ Hin). apply andb_true_iff in H. destruct H as [H1 H2]. rewrite forallb_forall in H1, H2.
    split; apply Forall_forall; intros x Hx; [specialize (H1 x Hx)|specialize (H2 x Hx)]; apply N.ltb_lt; assumption. }
  split. { intro H. inversion H as [|? ? _ HF]; subst. inversion HF as [|? ? C _]; subst. discriminate C. }
  split. { constructor; [intros _; exists [[97]]; split; [split; [reflexivity|apply name_okb_ok; reflexivity]|exact NW]|intros _; exists None; split; [reflexivity|exact I]|reflexivity]. }
  split. { constructor; [intros _; exists [[43]; [97]]; split; [split; [reflexivity|apply name_okb_ok; reflexivity]|]|intros _; exists (Some []); split; [reflexivity|apply name_okb_ok; reflexivity]|discriminate].
    apply (os_below 43 [[97]]); [right; reflexivity|]. apply (no_wild_right [[43]] [97]); [intros [C|C]; discriminate C|discriminate]. }
  split. { constructor; [intros _; exists [[97]; [42]]; split; [split; [reflexivity|apply name_okb_ok; reflexivity]|]|intros _; exists None; split; [reflexivity|exact I]|reflexivity].
    apply (os_after 42 [[97]]); [left; reflexivity|]. no_wild_left. }
  split. { constructor; discriminate. }
  repeat split; vm_compute; reflexivity.
Qed.

(** Three files out of order with junk in them; the third has a time range before the bound,
    and only adds to what the others hold. *)
Lemma lib0_delivers : forall files, delivers lib0 files.
Proof.
  intros files part HI. split; intros k v Hv; cbn [lib_merged lib_unmerged lib0] in Hv.
  - destruct (merge_entries (concat part)) as [t| | | |] eqn:E; try (destruct Hv; fail). destruct (merge_entries_ok _ _ E) as (_ & _ & HT).
    destruct (HT k v Hv) as (tr & HP & Em). exists tr. split; [|exact Em]. apply Forall_forall. intros a Ha. apply (Permutation.Permutation_in a HP) in Ha.
    unfold same_keyed in Ha. apply in_map_iff in Ha. destruct Ha as ([k' a'] & <- & Ha). apply filter_In in Ha. destruct Ha as [Ha Ek]. apply beq_true in Ek. cbn [fst snd] in *. subst k'.
    apply in_concat in Ha. destruct Ha as (f & Hf & Ha). exists f. auto.
  - apply (Permutation.Permutation_in (k, v) (Permutation.Permutation_sym (sort_entries_perm (concat part)))) in Hv. apply in_concat in Hv. destruct Hv as (f & Hf & Hv). exists f. auto.
Qed.
Definition junk_files : list table :=
  [[([255; 0], [5]); junk_set [10; 20; 3]; ([0; 1; 97], [1])]; [junk_set [5; 30; 4]; ([2; 2], [])]; [junk_set [1; 2; 1]; ([254], [1; 2])]].
Definition Q79files (agg : bool) := ModelSetters.with_flags agg false 0 (ask QRrset (Some 1) (Some (wire [[97]])) None None [] [] 0 None None (Some 15) None).
Definition file_reports (q : query) : list (option (res N * res N * res N)) :=
  match dnstable_query_iter_fileset lib0 q junk_files with
  | Ok qi => map (fun r => match r with QEntry e => Some (get_time_first e, get_time_last e, get_count e) | _ => None end) (timed_calls 100 [TKeep; TKeep; TKeep] qi (load_offset q world0))
  | _ => []
  end.
Example c79_files_case : Forall stored_bytes junk_files /\ delivers lib0 junk_files /\
  file_reports (Q79files true) = [Some (Ok 1, Ok 30, Ok 8); None; None] /\
  file_reports (Q79files false) = [Some (Ok 5, Ok 30, Ok 4); Some (Ok 10, Ok 20, Ok 3); None].
Proof.
  split.
  { assert (H : forallb (fun t => forallb (fun e => forallb (fun b => b <? 256) (fst e) && forallb (fun b => b <? 256) (snd e)) t) junk_files = true) by reflexivity.
    apply Forall_forall. intros t Ht k v Hin. rewrite forallb_forall in H. specialize (H t Ht). rewrite forallb_forall in H. specialize (H _ Hin). apply andb_true_iff in H. destruct H as [H1 H2]. rewrite forallb_forall in H1, H2.
    split; apply Forall_forall; intros x Hx; [specialize (H1 x Hx)|specialize (H2 x Hx)]; apply N.ltb_lt; assumption. }
  split; [apply lib0_delivers|]. split; vm_compute; reflexivity.
Qed.
