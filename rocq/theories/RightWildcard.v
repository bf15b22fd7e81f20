(** Right-wildcard RRset queries. *)
From Coq Require Import Permutation.
From Verif Require Import Base BaseFacts ModelVarint VarintProofs SpecMerge MergeProofs SpecUnion ModelUnion UnionProofs UnionMerge PropsUnion ModelWdns SpecName NameFacts.
From Verif Require Import ModelEntry SpecEntry EntryProofs PropsEntry ModelIter SpecIter IterProofs ModelQuery SpecQuery KeyProofs FilterProofs QueryProofs SelectProofs RRsetQueries IndexProofs.

Lemma union_check_nil : forall t, rrtype_union_check t [] = Ok true.
Proof. reflexivity. Qed.

Lemma windows_find : forall ws (t : N), (exists ws1 bm ws2, ws = ws1 ++ (t / 256, bm) :: ws2 /\ t mod 256 / 8 = blen bm) \/
  (forall bm, In (t / 256, bm) ws -> t mod 256 / 8 <> blen bm).
Proof.
  induction ws as [|[w bm] ws IH]; intro t.
  - right. intros bm [].
  - destruct (IH t) as [(ws1 & b & ws2 & -> & E)|H].
    + left. exists ((w, bm) :: ws1), b, ws2. auto.
    + destruct (N.eq_dec w (t / 256)) as [->|NE].
      * destruct (N.eq_dec (t mod 256 / 8) (blen bm)) as [E|NE]; [left; exists [], bm, ws; auto|].
        right. intros b [E|Hin]; [inversion E; subst; exact NE|auto].
      * right. intros b [E|Hin]; [inversion E; subst; congruence|auto].
Qed.

Lemma index_test_ok : forall tb m t, tb = ENTRY_TYPE_RRSET \/ tb = ENTRY_TYPE_RDATA -> t < 65536 -> index_safe m t ->
  exists b, rrtype_test tb t m = Ok b /\ (lists_type m t -> b = true).
Proof.
  intros tb m t Htb Ht [->|(HV & HB)].
  - exists true. split; [|auto]. unfold rrtype_test. destruct Htb as [-> | ->]; reflexivity.
  - assert (NF : lists_type m t -> union_mem m t).
    { intros [->|(_ & H)]; [exact I|exact H]. }
    assert (HR : exists b, rrtype_test tb t m = Ok b).
    { assert (C : (exists ws1 bm ws2, windows_ok (ws1 ++ (t / 256, bm) :: ws2) /\ m = encode_windows (ws1 ++ (t / 256, bm) :: ws2) /\ t mod 256 / 8 = blen bm) \/
        (forall ws bm, windows_ok ws -> m = encode_windows ws -> In (t / 256, bm) ws -> t mod 256 / 8 <> blen bm)).
      { inversion HV as [b Hb E|lo hi Hlo Hhi Hge E|ws Hne Hok E].
        - right. intros ws bm Hok E2 Hin. exfalso. destruct ws as [|[w b'] ws]; [destruct Hin|]. subst m. discriminate E2.
        - right. intros ws bm Hok E2 Hin. exfalso. destruct ws as [|[w b'] ws]; [destruct Hin|]. subst m.
          rewrite encode_windows_cons in E2. destruct Hok as [HF _]. inversion HF as [|? ? (_ & HL & _) _]; subst. cbn [snd] in HL.
          destruct b'; [cbn in HL; lia|discriminate E2].
        - destruct (windows_find ws t) as [(ws1 & bm & ws2 & -> & E3)|H].
          + left. exists ws1, bm, ws2. auto.
          + right. intros ws' bm Hok' E2 Hin. apply encode_windows_inj in E2. subst ws'. apply H. exact Hin. }
      destruct C as [(ws1 & bm & ws2 & Hok & -> & E)|C].
      - rewrite (index_test_boundary tb ws1 (t / 256) bm ws2 t Hok eq_refl E).
        destruct ws2 as [|[w' b'] ws2]; [|eauto]. exfalso. apply (HB ws1 (t / 256) bm Hok eq_refl eq_refl). exact E.
      - destruct (index_test_exact_partial tb m t HV Ht C) as (b & Hb & _). eauto. }
    destruct HR as (b & Hb). exists b. split; [exact Hb|]. intro L.
    pose proof (index_test_no_false_negative tb m t HV Ht (NF L)). congruence.
Qed.

(** Keys of an index are unique. *)
Lemma strict_same : forall t x y, strict t -> In x t -> In y t -> fst x = fst y -> x = y.
Proof.
  intros t x y S. induction S as [|a t S IH F]; intros Hx Hy E; [destruct Hx|]. rewrite Forall_forall in F.
  destruct Hx as [->|Hx], Hy as [->|Hy]; auto.
  - specialize (F y Hy). rewrite E, blt_irrefl in F. discriminate.
  - specialize (F x Hx). rewrite <- E, blt_irrefl in F. discriminate.
Qed.

Lemma owner_index_unique : forall recs t ow m m', Forall2 encodes recs t -> strict t ->
  In (OwnerIndex ow m) recs -> In (OwnerIndex ow m') recs -> m = m'.
Proof.
  intros recs t ow m m' HF HS H1 H2.
  destruct (encodes_in _ _ _ HF H1) as (x & Hx & _ & _ & Ex). destruct (encodes_in _ _ _ HF H2) as (y & Hy & _ & _ & Ey).
  assert (E : x = y) by (apply (strict_same t); auto; subst; reflexivity). subst. congruence.
Qed.

Lemma firstn_drop3 : forall (p : bytes) a b c, firstn (length (p ++ [a; b; c]) - 3) (p ++ [a; b; c]) = p.
Proof. intros p a b c. rewrite app_length. cbn [length]. replace (length p + 3 - 3)%nat with (length p) by lia. apply firstn_app_len. Qed.

Lemma owner_lookup_key : forall q ow m, name_ok ow -> type_param_ok q -> (q_do_rrtype q = true -> index_safe m (q_rrtype q)) ->
  exists b, index_lookup_key q ENTRY_TYPE_RRSET (rrset_name_key ow) m =
    Ok (if b : bool then Some (ENTRY_TYPE_RRSET :: rwire ow ++ (if q_do_rrtype q then varint_encode32 (q_rrtype q) else [])) else None) /\
    ((q_do_rrtype q = true -> lists_type m (q_rrtype q)) -> b = true).
Proof.
  intros q ow m [Ho Hl] HT HS. unfold index_lookup_key.
  assert (EN : wdns_reverse_name (skipn 1 (rrset_name_key ow)) (blen (rrset_name_key ow) - 1) = Ok (rwire ow)).
  { unfold rrset_name_key. cbn [skipn]. replace (blen (ENTRY_TYPE_RRSET_NAME_FWD :: wire ow) - 1) with (N.of_nat (length (wire ow))) by (unfold blen; cbn [length]; lia).
    rewrite <- (app_nil_r (wire ow)) at 1. apply reverse_wire. exact Ho. }
  destruct (q_do_rrtype q) eqn:ED.
  - destruct (HT ED) as [T1 T2]. rewrite N.mod_small by (unfold u16; lia).
    destruct (index_test_ok ENTRY_TYPE_RRSET m (q_rrtype q)) as (b & Eb & Hb); auto.
    exists b. rewrite Eb. cbn [bind]. destruct b; cbn [negb]; [|split; [reflexivity|auto]].
    rewrite EN. cbn [bind]. change (ENTRY_TYPE_RRSET =? ENTRY_TYPE_RRSET) with true. cbn [andb orb].
    unfold add_rrtype_to_key, WDNS_TYPE_ANY. destruct (N.eqb_spec (q_rrtype q) 255); [contradiction|]. cbn [bind]. split; [reflexivity|auto].
  - exists true. cbn [bind negb]. rewrite EN. cbn [bind andb]. rewrite app_nil_r. split; [reflexivity|auto].
Qed.

(** The owners of [recs] are indexed by [recsi]. *)
Definition owners_in (recs recsi : list record) : Prop :=
  forall ow ty bw rs o, In (RRset ow ty bw rs o) recs ->
    exists m, In (OwnerIndex ow m) recsi /\ lists_type m ty.

Lemma after_rrset_plan : forall q t ti recs recsi c x bw, database recs t -> database recsi ti -> strict ti -> q_type q = QRrset ->
  c = star \/ c = plus -> asks_name q (x ++ [[c]]) -> not_left_wild (x ++ [[c]]) -> asks_bailiwick q bw -> type_param_ok q ->
  owners_in recs recsi -> owner_index_safe q recsi ->
  indirect_plan q t ti recs recsi (after_index c x) same_owner (after_rrset q c x bw).
Proof.
  intros q t ti recs recsi c x bw HDb HDi HSt HQ Hc [HN Hn] HNL HB HT HOI HOS. pose proof HDb as [HF HS]. pose proof HDi as [HFi HSi].
  assert (Hx : Forall label_ok x) by (destruct Hn as [Hn _]; apply Forall_app in Hn; tauto).
  set (K := ENTRY_TYPE_RRSET_NAME_FWD :: enc_labels x).
  set (base := if is_timed q then STimeout (SBase t) else SBase t).
  assert (EI : forall src idx, query_init q src idx =
    Ok {| p_key := K; p_key2 := None;
          p_source := opt_filter_bailiwick q (filter_set_cond (q_do_rrtype q) StRrtype (filter_rrtype q) src);
          p_index := Some (ENTRY_TYPE_RRSET, open (HPrefix K) (filter_set_cond (c =? plus) StSingleLabel (filter_single_label (length K)) idx)) |}).
  { intros src idx. unfold query_init, init_rrset. rewrite HQ. unfold name_data. rewrite HN.
    rewrite left_wild_none by assumption. rewrite right_wild_some by assumption. unfold init_rrset_right_wildcard, name_data. rewrite HN.
    rewrite wire_snoc. change (blen [c] :: [c] ++ [0]) with [1; c; 0]. rewrite firstn_drop3. reflexivity. }
  set (src := opt_filter_bailiwick q (filter_set_cond (q_do_rrtype q) StRrtype (filter_rrtype q) base)).
  set (G := fun x e : kv => match index_lookup_key q ENTRY_TYPE_RRSET (fst x) (snd x) with
     | Ok (Some fk) => is_prefix fk (fst e) && typep q e && bwp q e && timep q e | _ => false end).
  eapply (indirect_planned q t ti recs recsi _ _ _ src ENTRY_TYPE_RRSET K _ (fun e => is_prefix K (fst e) && labelp (c =? plus) (length K) e) G (EI _ _)).
  - unfold src. rewrite opt_bw_timeout, cond_timeout. apply base_timeout.
  - rewrite cond_timeout. apply base_timeout.
  - eapply picks_label; [exact HFi|apply picks_base_t; exact HSi|discriminate|reflexivity|]. intros e _ Pe. exact Pe.
  - intros h e Hh HE. destruct h as [| |ow m| |]; cbn [after_index];
      try (split; [intro H; not_first H HE|tauto]).
    destruct HE as (_ & Ho & ->). cbn [fst]. unfold K. rewrite andb_true_iff. unfold rrset_name_key. rewrite cons_prefix.
    rewrite <- (app_nil_r (wire ow)) at 1. rewrite enc_prefix by (auto; apply Ho).
    assert (GL : forall y, ow = x ++ y -> (labelp (c =? plus) (length (ENTRY_TYPE_RRSET_NAME_FWD :: enc_labels x)) (ENTRY_TYPE_RRSET_NAME_FWD :: wire ow, m) = true <-> (c = plus -> length y = 1%nat))).
    { intros y ->. unfold labelp. cbn [fst]. destruct (N.eqb_spec c plus) as [->|NE]; cbn [negb orb].
      - rewrite <- (app_nil_r (wire (x ++ y))). destruct Ho as [Ho _]. apply Forall_app in Ho.
        rewrite single_label_name by tauto. rewrite Nat.eqb_eq. tauto.
      - split; [congruence|auto]. }
    split.
    + intros ((y & Ey) & L). exists y. split; [exact Ey|]. apply (GL y Ey). exact L.
    + intros (y & Ey & L). split; [exists y; exact Ey|]. apply (GL y Ey). exact L.
  - intros h e Hh Hin HE Ih. destruct h as [| |ow m| |]; try contradiction. destruct HE as (_ & Ho & ->).
    destruct (owner_lookup_key q ow m Ho HT (fun D => HOS D ow m Hh)) as (b & Eb & _). unfold group_plan. cbn [fst snd]. rewrite Eb.
    destruct b.
    + right. eexists. eexists. split; [reflexivity|].
      assert (PF : forall e : kv, is_prefix (ENTRY_TYPE_RRSET :: rwire ow ++ (if q_do_rrtype q then varint_encode32 (q_rrtype q) else [])) (fst e) = true -> first_byte e = 0).
      { intros e Pe. eapply prefix_first; eauto. }
      split; [|split; [|intros e' He'; unfold G; cbn [fst snd]; rewrite Eb; reflexivity]].
      * eapply picks_bailiwick; [exact HF| |].
        -- eapply picks_type; [exact HF|apply picks_base_t; exact HS|]. intros e _ Pe. left. eapply PF; eauto.
        -- intros e _ Pe. apply andb_prop in Pe. destruct Pe as [Pe _]. eapply PF; eauto.
      * intros e He Pe. apply andb_prop in Pe. destruct Pe as [Pe _]. apply andb_prop in Pe. destruct Pe as [Pe _].
        apply (timed_rr recs t e HF He). left. eapply PF; eauto.
    + left. split; [reflexivity|]. apply filter_nil. intros e _. unfold G. cbn [fst snd]. rewrite Eb. reflexivity.
  - intros h e r e' Hh HE Ih Hr HE'. destruct h as [| |ow m| |]; try contradiction. destruct HE as (_ & Ho & ->).
    destruct (owner_lookup_key q ow m Ho HT (fun D => HOS D ow m Hh)) as (b & Eb & HbT). unfold G. cbn [fst snd]. rewrite Eb.
    destruct r as [ow' ty bw' rs o| | | |]; cbn [same_owner after_rrset];
      try (split; [intro H; destruct b; [not_first H HE'|discriminate]|tauto]).
    pose proof HE' as (_ & Ho' & Hb' & Hty & Hob & HK & HV).
    assert (EQ : is_prefix (ENTRY_TYPE_RRSET :: rwire ow ++ (if q_do_rrtype q then varint_encode32 (q_rrtype q) else [])) (fst e') && typep q e' && bwp q e' && timep q e' = true <->
      ow = ow' /\ type_ok q ty /\ bailiwick_ok bw bw' /\ in_fence q o).
    { rewrite !andb_true_iff, (timep_spec q e' o Hob HV), (bwp_spec q bw ow' ty bw' rs o e' HE' HB), (typep_rrset q ow' ty bw' rs o e' HE').
      destruct (q_do_rrtype q) eqn:ED.
      - destruct (HT ED) as [T1 T2]. rewrite (rrset_prefix_type ow (q_rrtype q) ow' ty bw' rs) by (auto; unfold u32; lia).
        unfold type_ok. rewrite ED. intuition.
      - rewrite app_nil_r, (rrset_prefix_name ow ow' ty bw' rs) by auto. intuition. }
    destruct b.
    + rewrite EQ. cbn [after_index] in Ih. split; [intros (-> & T & B & F); auto 6|intros (-> & _ & T & B & F); auto].
    + split; [discriminate|]. intros (-> & _ & T & _ & _). exfalso. assert (false = true); [|discriminate]. apply HbT.
      intro D. destruct (HOI ow' ty bw' rs o Hr) as (m' & Hm' & HL).
      rewrite (owner_index_unique recsi ti ow' m m' HFi HSt Hh Hm'). rewrite <- (T D). exact HL.
  - intros r Hr HM. destruct r as [ow ty b rs o| | | |]; try contradiction. split; [exact I|].
    destruct (HOI ow ty b rs o Hr) as (m & Hm & _). exists (OwnerIndex ow m). split; [exact Hm|]. split; [|reflexivity].
    destruct HM as (HM & _). exact HM.
  - intros h h' r e e' Ih Ih' B B' HE HE'. destruct h as [| |ow m| |]; try contradiction. destruct h' as [| |ow2 m2| |]; try contradiction.
    destruct r; try contradiction. cbn in B, B'. subst. destruct HE as (_ & _ & ->). destruct HE' as (_ & _ & ->). reflexivity.
Qed.
Lemma after_rrset_ok : forall q t recs c x bw, database recs t -> strict t -> q_type q = QRrset ->
  c = star \/ c = plus -> asks_name q (x ++ [[c]]) -> not_left_wild (x ++ [[c]]) -> asks_bailiwick q bw -> type_param_ok q ->
  owners_indexed recs -> owner_index_safe q recs ->
  returns_grouped q t recs (after_index c x) same_owner (after_rrset q c x bw).
Proof. intros. apply indirect_returns; [assumption..|]. eapply after_rrset_plan; eauto. Qed.
