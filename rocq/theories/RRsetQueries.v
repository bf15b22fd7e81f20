(** RRset queries: exact, left wildcard, right wildcard. *)
From Verif Require Import Base BaseFacts ModelVarint VarintProofs SpecMerge MergeProofs ModelWdns SpecName NameFacts.
From Verif Require Import ModelEntry SpecEntry EntryProofs PropsEntry ModelUnion ModelIter SpecIter IterProofs ModelQuery SpecQuery KeyProofs FilterProofs QueryProofs SelectProofs.

Lemma reverse_buf_wire : forall n, name_ok n -> reverse_buf (wire n) (N.of_nat (length (wire n))) = Ok (rwire n).
Proof.
  intros n [Hn Hl]. unfold reverse_buf, WDNS_MAXLEN_NAME. destruct (N.ltb_spec 255 (N.of_nat (length (wire n)))); [lia|].
  rewrite <- (app_nil_r (wire n)) at 1. apply reverse_wire. exact Hn.
Qed.

Lemma wire_init : forall n, firstn (length (wire n) - 1) (wire n) = enc_labels n.
Proof.
  intro n. unfold wire. rewrite app_length. cbn [length]. replace (length (enc_labels n) + 1 - 1)%nat with (length (enc_labels n)) by lia.
  apply firstn_app_len.
Qed.

Lemma rwire_init : forall n, firstn (length (wire n) - 1) (rwire n) = enc_labels (rev n).
Proof. intro n. rewrite <- length_rwire. apply wire_init. Qed.

Ltac not_first H HE :=
  exfalso; apply andb_prop in H; destruct H as [H _]; repeat (apply andb_prop in H; destruct H as [H _]);
  apply prefix_first in H; apply encodes_first in HE; destruct HE as [HE _]; rewrite H in HE;
  first [discriminate HE | vm_compute in HE; congruence].

Lemma exact_rrset_plan : forall q t recs name bw, database recs t -> q_type q = QRrset ->
  asks_name q name -> not_left_wild name -> not_right_wild name -> asks_bailiwick q bw -> type_param_ok q ->
  direct_plan q t recs (exact_rrset q name bw).
Proof.
  intros q t recs name bw HDb HQ [HN Hn] HL HR HB HT. pose proof HDb as [HF HS].
  assert (EI : forall src idx, query_init q src idx =
    if q_do_rrtype q then
      Ok {| p_key := ENTRY_TYPE_RRSET :: (rwire name ++ varint_encode32 (q_rrtype q)) ++ match q_bailiwick q with Some b => b | None => [] end;
            p_key2 := None; p_source := src; p_index := None |}
    else Ok {| p_key := ENTRY_TYPE_RRSET :: rwire name; p_key2 := None; p_source := opt_filter_bailiwick q src; p_index := None |}).
  { intros src idx. unfold query_init, init_rrset. rewrite HQ. unfold name_data. rewrite HN.
    rewrite left_wild_none, right_wild_none by assumption. unfold blen. rewrite reverse_buf_wire by assumption. cbn [bind].
    destruct (q_do_rrtype q) eqn:ED; [|reflexivity]. unfold add_rrtype_to_key, WDNS_TYPE_ANY.
    destruct (N.eqb_spec (q_rrtype q) 255) as [E|_]; [exfalso; apply (proj2 (HT ED)); exact E|]. cbn [bind].
    destruct (q_bailiwick q); cbn [app]; rewrite ?app_nil_r; reflexivity. }
  pose proof (EI (if is_timed q then STimeout (SBase t) else SBase t) (if is_timed q then STimeout (SBase t) else SBase t)) as EI'.
  destruct (q_do_rrtype q) eqn:ED.
  - destruct (HT ED) as [HT1 HT2]. assert (HU : q_rrtype q < u32) by (unfold u32; lia).
    eapply (direct_planned q t recs _ (fun e => is_prefix (ENTRY_TYPE_RRSET :: (rwire name ++ varint_encode32 (q_rrtype q)) ++ match q_bailiwick q with Some b => b | None => [] end) (fst e)) _ (_, None) _ EI').
    + reflexivity.
    + apply base_timeout.
    + apply picks_base_t. exact HS.
    + intros e He Pe. eapply timed_rr; eauto. left. eapply prefix_first; eauto.
    + intros r e Hr HE. destruct r as [ow ty b rs o| | | |]; cbn [exact_rrset];
        try (split; [intro H; not_first H HE|tauto]).
      pose proof HE as (_ & Ho & Hb & Hty & Hob & HK & HV). rewrite andb_true_iff, (timep_spec q e o Hob HV).
      unfold type_ok. rewrite ED. destruct HB as [HB1 HB2]. rewrite HB1. destruct bw as [b0|]; cbn [option_map bailiwick_ok].
      * rewrite (rrset_prefix_bailiwick name (q_rrtype q) b0 ow ty b rs) by assumption. tauto.
      * rewrite app_nil_r, (rrset_prefix_type name (q_rrtype q) ow ty b rs) by assumption. tauto.
    + intros r _ HM. destruct r; cbn in *; tauto.
  - eapply (direct_planned q t recs _ (fun e => is_prefix (ENTRY_TYPE_RRSET :: rwire name) (fst e) && bwp q e) _ (_, None) _ EI').
    + reflexivity.
    + rewrite opt_bw_timeout. apply base_timeout.
    + eapply picks_bailiwick; [exact HF|apply picks_base_t; exact HS|]. intros e _ Pe. cbn [in_window] in Pe. eapply prefix_first; eauto.
    + intros e He Pe. apply andb_prop in Pe. destruct Pe as [Pe _]. eapply timed_rr; eauto. left. eapply prefix_first; eauto.
    + intros r e Hr HE. destruct r as [ow ty b rs o| | | |]; cbn [exact_rrset];
        try (split; [intro H; not_first H HE|tauto]).
      pose proof HE as (_ & Ho & Hb & Hty & Hob & HK & HV). rewrite !andb_true_iff, (timep_spec q e o Hob HV).
      rewrite (bwp_spec q bw ow ty b rs o e HE HB). rewrite (rrset_prefix_name name ow ty b rs) by assumption.
      unfold type_ok. rewrite ED. split; [intros [[A B] C]|intros (A & B & C & D)]; auto. split; auto. split; auto. discriminate.
    + intros r _ HM. destruct r; cbn in *; tauto.
Qed.
Lemma exact_rrset_ok : forall q t recs name bw, database recs t -> q_type q = QRrset ->
  asks_name q name -> not_left_wild name -> not_right_wild name -> asks_bailiwick q bw -> type_param_ok q ->
  returns q t recs (exact_rrset q name bw).
Proof. intros. apply direct_returns; [assumption|]. eapply exact_rrset_plan; eauto. Qed.

Lemma labelp_rrset : forall (c : bool) x y ty b rs o e, name_ok (y ++ x) -> encodes (RRset (y ++ x) ty b rs o) e ->
  (labelp c (length (ENTRY_TYPE_RRSET :: enc_labels (rev x))) e = true <-> (c = true -> length y = 1%nat)).
Proof.
  intros c x y ty b rs o e [Hn _] (_ & _ & _ & _ & _ & (t & rd & _ & _ & HK) & _). apply Forall_app in Hn. destruct Hn as [Hy Hx].
  unfold labelp. destruct c; cbn [negb orb]; [|split; [discriminate|auto]]. rewrite HK.
  unfold rwire. rewrite rev_app_distr. rewrite single_label_name by (apply Forall_rev; assumption).
  rewrite rev_length, Nat.eqb_eq. tauto.
Qed.

Lemma below_rrset_plan : forall q t recs c x bw, database recs t -> q_type q = QRrset ->
  c = star \/ c = plus -> asks_name q ([c] :: x) -> asks_bailiwick q bw ->
  direct_plan q t recs (below_rrset q c x bw).
Proof.
  intros q t recs c x bw HDb HQ Hc [HN Hn] HB. pose proof HDb as [HF HS].
  apply name_ok_cons in Hn. destruct Hn as [_ Hx]. pose proof (proj1 Hx) as Hxl.
  set (K := ENTRY_TYPE_RRSET :: enc_labels (rev x)).
  assert (EI : forall src idx, query_init q src idx =
    Ok {| p_key := K; p_key2 := None;
          p_source := opt_filter_bailiwick q (filter_set_cond (q_do_rrtype q) StRrtype (filter_rrtype q)
                        (filter_set_cond (c =? plus) StSingleLabel (filter_single_label (length K)) src)); p_index := None |}).
  { intros src idx. unfold query_init, init_rrset. rewrite HQ. unfold name_data. rewrite HN, left_wild_some by assumption.
    unfold init_rrset_left_wildcard, name_data. rewrite HN, wire_cons. cbn [app length skipn Nat.sub]. rewrite Nat.sub_0_r.
    rewrite reverse_buf_wire by assumption. cbn [bind]. rewrite rwire_init. reflexivity. }
  pose proof (EI (if is_timed q then STimeout (SBase t) else SBase t) (if is_timed q then STimeout (SBase t) else SBase t)) as EI'.
  eapply (direct_planned q t recs _ (fun e => is_prefix K (fst e) && labelp (c =? plus) (length K) e && typep q e && bwp q e) _ (_, None) _ EI').
  - reflexivity.
  - rewrite opt_bw_timeout, !cond_timeout. apply base_timeout.
  - assert (P1 : forall e, In e t -> is_prefix K (fst e) && labelp (c =? plus) (length K) e = true -> first_byte e = 0).
    { intros e _ Pe. apply andb_prop in Pe. destruct Pe as [Pe _]. eapply prefix_first; eauto. }
    eapply picks_bailiwick; [exact HF| |].
    + eapply picks_type; [exact HF| |].
      * eapply picks_label; [exact HF|apply picks_base_t; exact HS|discriminate|reflexivity|]. intros e _ Pe. exact Pe.
      * intros e He Pe. left. apply P1; auto.
    + intros e He Pe. apply andb_prop in Pe. destruct Pe as [Pe _]. apply P1; auto.
  - intros e He Pe. eapply timed_rr; eauto. left. apply andb_prop in Pe. destruct Pe as [Pe _]. apply andb_prop in Pe. destruct Pe as [Pe _].
    apply andb_prop in Pe. destruct Pe as [Pe _]. eapply prefix_first; eauto.
  - intros r e Hr HE. destruct r as [ow ty b rs o| | | |]; cbn [below_rrset];
      try (split; [intro H; not_first H HE|tauto]).
    pose proof HE as (_ & Ho & Hb & Hty & Hob & HK & HV). rewrite !andb_true_iff, (timep_spec q e o Hob HV).
    rewrite (bwp_spec q bw ow ty b rs o e HE HB), (typep_rrset q ow ty b rs o e HE).
    unfold K at 1. rewrite (rrset_prefix_below x ow ty b rs) by assumption.
    assert (G : forall y, ow = y ++ x -> (labelp (c =? plus) (length K) e = true <-> (c = plus -> length y = 1%nat))).
    { intros y ->. unfold K. rewrite (labelp_rrset (c =? plus) x y ty b rs o e Ho HE). rewrite N.eqb_eq. tauto. }
    split.
    + intros [[[[(y & Ey) L] T] B] F]. split; [|auto]. exists y. split; [exact Ey|]. apply (G y Ey). exact L.
    + intros ((y & Ey & L) & T & B & F). refine (conj (conj (conj (conj _ _) T) B) F); [exists y; exact Ey|]. apply (G y Ey). exact L.
  - intros r _ HM. destruct r; cbn in *; tauto.
Qed.
Lemma below_rrset_ok : forall q t recs c x bw, database recs t -> q_type q = QRrset ->
  c = star \/ c = plus -> asks_name q ([c] :: x) -> asks_bailiwick q bw ->
  returns q t recs (below_rrset q c x bw).
Proof. intros. apply direct_returns; [assumption|]. eapply below_rrset_plan; eauto. Qed.
