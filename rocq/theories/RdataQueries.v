(** Rdata-name and rdata-raw queries. *)
From Coq Require Import Permutation.
From Verif Require Import Base BaseFacts ModelVarint VarintProofs SpecMerge MergeProofs SpecUnion ModelUnion UnionProofs UnionMerge PropsUnion ModelWdns SpecName NameFacts.
From Verif Require Import ModelEntry SpecEntry EntryProofs PropsEntry ModelIter SpecIter IterProofs ModelQuery SpecQuery KeyProofs FilterProofs QueryProofs SelectProofs RRsetQueries IndexProofs RightWildcard.

Lemma name_type_all_spec : forall t, name_type_all t = true <-> bears_name t.
Proof.
  intro t. unfold name_type_all, name_type_standalone, bears_name. rewrite orb_true_iff, !existsb_exists. split.
  - intros [(x & Hx & E)|(x & Hx & E)]; apply N.eqb_eq in E; subst x; cbn in *; intuition.
  - intro H. cbn in H. repeat (destruct H as [<-|H]; [first [left; eexists; split; [|apply N.eqb_refl]; cbn; tauto | right; eexists; split; [|apply N.eqb_refl]; cbn; tauto]|]). destruct H.
Qed.

Lemma name_type_standalone_spec : forall t, name_type_standalone t = true <-> only_name t.
Proof.
  intro t. unfold name_type_standalone, only_name. rewrite existsb_exists. split.
  - intros (x & Hx & E). apply N.eqb_eq in E. subst x. cbn in *. intuition.
  - intro H. exists t. split; [|apply N.eqb_refl]. cbn in *. intuition.
Qed.

Lemma bears_name_small : forall t, bears_name t -> t < 65536 /\ t <> 255.
Proof. intros t H. unfold bears_name in H. cbn in H. repeat (destruct H as [<-|H]; [split; [lia|discriminate]|]). destruct H. Qed.

Definition namep (q : query) (e : kv) : bool :=
  if q_do_rrtype q then matched (rrtype_res (q_rrtype q) (fst e)) else matched (rdata_name_res (fst e)).

Lemma picks_name : forall recs h s P q t, Forall2 encodes recs t -> picks h s P t ->
  (forall e, In e t -> P e = true -> first_byte e = 2) ->
  picks h (SFilter StRrtype (if q_do_rrtype q then filter_rrtype q else filter_rrtype_rdata_name) s) (fun e => P e && namep q e) t.
Proof.
  intros recs h s P q t HF H HB. unfold namep. apply picks_filter; [exact H|]. destruct (q_do_rrtype q).
  - apply (decided_good _ (fun e => rrtype_res (q_rrtype q) (fst e))); [reflexivity|].
    intros e He. apply filter_In in He. destruct He as [He Pe]. eapply rrtype_decided; eauto.
  - apply (decided_good _ (fun e => rdata_name_res (fst e))); [reflexivity|].
    intros e He. apply filter_In in He. destruct He as [He Pe].
    destruct (rdata_of _ _ _ HF He (HB e He Pe)) as (ow & ty & hd & tl & o & _ & _ & A & B & _ & D & E & _).
    rewrite (rdata_name_res_rdata ow ty hd tl) by (auto; lia). apply yes_no_decided.
Qed.

Lemma namep_spec : forall q ow ty hd tl o e, encodes (RData ow ty hd tl o) e -> name_type_param_ok q ->
  (namep q e = true <-> bears_name ty /\ type_ok q ty).
Proof.
  intros q ow ty hd tl o e (_ & A & B & _ & D & E & _) HT. unfold namep, type_ok.
  rewrite (rrtype_res_rdata (q_rrtype q) ow ty hd tl) by (auto; lia).
  rewrite (rdata_name_res_rdata ow ty hd tl) by (auto; lia). rewrite !matched_yes_no.
  destruct (q_do_rrtype q) eqn:ED.
  - rewrite N.eqb_eq. split; [intros ->; split; auto|intros [_ H]; auto].
  - rewrite name_type_all_spec. split; [intro H; split; [exact H|discriminate]|tauto].
Qed.

(** [wire x] at the head of the data. *)
Lemma rdata_prefix_name : forall name n extra ow ty hd key, name_ok name -> name_ok n ->
  rdata_key ow ty hd (wire n ++ extra) key -> (is_prefix (ENTRY_TYPE_RDATA :: wire name) key = true <-> n = name).
Proof.
  intros name n extra ow ty hd key [Hn _] [Hm _] (t & _ & ->). rewrite cons_prefix, <- app_assoc.
  apply wire_prefix; assumption.
Qed.

Lemma rdata_prefix_labels : forall x n extra ow ty hd key, Forall label_ok x -> name_ok n ->
  rdata_key ow ty hd (wire n ++ extra) key -> (is_prefix (ENTRY_TYPE_RDATA :: enc_labels x) key = true <-> exists y, n = x ++ y).
Proof.
  intros x n extra ow ty hd key Hx [Hm _] (t & _ & ->). rewrite cons_prefix, <- app_assoc. apply enc_prefix; assumption.
Qed.

Lemma is_prefix_app_l : forall a b l, is_prefix (a ++ b) l = true -> is_prefix a l = true.
Proof. intros a b l H. apply prefix_iff in H. destruct H as (s & ->). rewrite <- app_assoc. apply is_prefix_app. Qed.

(** The key built for one name. *)
Definition name_key (q : query) (name : list bytes) : bytes :=
  ENTRY_TYPE_RDATA :: wire name ++ (if q_do_rrtype q && name_type_standalone (q_rrtype q) then varint_encode32 (q_rrtype q) else []).

Lemma name_key_spec : forall q name recs ow ty hd tl o e, names_canonical recs -> In (RData ow ty hd tl o) recs ->
  encodes (RData ow ty hd tl o) e -> name_ok name -> name_type_param_ok q ->
  (is_prefix (name_key q name) (fst e) && namep q e = true <->
   (exists extra, tl = wire name ++ extra) /\ bears_name ty /\ type_ok q ty).
Proof.
  intros q name recs ow ty hd tl o e HC Hin HE Hn HT. rewrite andb_true_iff, (namep_spec q ow ty hd tl o e HE HT).
  pose proof HE as (_ & Ho & Hty & Hob & Hlen & HK & HV). split.
  - intros [HP [HB HTy]]. split; [|auto]. destruct (HC ow ty hd tl o Hin HB) as (n & extra & Hnn & -> & _).
    unfold name_key in HP. rewrite app_comm_cons in HP. apply is_prefix_app_l in HP.
    apply (rdata_prefix_name name n extra ow ty hd) in HP; auto. subst. eauto.
  - intros [(extra & ->) [HB HTy]]. split; [|auto]. destruct (HC ow ty hd _ o Hin HB) as (n & extra' & Hnn & E & HO).
    apply wire_prefix_inj in E; [|apply Hn|apply Hnn]. destruct E as [<- <-].
    destruct HK as (t & Ht & EK). rewrite EK. unfold name_key. rewrite cons_prefix. rewrite <- app_assoc.
    rewrite prefix_app_head. destruct (q_do_rrtype q && name_type_standalone (q_rrtype q)) eqn:ES; [|reflexivity].
    apply andb_prop in ES. destruct ES as [ED ES]. specialize (HTy ED). subst ty. apply name_type_standalone_spec in ES.
    rewrite (HO ES). cbn [app]. destruct (bears_name_small _ HB) as [HS _].
    rewrite (leb128_det _ _ _ Ht (encode32_leb128 (q_rrtype q) ltac:(unfold u32; lia))). apply is_prefix_app.
Qed.

Lemma name_key_add : forall q name, name_type_param_ok q ->
  (if q_do_rrtype q && name_type_standalone (q_rrtype q) then add_rrtype_to_key (ENTRY_TYPE_RDATA :: wire name) (q_rrtype q)
   else Ok (ENTRY_TYPE_RDATA :: wire name)) = Ok (name_key q name).
Proof.
  intros q name HT. unfold name_key. destruct (q_do_rrtype q) eqn:ED; cbn [andb].
  - destruct (name_type_standalone (q_rrtype q)); [|rewrite app_nil_r; reflexivity].
    unfold add_rrtype_to_key, WDNS_TYPE_ANY. destruct (bears_name_small _ (HT ED)) as [_ H].
    destruct (N.eqb_spec (q_rrtype q) 255); [contradiction|]. reflexivity.
  - rewrite app_nil_r. reflexivity.
Qed.

Lemma named_rdata_plan : forall q t recs name, database recs t -> q_type q = QRdataName ->
  asks_name q name -> not_left_wild name -> not_right_wild name -> name_type_param_ok q -> names_canonical recs ->
  direct_plan q t recs (named_rdata q name).
Proof.
  intros q t recs name HDb HQ [HN Hn] HL HR HT HC. pose proof HDb as [HF HS].
  assert (EI : forall src idx, query_init q src idx =
    Ok {| p_key := name_key q name; p_key2 := None;
          p_source := SFilter StRrtype (if q_do_rrtype q then filter_rrtype q else filter_rrtype_rdata_name) src; p_index := None |}).
  { intros src idx. unfold query_init, init_rdata_name. rewrite HQ. unfold name_data. rewrite HN.
    rewrite left_wild_none, right_wild_none by assumption. rewrite (name_key_add q name HT). reflexivity. }
  pose proof (EI (if is_timed q then STimeout (SBase t) else SBase t) (if is_timed q then STimeout (SBase t) else SBase t)) as EI'.
  eapply (direct_planned q t recs _ (fun e => is_prefix (name_key q name) (fst e) && namep q e) _ (_, None) _ EI').
  - reflexivity.
  - cbn [src_timeout]. apply base_timeout.
  - eapply picks_name; [exact HF|apply picks_base_t; exact HS|]. intros e _ Pe. eapply prefix_first; eauto.
  - intros e He Pe. apply andb_prop in Pe. destruct Pe as [Pe _]. apply (timed_rr recs t e HF He). right. eapply prefix_first; eauto.
  - intros r e Hr HE. destruct r as [|ow ty hd tl o| | |]; cbn [named_rdata];
      try (split; [intro H; not_first H HE|tauto]).
    pose proof HE as (_ & Ho & Hty & Hob & Hlen & HK & HV). rewrite andb_true_iff, (timep_spec q e o Hob HV).
    rewrite (name_key_spec q name recs ow ty hd tl o e) by assumption. tauto.
  - intros r _ HM. destruct r; cbn in *; tauto.
Qed.
Lemma named_rdata_ok : forall q t recs name, database recs t -> q_type q = QRdataName ->
  asks_name q name -> not_left_wild name -> not_right_wild name -> name_type_param_ok q -> names_canonical recs ->
  returns q t recs (named_rdata q name).
Proof. intros. apply direct_returns; [assumption|]. eapply named_rdata_plan; eauto. Qed.

(** ** Right wildcards *)

Lemma name_after_plan : forall q t recs c x, database recs t -> q_type q = QRdataName ->
  c = star \/ c = plus -> asks_name q (x ++ [[c]]) -> name_type_param_ok q -> names_canonical recs ->
  direct_plan q t recs (name_after q c x).
Proof.
  intros q t recs c x HDb HQ Hc [HN Hn] HT HC. pose proof HDb as [HF HS].
  assert (Hx : Forall label_ok x) by (destruct Hn as [Hn _]; apply Forall_app in Hn; tauto).
  set (K := ENTRY_TYPE_RDATA :: enc_labels x).
  assert (EI : forall src idx, query_init q src idx =
    Ok {| p_key := K; p_key2 := None;
          p_source := filter_set_cond (c =? plus) StSingleLabel (filter_single_label (length K))
                        (SFilter StRrtype (if q_do_rrtype q then filter_rrtype q else filter_rrtype_rdata_name) src); p_index := None |}).
  { intros src idx. unfold query_init, init_rdata_name. rewrite HQ. unfold name_data. rewrite HN.
    rewrite right_wild_some by assumption. unfold init_rdata_right_wildcard, name_data. rewrite HN.
    rewrite wire_snoc. change (blen [c] :: [c] ++ [0]) with [1; c; 0]. rewrite firstn_drop3. reflexivity. }
  pose proof (EI (if is_timed q then STimeout (SBase t) else SBase t) (if is_timed q then STimeout (SBase t) else SBase t)) as EI'.
  eapply (direct_planned q t recs _ (fun e => is_prefix K (fst e) && namep q e && labelp (c =? plus) (length K) e) _ (_, None) _ EI').
  - reflexivity.
  - rewrite cond_timeout. cbn [src_timeout]. apply base_timeout.
  - eapply picks_label; [exact HF| |discriminate|reflexivity|].
    + eapply picks_name; [exact HF|apply picks_base_t; exact HS|]. intros e _ Pe. eapply prefix_first; eauto.
    + intros e _ Pe. apply andb_prop in Pe. destruct Pe as [Pe _]. exact Pe.
  - intros e He Pe. apply andb_prop in Pe. destruct Pe as [Pe _]. apply andb_prop in Pe. destruct Pe as [Pe _].
    apply (timed_rr recs t e HF He). right. eapply prefix_first; eauto.
  - intros r e Hr HE. destruct r as [|ow ty hd tl o| | |]; cbn [name_after];
      try (split; [intro H; not_first H HE|tauto]).
    pose proof HE as (_ & Ho & Hty & Hob & Hlen & HK & HV). rewrite !andb_true_iff, (timep_spec q e o Hob HV), (namep_spec q ow ty hd tl o e HE HT).
    assert (GL : forall y extra, name_ok (x ++ y) -> tl = wire (x ++ y) ++ extra ->
      is_prefix K (fst e) = true /\ (labelp (c =? plus) (length K) e = true <-> (c = plus -> length y = 1%nat))).
    { intros y extra Hxy ->. split; [unfold K; apply (rdata_prefix_labels x (x ++ y) extra ow ty hd); eauto|].
      destruct HK as (t' & _ & EK). unfold labelp. rewrite EK, <- app_assoc. destruct (N.eqb_spec c plus) as [->|NE]; cbn [negb orb].
      - unfold K. destruct Hxy as [Hxy _]. apply Forall_app in Hxy. rewrite single_label_name by tauto. rewrite Nat.eqb_eq. tauto.
      - split; [congruence|auto]. }
    split.
    + intros [[[HP [HB HTy]] L] F]. split; [|auto]. destruct (HC ow ty hd tl o Hr HB) as (n & extra & Hnn & E & _). subst tl.
      apply (rdata_prefix_labels x n extra ow ty hd) in HP; auto. destruct HP as (y & ->). exists y, extra.
      split; [exact Hnn|]. split; [reflexivity|]. apply (GL y extra Hnn eq_refl). exact L.
    + intros ((y & extra & Hxy & E & L) & HB & HTy & F). destruct (GL y extra Hxy E) as [A B].
      refine (conj (conj (conj A (conj HB HTy)) _) F). apply B. exact L.
  - intros r _ HM. destruct r; cbn in *; tauto.
Qed.
Lemma name_after_ok : forall q t recs c x, database recs t -> q_type q = QRdataName ->
  c = star \/ c = plus -> asks_name q (x ++ [[c]]) -> name_type_param_ok q -> names_canonical recs ->
  returns q t recs (name_after q c x).
Proof. intros. apply direct_returns; [assumption|]. eapply name_after_plan; eauto. Qed.

(** ** Left wildcards *)

Lemma rdata_index_unique : forall recs t n m m', Forall2 encodes recs t -> strict t ->
  In (RdataIndex n m) recs -> In (RdataIndex n m') recs -> m = m'.
Proof.
  intros recs t ow m m' HF HS H1 H2.
  destruct (encodes_in _ _ _ HF H1) as (x & Hx & _ & _ & Ex). destruct (encodes_in _ _ _ HF H2) as (y & Hy & _ & _ & Ey).
  assert (E : x = y) by (apply (strict_same t); auto; subst; reflexivity). subst. congruence.
Qed.

Lemma name_lookup_key : forall q n m, name_ok n -> name_type_param_ok q -> (q_do_rrtype q = true -> index_safe m (q_rrtype q)) ->
  exists b, index_lookup_key q ENTRY_TYPE_RDATA (rdata_name_key n) m = Ok (if b : bool then Some (name_key q n) else None) /\
    ((q_do_rrtype q = true -> lists_type m (q_rrtype q)) -> b = true).
Proof.
  intros q n m [Ho Hl] HT HS. unfold index_lookup_key.
  assert (EN : wdns_reverse_name (skipn 1 (rdata_name_key n)) (blen (rdata_name_key n) - 1) = Ok (wire n)).
  { unfold rdata_name_key. cbn [skipn]. replace (blen (ENTRY_TYPE_RDATA_NAME_REV :: rwire n) - 1) with (N.of_nat (length (wire n))) by (unfold blen; cbn [length]; rewrite length_rwire; lia).
    rewrite <- (app_nil_r (rwire n)). apply reverse_rwire. exact Ho. }
  pose proof (name_key_add q n HT) as EA.
  destruct (q_do_rrtype q) eqn:ED.
  - destruct (bears_name_small _ (HT ED)) as [T1 T2]. rewrite N.mod_small by (unfold u16; lia).
    destruct (index_test_ok ENTRY_TYPE_RDATA m (q_rrtype q)) as (b & Eb & Hb); auto.
    exists b. rewrite Eb. cbn [bind]. destruct b; cbn [negb]; [|split; [reflexivity|auto]].
    rewrite EN. cbn [bind]. change (ENTRY_TYPE_RDATA =? ENTRY_TYPE_RRSET) with false. cbn [andb orb] in *.
    destruct (name_type_standalone (q_rrtype q)); [rewrite EA; cbn [bind]; split; [reflexivity|auto]|].
    split; [|auto]. injection EA as EA. rewrite EA. reflexivity.
  - exists true. cbn [bind negb]. rewrite EN. cbn [bind andb] in *. split; [injection EA as EA; rewrite EA; reflexivity|auto].
Qed.

(** The names in the data of [recs] are indexed by [recsi]. *)
Definition rdata_names_in (recs recsi : list record) : Prop :=
  forall ow ty head n extra o, In (RData ow ty head (wire n ++ extra) o) recs -> name_ok n -> bears_name ty ->
    exists m, In (RdataIndex n m) recsi /\ lists_type m ty.

Lemma name_below_plan : forall q t ti recs recsi c x, database recs t -> database recsi ti -> strict ti -> q_type q = QRdataName ->
  c = star \/ c = plus -> asks_name q ([c] :: x) -> not_right_wild ([c] :: x) -> name_type_param_ok q -> names_canonical recs ->
  rdata_names_in recs recsi -> rdata_index_safe q recsi ->
  indirect_plan q t ti recs recsi (below_index c x) names_it (name_below q c x).
Proof.
  intros q t ti recs recsi c x HDb HDi HSt HQ Hc [HN Hn] HNR HT HC HOI HOS. pose proof HDb as [HF HS]. pose proof HDi as [HFi HSi].
  pose proof (name_ok_cons _ _ Hn) as [_ Hxn]. pose proof (proj1 Hxn) as Hx.
  set (K := ENTRY_TYPE_RDATA_NAME_REV :: enc_labels (rev x)).
  set (base := if is_timed q then STimeout (SBase t) else SBase t).
  assert (EI : forall src idx, query_init q src idx =
    Ok {| p_key := K; p_key2 := None;
          p_source := SFilter StRrtype (if q_do_rrtype q then filter_rrtype q else filter_rrtype_rdata_name) src;
          p_index := Some (ENTRY_TYPE_RDATA, open (HPrefix K) (filter_set_cond (c =? plus) StSingleLabel (filter_single_label (length K)) idx)) |}).
  { intros src idx. unfold query_init, init_rdata_name. rewrite HQ. unfold name_data. rewrite HN.
    rewrite right_wild_none by assumption. rewrite left_wild_some by assumption. unfold init_rdata_left_wildcard, name_data. rewrite HN.
    rewrite wire_cons. cbn [app length skipn Nat.sub]. rewrite Nat.sub_0_r.
    rewrite reverse_buf_wire by assumption. cbn [bind]. rewrite rwire_init. reflexivity. }
  set (src := SFilter StRrtype (if q_do_rrtype q then filter_rrtype q else filter_rrtype_rdata_name) base).
  set (G := fun x e : kv => match index_lookup_key q ENTRY_TYPE_RDATA (fst x) (snd x) with
     | Ok (Some fk) => is_prefix fk (fst e) && namep q e && timep q e | _ => false end).
  eapply (indirect_planned q t ti recs recsi _ _ _ src ENTRY_TYPE_RDATA K _ (fun e => is_prefix K (fst e) && labelp (c =? plus) (length K) e) G (EI _ _)).
  - unfold src. cbn [src_timeout]. apply base_timeout.
  - rewrite cond_timeout. apply base_timeout.
  - eapply picks_label; [exact HFi|apply picks_base_t; exact HSi|discriminate|reflexivity|]. intros e _ Pe. exact Pe.
  - intros h e Hh HE. destruct h as [| | |n m|]; cbn [below_index];
      try (split; [intro H; not_first H HE|tauto]).
    destruct HE as (_ & Ho & ->). cbn [fst]. unfold K. rewrite andb_true_iff. unfold rdata_name_key. rewrite cons_prefix.
    rewrite <- (app_nil_r (rwire n)) at 1. unfold rwire at 1. rewrite enc_prefix by (apply Forall_rev; (exact Hx || exact (proj1 Ho))).
    assert (GL : forall y, n = y ++ x -> (labelp (c =? plus) (length (ENTRY_TYPE_RDATA_NAME_REV :: enc_labels (rev x))) (ENTRY_TYPE_RDATA_NAME_REV :: rwire n, m) = true <-> (c = plus -> length y = 1%nat))).
    { intros y ->. unfold labelp. cbn [fst]. destruct (N.eqb_spec c plus) as [->|NE]; cbn [negb orb].
      - rewrite <- (app_nil_r (rwire (y ++ x))). unfold rwire. rewrite rev_app_distr. destruct Ho as [Ho _]. apply Forall_app in Ho.
        rewrite single_label_name by (apply Forall_rev; tauto). rewrite rev_length, Nat.eqb_eq. tauto.
      - split; [congruence|auto]. }
    assert (RV : (exists more, rev n = rev x ++ more) <-> exists y, n = y ++ x).
    { split.
      - intros (more & E). exists (rev more). rewrite <- (rev_involutive n), E, rev_app_distr, rev_involutive. reflexivity.
      - intros (y & ->). exists (rev y). apply rev_app_distr. }
    rewrite RV. split.
    + intros ((y & Ey) & L). exists y. split; [exact Ey|]. apply (GL y Ey). exact L.
    + intros (y & Ey & L). split; [exists y; exact Ey|]. apply (GL y Ey). exact L.
  - intros h e Hh Hin HE Ih. destruct h as [| | |n m|]; try contradiction. destruct HE as (_ & Ho & ->).
    destruct (name_lookup_key q n m Ho HT (fun D => HOS D n m Hh)) as (b & Eb & _). unfold group_plan. cbn [fst snd]. rewrite Eb.
    destruct b.
    + right. eexists. eexists. split; [reflexivity|].
      split; [|split; [|intros e' He'; unfold G; cbn [fst snd]; rewrite Eb; reflexivity]].
      * eapply picks_name; [exact HF|apply picks_base_t; exact HS|]. intros e _ Pe. eapply prefix_first; eauto.
      * intros e He Pe. apply andb_prop in Pe. destruct Pe as [Pe _].
        apply (timed_rr recs t e HF He). right. eapply prefix_first; eauto.
    + left. split; [reflexivity|]. apply filter_nil. intros e _. unfold G. cbn [fst snd]. rewrite Eb. reflexivity.
  - intros h e r e' Hh HE Ih Hr HE'. destruct h as [| | |n m|]; try contradiction. destruct HE as (_ & Ho & ->).
    destruct (name_lookup_key q n m Ho HT (fun D => HOS D n m Hh)) as (b & Eb & HbT). unfold G. cbn [fst snd]. rewrite Eb.
    destruct r as [|ow ty hd tl o| | |]; cbn [names_it name_below];
      try (split; [intro H; destruct b; [not_first H HE'|discriminate]|tauto]).
    pose proof HE' as (_ & _ & _ & Hob & _ & HK & HV).
    assert (EQ : is_prefix (name_key q n) (fst e') && namep q e' && timep q e' = true <->
      (exists extra, tl = wire n ++ extra) /\ bears_name ty /\ type_ok q ty /\ in_fence q o).
    { rewrite andb_true_iff, (timep_spec q e' o Hob HV), (name_key_spec q n recs ow ty hd tl o e') by assumption. tauto. }
    cbn [below_index] in Ih. destruct Ih as (y & Ey & Ly).
    destruct b.
    + rewrite EQ. split; [|tauto]. intros (X & B & T & F). split; [exact X|]. split; [|auto]. destruct X as (extra & X).
      exists y, extra. rewrite <- Ey. auto.
    + split; [discriminate|]. intros ((extra & ->) & _ & HB & T & _). exfalso. assert (false = true); [|discriminate]. apply HbT.
      intro D. destruct (HOI ow ty hd n extra o Hr Ho HB) as (m' & Hm' & HL).
      rewrite (rdata_index_unique recsi ti n m m' HFi HSt Hh Hm'). rewrite <- (T D). exact HL.
  - intros r Hr HM. destruct r as [|ow ty hd tl o| | |]; try contradiction. split; [exact I|].
    destruct HM as ((y & extra & Hn' & -> & Ly) & HB & _).
    destruct (HOI ow ty hd (y ++ x) extra o Hr Hn' HB) as (m & Hm & _). exists (RdataIndex (y ++ x) m). split; [exact Hm|].
    split; cbn; eauto.
  - intros h h' r e e' Ih Ih' B B' HE HE'. destruct h as [| | |n m|]; try contradiction. destruct h' as [| | |n2 m2|]; try contradiction.
    destruct r as [|ow ty hd tl o| | |]; try contradiction. destruct B as (ex1 & B). destruct B' as (ex2 & B'). subst tl.
    destruct HE as (_ & [H1 _] & ->). destruct HE' as (_ & [H2 _] & ->).
    apply wire_prefix_inj in B'; auto. destruct B' as [-> _]. reflexivity.
Qed.
Lemma name_below_ok : forall q t recs c x, database recs t -> strict t -> q_type q = QRdataName ->
  c = star \/ c = plus -> asks_name q ([c] :: x) -> not_right_wild ([c] :: x) -> name_type_param_ok q -> names_canonical recs ->
  rdata_names_indexed recs -> rdata_index_safe q recs ->
  returns_grouped q t recs (below_index c x) names_it (name_below q c x).
Proof. intros. apply indirect_returns; [assumption..|]. eapply name_below_plan; eauto. Qed.

(** ** Raw data *)

Lemma raw_rdata_plan : forall q t recs raw, database recs t -> q_type q = QRdataRaw ->
  q_rdata q = Some raw -> q_len_rdata q = blen raw ->
  direct_plan q t recs (raw_rdata q raw).
Proof.
  intros q t recs raw HDb HQ HR HL. pose proof HDb as [HF HS].
  assert (EI : forall src idx, query_init q src idx =
    Ok {| p_key := ENTRY_TYPE_RDATA :: raw; p_key2 := None;
          p_source := filter_set_cond (q_do_rrtype q) StRrtype (filter_rrtype q) src; p_index := None |}).
  { intros src idx. unfold query_init, init_rdata_raw. rewrite HQ, HR, HL, N.ltb_irrefl.
    replace (N.to_nat (blen raw)) with (length raw) by (unfold blen; lia). rewrite firstn_all. reflexivity. }
  pose proof (EI (if is_timed q then STimeout (SBase t) else SBase t) (if is_timed q then STimeout (SBase t) else SBase t)) as EI'.
  eapply (direct_planned q t recs _ (fun e => is_prefix (ENTRY_TYPE_RDATA :: raw) (fst e) && typep q e) _ (_, None) _ EI').
  - reflexivity.
  - rewrite cond_timeout. apply base_timeout.
  - eapply picks_type; [exact HF|apply picks_base_t; exact HS|]. intros e _ Pe. right. eapply prefix_first; eauto.
  - intros e He Pe. apply andb_prop in Pe. destruct Pe as [Pe _]. apply (timed_rr recs t e HF He). right. eapply prefix_first; eauto.
  - intros r e Hr HE. destruct r as [|ow ty hd tl o| | |]; cbn [raw_rdata];
      try (split; [intro H; not_first H HE|tauto]).
    pose proof HE as (_ & Ho & Hty & Hob & Hlen & HK & HV). rewrite !andb_true_iff, (timep_spec q e o Hob HV), (typep_rdata q ow ty hd tl o e HE).
    rewrite prefix_iff. destruct HK as (t1 & Ht1 & EK). split.
    + intros [[(s & E) T] F]. split; [|auto]. exists s. exists t1. split; [exact Ht1|]. rewrite <- EK. symmetry. exact E.
    + intros ((rest & t2 & Ht2 & E2) & T & F). refine (conj (conj _ T) F). exists rest. rewrite EK.
      rewrite (leb128_det _ _ _ Ht1 Ht2). symmetry. exact E2.
  - intros r _ HM. destruct r; cbn in *; tauto.
Qed.
Lemma raw_rdata_ok : forall q t recs raw, database recs t -> q_type q = QRdataRaw ->
  q_rdata q = Some raw -> q_len_rdata q = blen raw ->
  returns q t recs (raw_rdata q raw).
Proof. intros. apply direct_returns; [assumption|]. eapply raw_rdata_plan; eauto. Qed.
