(** Queries over a set of files: what the merged part of the files that a query goes
    on with has to do with all of them. *)
From Coq Require Import Permutation.
From Verif Require Import Base BaseFacts ModelVarint VarintProofs ModelMerge SpecMerge MergeProofs PropsMerge ModelWdns SpecName NameFacts.
From Verif Require Import ModelEntry SpecEntry EntryProofs PropsEntry ModelUnion SpecUnion ModelIter SpecIter IterProofs PropsIter.
From Verif Require Import UnionProofs UnionBuild UnionMerge PropsUnion ModelQuery SpecQuery KeyProofs FilterProofs QueryProofs SelectProofs RRsetQueries IndexProofs RightWildcard RdataQueries IpProofs IpQueries Demo PropsQuery.
From Verif Require Import ModelReader ModelSetters ModelFileset SpecFileset FilesetProofs.

(** ** Records of the same key *)

(** Records that differ at most in what merging changes. *)
Definition same_fields (r r' : record) : Prop :=
  match r, r' with
  | RRset ow ty bw rs _, RRset ow' ty' bw' rs' _ => ow = ow' /\ ty = ty' /\ bw = bw' /\ rs = rs'
  | RData ow ty hd tl _, RData ow' ty' hd' tl' _ => ow = ow' /\ ty = ty' /\ hd = hd' /\ tl = tl'
  | OwnerIndex ow _, OwnerIndex ow' _ => ow = ow'
  | RdataIndex n _, RdataIndex n' _ => n = n'
  | Other k _, Other k' _ => k = k'
  | _, _ => False
  end.

Lemma same_sym : forall r r', same_fields r r' -> same_fields r' r.
Proof. intros [] [] H; cbn in *; try contradiction; intuition. Qed.

Lemma key_fields : forall r r' k v v', encodes r (k, v) -> encodes r' (k, v') -> same_fields r r'.
Proof.
  intros r r' k v v' H H'. pose proof (encodes_first _ _ H) as [A _]. pose proof (encodes_first _ _ H') as [A' _].
  unfold first_byte in *. cbn [fst] in *.
  destruct H as [HB H], H' as [HB' H'].
  destruct r as [ow ty bw rs o|ow ty hd0 tl o|ow m|n m|kk vv], r' as [ow' ty' bw' rs' o'|ow' ty' hd' tl' o'|ow' m'|n' m'|kk' vv']; cbn [same_fields fst snd] in *;
    try (exfalso; lia).
  - destruct H as (H1 & H2 & H3 & H4 & H5 & H6), H' as (G1 & G2 & G3 & G4 & G5 & G6).
    destruct (rrset_keys_injective ow ty bw rs ow' ty' bw' rs' k) as (-> & -> & -> & ->); auto.
  - destruct H as (H1 & H2 & H3 & H4 & H5 & H6), H' as (G1 & G2 & G3 & G4 & G5 & G6).
    destruct (rdata_keys_injective ow ty hd0 tl ow' ty' hd' tl' k) as (-> & -> & -> & ->); auto.
  - destruct H as (H1 & H2), H' as (G1 & G2). injection H2 as E _. injection G2 as E' _. rewrite E in E'. injection E' as E'.
    apply wire_inj in E'; [exact E'|apply H1|apply G1].
  - destruct H as (H1 & H2), H' as (G1 & G2). injection H2 as E _. injection G2 as E' _. rewrite E in E'. injection E' as E'.
    assert (E2 : rwire n ++ [] = rwire n' ++ []) by (rewrite !app_nil_r; exact E').
    apply rwire_prefix_inj in E2; [tauto|apply H1|apply G1].
  - destruct H as (H1 & _), H' as (G1 & _). congruence.
Qed.

Lemma timed_record : forall r k v, encodes r (k, v) -> (timed_key k <-> shown r).
Proof.
  intros r k v H. pose proof (encodes_first _ _ H) as [A NE]. unfold first_byte in A. cbn [fst] in *.
  destruct k as [|b k]; [congruence|]. cbn [hd] in A. split.
  - intros (b' & rest & E & Hb). injection E as <- <-. destruct r; cbn [shown]; trivial; lia.
  - intro HS. exists b, k. split; [reflexivity|]. destruct r; cbn [shown] in HS; try contradiction; lia.
Qed.

(** ** What a query asks for does not depend on that *)

Definition covered (recs' recs : list record) : Prop := forall r, In r recs' -> exists r', In r' recs /\ same_fields r r'.

Lemma canonical_covered : forall recs recs', covered recs' recs -> names_canonical recs -> names_canonical recs'.
Proof.
  intros recs recs' HC H ow ty hd0 tl o Hin HB. destruct (HC _ Hin) as (r' & Hr' & HS).
  destruct r' as [|ow' ty' hd' tl' o'| | |]; try contradiction. destruct HS as (-> & -> & -> & ->). eapply H; eauto.
Qed.

Lemma asks_covered : forall q recs recs' M, covered recs' recs -> asks q recs M -> asks q recs' M.
Proof.
  intros q recs recs' M HC H.
  destruct H as [name bw A1 A2 A3 A4 A5 A6|c x bw A1 A2 A3 A4|name A1 A2 A3 A4 A5 A6|c x A1 A2 A3 A4 A5|raw A1 A2 A3|n ty lo hi A1 A2 A3 A4].
  - apply asks_exact_rrset; auto.
  - apply asks_below_rrset; auto.
  - apply asks_named_rdata; auto. eapply canonical_covered; eauto.
  - apply asks_name_after; auto. eapply canonical_covered; eauto.
  - apply asks_raw_rdata; auto.
  - apply (asks_ip_rdata q recs' n); auto.
    + intros ow hd0 tl o Hin. destruct (HC _ Hin) as (r' & Hr' & HS).
      destruct r' as [|ow' ty' hd' tl' o'| | |]; try contradiction. destruct HS as (-> & -> & -> & ->). eapply A3; eauto.
    + intros ow ty' hd0 tl o k Hin HN HK. destruct (HC _ Hin) as (r' & Hr' & HS).
      destruct r' as [|ow2 ty2 hd2 tl2 o2| | |]; try contradiction. destruct HS as (-> & -> & -> & ->). eapply A4; eauto.
Qed.

Lemma asks_same : forall q recs M r r', (forall o, in_fence q o) -> asks q recs M -> same_fields r r' -> M r -> M r'.
Proof.
  intros q recs M r r' HF H HS HM.
  destruct H; destruct r, r'; cbn in HS, HM |- *; try contradiction; destruct HS as (-> & -> & -> & ->);
    repeat match goal with |- context [in_fence q ?o] => pose proof (HF o); generalize dependent (in_fence q o); intros end; tauto.
Qed.

Lemma asks_shown : forall q recs M r, asks q recs M -> M r -> shown r.
Proof. intros q recs M r H HM. destruct H, r; cbn in HM |- *; tauto. Qed.

(** ** Queries without time bounds *)

Lemma init_unbounded : forall q s i, query_init (without_bounds q) s i = query_init q s i.
Proof. intros q s i. reflexivity. Qed.

Lemma timep_unbounded : forall q e, timep (without_bounds q) e = true.
Proof. reflexivity. Qed.

Lemma fence_unbounded : forall q o, in_fence (without_bounds q) o.
Proof. intros q o. unfold in_fence. cbn. repeat split; discriminate. Qed.

Lemma asks_unbounded : forall q recs M, asks q recs M -> exists M0, asks (without_bounds q) recs M0 /\ fences q M0 M.
Proof.
  intros q recs M H. destruct (asks_core q recs M H) as (M0 & HF & HC).
  destruct (HC (without_bounds q)) as (Mw & HA & HFw); [repeat split; reflexivity|]. exists Mw. split; [exact HA|].
  intro r. rewrite (HF r), (HFw r). pose proof (without_bounds_fence q r). tauto.
Qed.

Lemma fenced_timep : forall q r e, encodes r e -> shown r -> (timep q e = true <-> fenced_in q r).
Proof.
  intros q r e (_ & H) HS. destruct r; try contradiction.
  - destruct H as (_ & _ & _ & HO & _ & HV). exact (timep_spec q e o HO HV).
  - destruct H as (_ & _ & HO & _ & _ & HV). exact (timep_spec q e o HO HV).
Qed.

Lemma direct_bounded : forall q t recs M0 M P src K h, direct_parts (without_bounds q) t recs M0 P src K h ->
  fences q M0 M -> direct_parts q t recs M P src K h.
Proof.
  intros q t recs M0 M P src K h (HI & Hh & HT & HP & HTE & HM & HSh) HF.
  split; [exact HI|]. split; [exact Hh|]. split; [exact HT|]. split; [exact HP|]. split; [exact HTE|]. split.
  - intros r e Hr He. rewrite (HF r), <- (HM r e Hr He), andb_true_iff, (timep_unbounded q e), andb_true_r.
    split; intros [A B]; (split; [exact A|]).
    + apply (fenced_timep q r e He); [|exact B]. apply (HSh r Hr), (HM r e Hr He). rewrite A. apply timep_unbounded.
    + apply (fenced_timep q r e He); [|exact B]. apply (HSh r Hr), (HM r e Hr He). rewrite A. apply timep_unbounded.
  - intros r Hr Mr. apply (HF r) in Mr. apply (HSh r Hr). tauto.
Qed.

Lemma asks_parts : forall q t recs M, database recs t -> asks q recs M -> exists P src K h, direct_parts q t recs M P src K h.
Proof.
  intros q t recs M HD [name bw|c x bw|name|c x|raw|n ty lo hi].
  - eapply exact_rrset_plan; eauto.
  - eapply below_rrset_plan; eauto.
  - eapply named_rdata_plan; eauto.
  - eapply name_after_plan; eauto.
  - eapply raw_rdata_plan; eauto.
  - eapply ip_rdata_plan; eauto.
Qed.

Lemma direct_listed : forall q t recs M P src K h es, direct_parts q t recs M P src K h ->
  decodes (filter (fun e => P e && timep q e) t) es -> lists q (dnstable_query_iter q t) es.
Proof.
  intros q t recs M P src K h es (HI & Hh & HT & HP & HTE & HM & HSh) HD.
  unfold dnstable_query_iter, query_iter_common. rewrite HI. cbn [bind p_key p_key2 p_source p_index]. rewrite stack_no_fence.
  eapply (direct_lists q h (stack0 q src) _ es); try reflexivity; cbn [qi_kind].
  - subst h. destruct (snd K); reflexivity.
  - apply picks_stack; eauto.
  - rewrite stack0_timeout, HT. auto.
  - exact HD.
Qed.

(** ** The database of merged files *)

Section Files.
  Variables (files : list table) (recss : list (list record)).
  Hypothesis HDB : Forall2 database recss files.

  Lemma file_records : forall f, In f files -> exists recs, In recs recss /\ database recs f.
  Proof.
    intros f Hf. clear -HDB Hf. induction HDB as [|recs f' recss' files' H HF IH]; [destruct Hf|].
    destruct Hf as [->|Hf]; [exists recs; split; [left; reflexivity|exact H]|]. destruct (IH HF Hf) as (r & A & B). exists r. split; [right; exact A|exact B].
  Qed.

  Lemma stored_record : forall f k v, In f files -> In (k, v) f -> exists recs r, In recs recss /\ In r recs /\ database recs f /\ encodes r (k, v).
  Proof.
    intros f k v Hf Hin. destruct (file_records f Hf) as (recs & A & B). destruct (in_encodes _ _ _ (proj1 B) Hin) as (r & C & D). exists recs, r. auto.
  Qed.

  Lemma observed_files : forall k part, (forall f, In f part -> In f files) -> timed_key k -> observed k part.
  Proof.
    intros k part HI Hk f v Hf Hin. destruct (stored_record f k v (HI f Hf) Hin) as (recs & r & _ & _ & _ & He).
    pose proof (proj1 (timed_record r k v He) Hk) as HS. destruct He as (_ & He). destruct r; try contradiction.
    - destruct He as (_ & _ & _ & HO & _ & HV). exists o. split; assumption.
    - destruct He as (_ & _ & HO & _ & _ & HV). exists o. split; assumption.
  Qed.

  Lemma merged_database : forall part t, (forall f, In f part -> In f files) -> merged_from part t ->
    exists recs, database recs t /\ covered recs (concat recss).
  Proof.
    intros part t HI HM.
    assert (HE : forall e, In e t -> exists r r', encodes r e /\ In r' (concat recss) /\ same_fields r r').
    { intros [k v] He. pose proof HM as (HS & HK & _). assert (Hh : has_key k t) by (exists v; exact He). apply HK in Hh.
      destruct Hh as (f & Hf & v' & Hv'). destruct (stored_record f k v' (HI f Hf) Hv') as (recs & r' & Hrs & Hr' & _ & HE').
      assert (Hc : In r' (concat recss)) by (apply in_concat; eauto).
      pose proof HE' as (HB & HE1). cbn [fst snd] in HB, HE1.
      assert (HOb : shown r' -> exists o, obs_ok o /\ obs_value o v).
      { intro HS'. apply (timed_record _ _ _ HE') in HS'. destruct (merged_obs k part t v HS' (observed_files k part HI HS') HM He) as (o & (A & B) & _). eauto. }
      destruct r' as [ow ty bw rs o|ow ty hd0 tl o|ow m|n m|k' w].
      - destruct (HOb I) as (o' & A & B). exists (RRset ow ty bw rs o'), (RRset ow ty bw rs o). split; [split; [exact HB|]|split; [exact Hc|cbn; auto]].
        cbn [fst snd]. tauto.
      - destruct (HOb I) as (o' & A & B). exists (RData ow ty hd0 tl o'), (RData ow ty hd0 tl o). split; [split; [exact HB|]|split; [exact Hc|cbn; auto]].
        cbn [fst snd]. tauto.
      - exists (OwnerIndex ow v), (OwnerIndex ow m). split; [split; [exact HB|]|split; [exact Hc|reflexivity]].
        destruct HE1 as (A & B). split; [exact A|]. congruence.
      - exists (RdataIndex n v), (RdataIndex n m). split; [split; [exact HB|]|split; [exact Hc|reflexivity]].
        destruct HE1 as (A & B). split; [exact A|]. congruence.
      - exists (Other k v), (Other k' w). destruct HE1 as (A & B). assert (k' = k) by congruence. subst k'.
        split; [split; [exact HB|]|split; [exact Hc|reflexivity]]. split; [reflexivity|exact B]. }
    assert (HR : exists recs, Forall2 encodes recs t /\ covered recs (concat recss)).
    { clear -HE. induction t as [|e t IH]; [exists []; split; [constructor|intros r []]|].
      destruct IH as (recs & A & B); [intros; apply HE; right; assumption|].
      destruct (HE e (or_introl eq_refl)) as (r & r' & C & D & E). exists (r :: recs). split; [constructor; assumption|].
      intros x [<-|Hx]; [exists r'; auto|apply B; exact Hx]. }
    destruct HR as (recs & A & B). exists recs. split; [|exact B]. split; [exact A|]. apply strict_sorted. apply HM.
  Qed.
End Files.
