(** Queries over a set of files, merged, that are driven by an index. *)
From Coq Require Import Permutation.
From Verif Require Import Base BaseFacts ModelVarint VarintProofs ModelMerge SpecMerge MergeProofs PropsMerge ModelWdns SpecName NameFacts.
From Verif Require Import ModelEntry SpecEntry EntryProofs PropsEntry ModelUnion SpecUnion ModelIter SpecIter IterProofs PropsIter.
From Verif Require Import UnionProofs UnionBuild UnionMerge PropsUnion ModelQuery SpecQuery KeyProofs FilterProofs QueryProofs SelectProofs RRsetQueries IndexProofs RightWildcard RdataQueries IpProofs IpQueries Demo PropsQuery.
From Verif Require Import ModelReader ModelSetters ModelFileset SpecFileset FilesetProofs FilesetQueries FilesetDirect.

(** ** Merged index values *)

Lemma merged_types : forall key tr m, union_key key -> Forall (fun v => v = [] \/ union_valid v) (mleaves tr) -> meval key tr = Ok m ->
  (m = [] \/ union_valid m) /\ forall v ty, In v (mleaves tr) -> lists_type v ty -> lists_type m ty.
Proof.
  intros key tr. induction tr as [v|a IHa b IHb]; intros m HU HF HE.
  - cbn [meval mleaves] in *. injection HE as <-. split; [inversion HF; assumption|]. intros v' ty [<-|[]] H. exact H.
  - cbn [meval mleaves] in *. apply Forall_app in HF. destruct HF as [Fa Fb].
    destruct (meval key a) as [ma| | | |] eqn:Ea; try discriminate. destruct (meval key b) as [mb| | | |] eqn:Eb; try discriminate.
    cbn [bind] in HE. destruct (IHa ma HU Fa eq_refl) as [Va La]. destruct (IHb mb HU Fb eq_refl) as [Vb Lb].
    assert (HM : (m = [] \/ union_valid m) /\ forall ty, lists_type ma ty \/ lists_type mb ty -> lists_type m ty).
    { destruct Va as [->|Va]; [rewrite (proj1 (merge_index_empty_absorbs key mb HU)) in HE; injection HE as <-; unfold lists_type; auto|].
      destruct Vb as [->|Vb]; [rewrite (proj2 (merge_index_empty_absorbs key ma HU)) in HE; injection HE as <-; unfold lists_type; auto|].
      destruct (list_eq_dec N.eq_dec ma mb) as [->|NE].
      - rewrite (merge_index_same key mb HU) in HE. injection HE as <-. tauto.
      - destruct (union_of_two_exists ma mb Va Vb) as (u & Hu & HUm).
        pose proof (proj1 (merge_index_completes_iff key ma mb u HU Va Vb NE Hu HUm) (ex_intro _ m HE)) as HLt.
        rewrite (merge_index_is_union key ma mb u HU Va Vb NE Hu HUm HLt) in HE. injection HE as <-.
        assert (HV : union_valid u) by (destruct Hu as (ws & A & B & ->); apply uv_map; assumption).
        split; [right; exact HV|]. intros ty [[->|[_ H]]|[->|[_ H]]].
        + exfalso. apply (union_valid_nonempty _ Va). reflexivity.
        + right. split; [exact HV|]. apply HUm. left. exact H.
        + exfalso. apply (union_valid_nonempty _ Vb). reflexivity.
        + right. split; [exact HV|]. apply HUm. right. exact H. }
    destruct HM as [HM1 HM2]. split; [exact HM1|]. intros v ty Hv Hl. apply HM2. apply in_app_or in Hv. destruct Hv; [left|right]; eauto.
Qed.

(** ** What a query asks for does not depend on what merging changes *)

Lemma grouped_same : forall q recs I B M, (forall o, in_fence q o) -> asks_grouped q recs I B M ->
  (forall h h', same_fields h h' -> I h -> I h') /\
  (forall h h' r r', same_fields h h' -> same_fields r r' -> B h r -> B h' r') /\
  (forall r r', same_fields r r' -> M r -> M r') /\ (forall r, M r -> shown r).
Proof.
  intros q recs I B M HF [c x bw H|c x H]; clear H.
  - split; [|split; [|split]].
    + intros [] [] S H; cbn in *; try contradiction. subst. exact H.
    + intros [] [] [] [] S S' H; cbn in *; try contradiction. destruct S' as (-> & _). congruence.
    + intros [] [] S H; cbn in *; try contradiction. destruct S as (-> & -> & -> & ->). pose proof (HF o0). tauto.
    + intros [] H; cbn in *; tauto.
  - split; [|split; [|split]].
    + intros [] [] S H; cbn in *; try contradiction. subst. exact H.
    + intros [] [] [] [] S S' H; cbn in *; try contradiction. destruct S' as (-> & -> & -> & ->). subst. exact H.
    + intros [] [] S H; cbn in *; try contradiction. destruct S as (-> & -> & -> & ->). pose proof (HF o0). tauto.
    + intros [] H; cbn in *; tauto.
Qed.

Lemma grouped_unbounded : forall q recs I B M, asks_grouped q recs I B M ->
  exists M0, asks_grouped (without_bounds q) recs I B M0 /\ fences q M0 M.
Proof.
  intros q recs I B M H. destruct (asks_grouped_core q recs I B M H) as (M0 & HF & HC).
  destruct (HC (without_bounds q)) as (Mw & HA & HFw); [repeat split; reflexivity|]. exists Mw. split; [exact HA|].
  intro r. rewrite (HF r), (HFw r). pose proof (without_bounds_fence q r). tauto.
Qed.

(** The parts of an index-driven query over a source [t] and an index [ti] of other
    records than those [asks_grouped] speaks of. *)
Lemma grouped_parts : forall q recs0 I B M t ti recs recsi, asks_grouped q recs0 I B M ->
  database recs t -> database recsi ti -> strict ti -> covered recs recs0 ->
  owners_in recs recsi -> rdata_names_in recs recsi ->
  (q_do_rrtype q = true -> forall n m, In (OwnerIndex n m) recsi \/ In (RdataIndex n m) recsi -> index_safe m (q_rrtype q)) ->
  indirect_plan q t ti recs recsi I B M.
Proof.
  intros q recs0 I B M t ti recs recsi [c x bw A1 A2 A3 A4 A5 A6 A7 A8|c x A1 A2 A3 A4 A5 A6 A7 A8] HD HDi HS HC HO HR HSafe.
  - apply after_rrset_plan; auto. intros D n m H. eapply HSafe; eauto.
  - apply name_below_plan; auto; [eapply canonical_covered; eauto|]. intros D n m H. eapply HSafe; eauto.
Qed.

(** A bound added. *)
Lemma indirect_bounded : forall q t ti recs recsi I B M0 M src tb K idxsrc Pidx G, fences q M0 M ->
  Forall2 encodes recs t -> (forall r, M0 r -> shown r) ->
  indirect_parts (without_bounds q) t ti recs recsi I B M0 src tb K idxsrc Pidx G ->
  indirect_parts q t ti recs recsi I B M src tb K idxsrc Pidx (fun x e => G x e && timep q e).
Proof.
  intros q t ti recs recsi I B M0 M src tb K idxsrc Pidx G HF HE HSh (HI & HT & HTi & HP & HPI & HLp & HG & HC & HU).
  split; [exact HI|]. split; [exact HT|]. split; [exact HTi|]. split; [exact HP|]. split; [exact HPI|]. split; [|split; [|split]].
  - intros h x Hh Hx He Ih. destruct (HLp h x Hh Hx He Ih) as [[E EN]|(fk & P & E & HPk & HTE & EG)].
    + left. split; [exact E|]. rewrite <- filter_and, EN. reflexivity.
    + right. exists fk, P. split; [exact E|]. split; [exact HPk|]. split; [exact HTE|]. intros e He'. cbv beta. rewrite (EG e He'), timep_unbounded, andb_true_r. reflexivity.
  - intros h x r e Hh Hx Ih Hr He. rewrite andb_true_iff, (HG h x r e Hh Hx Ih Hr He), (HF r).
    split; intros H.
    + destruct H as [[A C] D]. split; [exact A|]. split; [exact C|]. apply (fenced_timep q r e He (HSh r C)). exact D.
    + destruct H as [A [C D]]. split; [split; assumption|]. apply (fenced_timep q r e He (HSh r C)). exact D.
  - intros r Hr Mr. apply (HF r) in Mr. apply HC; tauto.
  - exact HU.
Qed.

(** ** Groups over an index and a part of it *)

Lemma concat_part : forall (f : bytes -> table) a b, strict a -> strict b ->
  (forall x, In x b -> has_key (fst x) a) -> (forall x, In x a -> ~ has_key (fst x) b -> f (fst x) = []) ->
  concat (map (fun x => f (fst x)) a) = concat (map (fun x => f (fst x)) b).
Proof.
  intros f a. induction a as [|x a IH]; intros b Sa Sb H1 H2.
  - destruct b as [|y b]; [reflexivity|]. destruct (H1 y (or_introl eq_refl)) as (v & []).
  - inversion Sa as [|? ? Sa' Fa]; subst. rewrite Forall_forall in Fa. cbn [map concat].
    destruct (key_in (fst x) b) eqn:KI.
    + apply key_in_true in KI. destruct KI as (v & Hv). destruct b as [|y b]; [destruct Hv|].
      inversion Sb as [|? ? Sb' Fb]; subst. rewrite Forall_forall in Fb.
      assert (EY : fst y = fst x).
      { destruct Hv as [->|Hv]; [reflexivity|]. destruct (H1 y (or_introl eq_refl)) as (w & [E|Hw]); [rewrite E; reflexivity|].
        specialize (Fa _ Hw). specialize (Fb _ Hv). cbn [fst] in *. exfalso.
        pose proof (blt_trans _ _ _ Fa Fb) as C. rewrite blt_irrefl in C. discriminate. }
      cbn [map concat]. rewrite EY. f_equal. apply IH; auto.
      * intros z Hz. destruct (H1 z (or_intror Hz)) as (w & [E|Hw]); [|exists w; exact Hw].
        exfalso. specialize (Fb z Hz). rewrite EY, E in Fb. cbn [fst] in Fb. rewrite blt_irrefl in Fb. discriminate.
      * intros z Hz HN. apply H2; [right; exact Hz|]. intros (w & [E|Hw]); [|apply HN; exists w; exact Hw].
        specialize (Fa z Hz). rewrite <- EY, E in Fa. cbn [fst] in Fa. rewrite blt_irrefl in Fa. discriminate.
    + apply key_in_false in KI. rewrite (H2 x (or_introl eq_refl) KI). cbn [app]. apply IH; auto.
      * intros z Hz. destruct (H1 z Hz) as (w & [E|Hw]); [|exists w; exact Hw].
        exfalso. apply KI. exists (snd z). rewrite E. cbn [fst]. rewrite <- surjective_pairing. exact Hz.
      * intros z Hz HN. apply H2; [right; exact Hz|exact HN].
Qed.

(** ** The index of merged files *)

Section Index.
  Variables (files : list table) (recss : list (list record)) (part : list table) (t : table) (recs : list record).
  Hypothesis HDB : Forall2 database recss files.
  Hypothesis HIdx : Forall indexed recss.
  Hypothesis HPart : forall f, In f part -> In f files.
  Hypothesis HM : merged_from part t.
  Hypothesis HD : database recs t.

  Lemma owner_entry : forall r ow m k v, encodes (OwnerIndex ow m) (k, m) -> encodes r (k, v) -> r = OwnerIndex ow v.
  Proof.
    intros r ow m k v H H'. pose proof (key_fields _ _ _ _ _ H H') as HS. destruct r; try contradiction. cbn in HS. subst.
    destruct H' as (_ & _ & E). injection E as _ ->. reflexivity.
  Qed.
  Lemma rdata_entry : forall r n m k v, encodes (RdataIndex n m) (k, m) -> encodes r (k, v) -> r = RdataIndex n v.
  Proof.
    intros r n m k v H H'. pose proof (key_fields _ _ _ _ _ H H') as HS. destruct r; try contradiction. cbn in HS. subst.
    destruct H' as (_ & _ & E). injection E as _ ->. reflexivity.
  Qed.

  Lemma index_value : forall k, union_key k ->
    (forall f v, In f part -> In (k, v) f -> v = [] \/ union_valid v) ->
    forall f v ty, In f part -> In (k, v) f -> lists_type v ty -> exists m, In (k, m) t /\ lists_type m ty.
  Proof.
    intros k HU HV f v ty Hf Hin HL. destruct HM as (_ & HK & HVal).
    assert (Hk : has_key k t) by (apply HK; exists f; split; [exact Hf|exists v; exact Hin]).
    destruct Hk as (m & Hm). exists m. split; [exact Hm|]. destruct (HVal k m Hm) as (tr & HP & HE).
    eapply (merged_types k tr m HU); [|exact HE| |exact HL].
    - apply Forall_forall. intros x Hx. apply (Permutation_in _ HP) in Hx. apply values_in in Hx. destruct Hx as (f' & A & B). eauto.
    - apply (Permutation_in _ (Permutation_sym HP)). apply values_in. eauto.
  Qed.

  Lemma owner_indexed : forall f k v v' ow ty bw rs o, In f part -> In (k, v) f -> encodes (RRset ow ty bw rs o) (k, v') ->
    exists m, In (OwnerIndex ow m) recs /\ lists_type m ty.
  Proof.
    intros f k v v' ow ty bw rs o Hf Hin HE. destruct (stored_record files recss HDB f k v (HPart f Hf) Hin) as (recf & r & Hrf & Hr & HDf & HEr).
    pose proof (key_fields _ _ _ _ _ HE HEr) as HS. destruct r as [ow' ty' bw' rs' o'| | | |]; try contradiction. destruct HS as (<- & <- & <- & <-).
    rewrite Forall_forall in HIdx. destruct (HIdx recf Hrf) as (HO & _ & _). destruct (HO ow ty bw rs o' Hr) as (m & Hm & HL).
    destruct (encodes_in _ _ _ (proj1 HDf) Hm) as ([k1 v1] & He1 & HE1). pose proof HE1 as (_ & Hn & E). injection E as -> ->.
    destruct (index_value (rrset_name_key ow)) with (f := f) (v := m) (ty := ty) as (m2 & Hm2 & HL2); auto.
    - exists (wire ow). left. reflexivity.
    - intros f2 v2 Hf2 Hin2. destruct (stored_record files recss HDB f2 _ v2 (HPart f2 Hf2) Hin2) as (recf2 & r2 & Hrf2 & Hr2 & _ & HEr2).
      rewrite (owner_entry r2 ow m _ v2 HE1 HEr2) in Hr2. destruct (HIdx recf2 Hrf2) as (_ & _ & HV). apply (HV ow v2). left. exact Hr2.
    - exists m2. split; [|exact HL2]. destruct (in_encodes _ _ _ (proj1 HD) Hm2) as (r3 & Hr3 & HE3). rewrite (owner_entry r3 ow m _ m2 HE1 HE3) in Hr3. exact Hr3.
  Qed.

  Lemma name_indexed : forall f k v v' ow ty hd0 n extra o, In f part -> In (k, v) f -> encodes (RData ow ty hd0 (wire n ++ extra) o) (k, v') ->
    name_ok n -> bears_name ty -> exists m, In (RdataIndex n m) recs /\ lists_type m ty.
  Proof.
    intros f k v v' ow ty hd0 n extra o Hf Hin HE Hn HB. destruct (stored_record files recss HDB f k v (HPart f Hf) Hin) as (recf & r & Hrf & Hr & HDf & HEr).
    pose proof (key_fields _ _ _ _ _ HE HEr) as HS. destruct r as [|ow' ty' hd' tl' o'| | |]; try contradiction. destruct HS as (<- & <- & <- & <-).
    rewrite Forall_forall in HIdx. destruct (HIdx recf Hrf) as (_ & HO & _). destruct (HO ow ty hd0 n extra o' Hr Hn HB) as (m & Hm & HL).
    destruct (encodes_in _ _ _ (proj1 HDf) Hm) as ([k1 v1] & He1 & HE1). pose proof HE1 as (_ & _ & E). injection E as -> ->.
    destruct (index_value (rdata_name_key n)) with (f := f) (v := m) (ty := ty) as (m2 & Hm2 & HL2); auto.
    - exists (rwire n). right. reflexivity.
    - intros f2 v2 Hf2 Hin2. destruct (stored_record files recss HDB f2 _ v2 (HPart f2 Hf2) Hin2) as (recf2 & r2 & Hrf2 & Hr2 & _ & HEr2).
      rewrite (rdata_entry r2 n m _ v2 HE1 HEr2) in Hr2. destruct (HIdx recf2 Hrf2) as (_ & _ & HV). apply (HV n v2). right. exact Hr2.
    - exists m2. split; [|exact HL2]. destruct (in_encodes _ _ _ (proj1 HD) Hm2) as (r3 & Hr3 & HE3). rewrite (rdata_entry r3 n m _ m2 HE1 HE3) in Hr3. exact Hr3.
  Qed.

  (** Records [recs'] whose keys are in files of the part are indexed. *)
  Lemma part_indexed : forall recs' t', Forall2 encodes recs' t' -> (forall k v, In (k, v) t' -> exists f, In f part /\ has_key k f) ->
    owners_in recs' recs /\ rdata_names_in recs' recs.
  Proof.
    intros recs' t' HF HK. split.
    - intros ow ty bw rs o Hin. destruct (encodes_in _ _ _ HF Hin) as ([k v] & He & HE). destruct (HK k v He) as (f & Hf & v2 & Hv2).
      eapply owner_indexed; eauto.
    - intros ow ty hd0 n extra o Hin Hn HB. destruct (encodes_in _ _ _ HF Hin) as ([k v] & He & HE). destruct (HK k v He) as (f & Hf & v2 & Hv2).
      eapply name_indexed; eauto.
  Qed.

  Lemma part_own_indexed : owners_in recs recs /\ rdata_names_in recs recs.
  Proof. apply (part_indexed recs t (proj1 HD)). intros k v H. apply HM. exists v. exact H. Qed.
End Index.

Lemma safe_records : forall lib q files P part recs, parts_index_safe lib q files -> selects P files part -> database recs (lib_merged lib part) ->
  q_do_rrtype q = true -> forall n m, In (OwnerIndex n m) recs \/ In (RdataIndex n m) recs -> index_safe m (q_rrtype q).
Proof.
  intros lib q files P part recs HS HP HD D n m [H|H]; destruct (encodes_in _ _ _ (proj1 HD) H) as (e & He & _ & _ & ->);
    eapply (HS D P part HP _ _ He); [left|right]; reflexivity.
Qed.

Lemma covered_refl : forall recs, covered recs recs.
Proof. intros recs r H. exists r. split; [exact H|]. destruct r; cbn; auto. Qed.
Lemma covered_trans : forall a b c, covered a b -> covered b c -> covered a c.
Proof.
  intros a b c H H' r Hr. destruct (H r Hr) as (r1 & H1 & S1). destruct (H' r1 H1) as (r2 & H2 & S2). exists r2. split; [exact H2|].
  destruct r, r1, r2; cbn in *; try contradiction; intuition congruence.
Qed.

(** ** The query *)

Section Grouped.
  Variables (lib : libmtbl) (files : list table) (recss : list (list record)) (q : query).
  Hypothesis HLib : merges lib files.
  Hypothesis HOK : Forall file_ok files.
  Hypothesis HDB : Forall2 database recss files.
  Hypothesis HIdx : Forall indexed recss.
  Hypothesis HSafe : parts_index_safe lib q files.
  Hypothesis HAgg : q_aggregated q = true.
  Let Ta := lib_merged lib files.

  Lemma grouped_listed : forall t recs I B M src tb K idxsrc Pidx G es, Forall2 encodes recs t ->
    indirect_parts q t t recs recs I B M src tb K idxsrc Pidx G -> decodes (concat (walked t t Pidx G)) es ->
    lists q (dnstable_query_iter q t) es.
  Proof.
    intros t recs I B M src tb K idxsrc Pidx G es HF (HI & HT & HTi & HP & HPI & HLp & HG & HC & HU) HD.
    unfold dnstable_query_iter, query_iter_common. rewrite HI. cbn [bind p_key p_key2 p_source p_index]. rewrite stack_no_fence.
    eapply (indirect_lists q (stack0 q src) tb _ (filter Pidx t) (walked t t Pidx G) es); try reflexivity.
    - apply open_R. exact HP.
    - rewrite has_timeout_open, HTi. auto.
    - rewrite stack0_timeout, HT. auto.
    - apply Forall2_map_r. intros x Hx. apply filter_In in Hx. destruct Hx as [Hx Px]. destruct (in_encodes _ _ _ HF Hx) as (h & Hh & He).
      apply group_looked. apply (HLp h x); auto. apply (HPI h x); auto.
    - exact HD.
  Qed.

  (** The query may be judged by any records with the fields of those stored. *)
  Theorem fileset_grouped_over : forall recs0 I B M, covered (concat recss) recs0 -> asks_grouped q recs0 I B M ->
    exists recs heads outs all es, database recs Ta /\ covered recs (concat recss) /\
      selects I recs heads /\
      Forall2 (fun h out => selects (fun r => B h r /\ M r) recs out) heads outs /\
      selects M recs all /\ Permutation (concat outs) all /\ Forall2 shows (concat outs) es /\
      lists q (dnstable_query_iter_fileset lib q files) es /\ lists q (dnstable_query_iter q Ta) es.
  Proof.
    intros recs0 I B M HC0 HA. destruct (grouped_unbounded q _ I B M HA) as (M0 & HA0 & HFn).
    destruct (grouped_same _ _ _ _ _ (fence_unbounded q) HA0) as (SI & SB & SM & SSh).
    pose proof (all_merged lib files HLib) as Ma. fold Ta in Ma.
    destruct (merged_database files recss HDB files Ta (fun f H => H) Ma) as (recs & HDa & HCa).
    destruct (part_own_indexed files recss files Ta recs HDB HIdx (fun f H => H) Ma HDa) as (OIa & RIa).
    destruct (grouped_parts (without_bounds q) _ I B M0 Ta Ta recs recs HA0 HDa HDa (proj1 Ma) (covered_trans _ _ _ HCa HC0) OIa RIa) as (srca & tba & Ka & ixa & Pa & Ga & HPa).
    { exact (safe_records lib q files _ files recs HSafe (selects_all _ files) HDa). }
    pose proof (indirect_bounded q Ta Ta recs recs I B M0 M srca tba Ka ixa Pa Ga HFn (proj1 HDa) SSh HPa) as HPb.
    destruct (indirect_walked _ _ _ _ _ _ _ _ _ _ _ _ _ _ (proj1 HDa) (proj1 HDa) (proj1 Ma) HPb) as (heads & outs & es & all & H1 & H2 & H3 & H4 & H5 & _ & _ & HD).
    exists recs, heads, outs, all, es. split; [exact HDa|]. split; [exact HCa|]. do 5 (split; [assumption|]).
    assert (HB : lists q (dnstable_query_iter q Ta) es) by (eapply grouped_listed; eauto; apply HDa). split; [|exact HB].
    unfold dnstable_query_iter_fileset. destruct (fates_found q files HOK) as (l & EF & EL & HF). rewrite EF. cbn [bind]. rewrite HAgg. cbn [andb].
    destruct (has_time_bound q) eqn:ET.
    2:{ cbn [andb]. rewrite (all_kept q l ET HF), EL. exact HB. }
    pose proof (with_merged lib files q HLib HOK l Keep EL HF) as Mk. pose proof (with_merged lib files q HLib HOK l Fill EL HF) as Mf.
    set (Tk := lib_merged lib (files_with Keep l)) in *. set (Tf := lib_merged lib (files_with Fill l)) in *. cbn [andb].
    assert (KF : forall f, In f (files_with Keep l) -> In f files) by (intros f H; exact (files_with_in_files l files Keep f EL H)).
    destruct (merged_database files recss HDB (files_with Keep l) Tk KF Mk) as (reck & HDk & HCk).
    destruct (part_own_indexed files recss (files_with Keep l) Tk reck HDB HIdx KF Mk HDk) as (OIk & RIk).
    destruct (grouped_parts (without_bounds q) _ I B M0 Tk Tk reck reck HA0 HDk HDk (proj1 Mk) (covered_trans _ _ _ HCk HC0) OIk RIk) as (src & tb & K & ixs & Pk & Gk & HPk).
    { refine (safe_records lib q files (fun f => exists r, time_range f r /\ fate_for q r = Keep) (files_with Keep l) reck HSafe _ HDk).
      rewrite <- EL. apply files_with_selects; [rewrite EL; apply (strict_files files HOK)|exact HF]. }
    destruct HPa as (_ & _ & _ & _ & HPIa & HLpa & HGa & HCa' & HUa).
    destruct HPk as (HI & HT & HTi & HP & HPI & HLp & HG & HC & HU).
    set (idxa := filter Pa Ta) in *. set (idxk := filter Pk Tk) in *.
    assert (Sa : strict idxa) by (apply strict_filter; apply Ma). assert (Sk : strict idxk) by (apply strict_filter; apply Mk).
    set (f := fun k => match lookup k idxa with Some v => filter (fun e => Ga (k, v) e && timep q e) Ta | None => [] end).
    (* the entry of all files for one of the kept files *)
    assert (KA : forall k v, In (k, v) idxk -> exists h v' h', In h reck /\ encodes h (k, v) /\ I h /\ In (k, v) Tk /\
      In (k, v') idxa /\ In h' recs /\ encodes h' (k, v') /\ I h' /\ same_fields h h').
    { intros k v Hin. apply filter_In in Hin. destruct Hin as [Hin Px]. destruct (in_encodes _ _ _ (proj1 HDk) Hin) as (h & Hh & He).
      assert (Ih : I h) by (apply (HPI h (k, v)); auto).
      destruct (key_kept_all files l Tk Ta EL Mk Ma k) as (v' & Hv'); [exists v; exact Hin|].
      destruct (in_encodes _ _ _ (proj1 HDa) Hv') as (h' & Hh' & He'). pose proof (key_fields h h' k v v' He He') as HS.
      assert (Ih' : I h') by (apply (SI h h'); auto).
      exists h, v', h'. do 4 (split; [assumption|]). split; [|auto]. apply filter_In. split; [exact Hv'|]. apply (HPIa h' (k, v')); auto. }
    (* an entry of all files within the bounds, and its counterpart in the kept files *)
    assert (EK : forall k v, In (k, v) Ta -> (exists x, In x idxa /\ Ga x (k, v) = true) -> timep q (k, v) = true ->
      exists r r' v', In r reck /\ encodes r (k, v') /\ In (k, v') Tk /\ In r' recs /\ encodes r' (k, v) /\ same_fields r r' /\ M0 r /\ M0 r').
    { intros k v He (x & Hx & Gx) Ht. destruct (in_encodes _ _ _ (proj1 HDa) He) as (r' & Hr' & HE').
      apply filter_In in Hx. destruct Hx as [Hx Px]. destruct (in_encodes _ _ _ (proj1 HDa) Hx) as (h & Hh & HEh).
      assert (Ih : I h) by (apply (HPIa h x); auto). destruct (proj1 (HGa h x r' (k, v) Hh HEh Ih Hr' HE') Gx) as [_ Mr'].
      pose proof (SSh r' Mr') as Sh. pose proof (proj2 (timed_record r' k v HE') Sh) as Hk.
      destruct (merged_obs k files Ta v Hk (observed_all files HOK k Hk) Ma He) as (o & Ho & _).
      pose proof (proj1 (timep_spec q (k, v) o (proj1 Ho) (proj2 Ho)) Ht) as Fe.
      destruct (fence_kept q files l Tk Ta HOK EL HF Mk Ma k v o Hk He Ho Fe) as (v' & o' & Hv' & _ & _).
      destruct (in_encodes _ _ _ (proj1 HDk) Hv') as (r & Hr & HE). pose proof (key_fields r r' k v' v HE HE') as HS.
      exists r, r', v'. do 6 (split; [assumption|]). split; [|exact Mr']. apply (SM r' r); [apply same_sym; exact HS|exact Mr']. }
    assert (EC : concat (walked Ta Ta Pa (fun x e => Ga x e && timep q e)) = concat (map (fun x : kv => f (fst x)) idxk)).
    { transitivity (concat (map (fun x : kv => f (fst x)) idxa)); [|apply (concat_part f idxa idxk Sa Sk)].
      - f_equal. unfold walked. fold idxa. apply map_ext_in. intros [k v] Hx. unfold f. cbn [fst]. rewrite (lookup_some k v idxa Sa Hx). reflexivity.
      - intros [k v] Hx. destruct (KA k v Hx) as (_ & v' & _ & _ & _ & _ & _ & H & _). exists v'. exact H.
      - intros [k v] Hx HN. unfold f. cbn [fst] in *. rewrite (lookup_some k v idxa Sa Hx). apply filter_nil. intros [k2 v2] He.
        destruct (Ga (k, v) (k2, v2) && timep q (k2, v2)) eqn:EG; [|reflexivity]. exfalso. apply HN. apply andb_prop in EG. destruct EG as [EG1 EG2].
        destruct (EK k2 v2 He (ex_intro _ _ (conj Hx EG1)) EG2) as (r & r' & v' & Hr & HE & Hv' & Hr' & HE' & HS & Mr & Mr').
        destruct (HC r Hr Mr) as (_ & h & Hh & Ih & Bh). destruct (encodes_in _ _ _ (proj1 HDk) Hh) as ([k3 v3] & He3 & HE3).
        pose proof Hx as Hx'. apply filter_In in Hx. destruct Hx as [Hx Px]. destruct (in_encodes _ _ _ (proj1 HDa) Hx) as (h' & Hh' & HEh').
        assert (Ih' : I h') by (apply (HPIa h' (k, v)); auto). destruct (proj1 (HGa h' (k, v) r' (k2, v2) Hh' HEh' Ih' Hr' HE') EG1) as [Bh' _].
        assert (SR : same_fields h h) by (apply (key_fields h h k3 v3 v3); assumption).
        pose proof (HU h h' r' (k3, v3) (k, v) Ih Ih' (SB h h r r' SR HS Bh) Bh' HE3 HEh') as E. cbn [fst] in E. subst k3.
        exists v3. apply filter_In. split; [exact He3|]. apply (HPI h (k, v3)); auto. }
    unfold query_iter_common. rewrite init_unbounded in HI. change (is_timed (without_bounds q)) with (is_timed q) in HI, HT, HTi. rewrite HI.
    cbn [bind p_key p_key2 p_source p_index]. rewrite stack_fenced. rewrite EC in HD.
    eapply (indirect_lists q _ tb _ idxk (map (fun x : kv => f (fst x)) idxk) es); try reflexivity.
    - apply open_R. exact HP.
    - rewrite has_timeout_open, HTi. auto.
    - rewrite stackF_timeout, HT. auto.
    - apply Forall2_map_r. intros [k v] Hx. destruct (KA k v Hx) as (h & v' & h' & Hh & He & Ih & Hin & Ha & Hh' & He' & Ih' & HS).
      unfold f. cbn [fst]. rewrite (lookup_some k v' idxa Sa Ha).
      assert (GP : forall k2 v2 r, In r reck -> encodes r (k2, v2) -> (Gk (k, v) (k2, v2) = true <-> B h r /\ M0 r)) by (intros; apply HG; auto).
      assert (GPa : forall k2 v2 r, In r recs -> encodes r (k2, v2) -> (Ga (k, v') (k2, v2) = true <-> B h' r /\ M0 r)) by (intros; apply HGa; auto).
      assert (GG : forall k2 v2 v2', In (k2, v2) Tk -> In (k2, v2') Ta -> Gk (k, v) (k2, v2) = Ga (k, v') (k2, v2')).
      { intros k2 v2 v2' E1 E2. destruct (in_encodes _ _ _ (proj1 HDk) E1) as (r & Hr & HE). destruct (in_encodes _ _ _ (proj1 HDa) E2) as (r' & Hr' & HE').
        pose proof (key_fields r r' k2 v2 v2' HE HE') as HS2. apply eq_true_iff_eq. rewrite (GP k2 v2 r Hr HE), (GPa k2 v2' r' Hr' HE').
        split; intros [X Y]; split.
        - apply (SB h h' r r'); auto.
        - apply (SM r r'); auto.
        - apply (SB h' h r' r); auto; apply same_sym; assumption.
        - apply (SM r' r); auto; apply same_sym; assumption. }
      destruct (HLp h (k, v) Hh Hin He Ih) as [[ELk EN]|(fk & P & ELk & HPick & HTE & EG)].
      + left. split; [exact ELk|]. apply filter_nil. intros [k2 v2] He2.
        destruct (Ga (k, v') (k2, v2) && timep q (k2, v2)) eqn:E; [|reflexivity]. exfalso. apply andb_prop in E. destruct E as [E1 E2].
        destruct (EK k2 v2 He2 (ex_intro _ _ (conj Ha E1)) E2) as (r & r' & v2' & Hr & HE & Hv2 & _).
        assert (X : In (k2, v2') (filter (Gk (k, v)) Tk)) by (apply filter_In; split; [exact Hv2|]; rewrite (GG k2 v2' v2 Hv2 He2); exact E1).
        rewrite EN in X. destruct X.
      + right. exists fk. split; [exact ELk|].
        eapply (fenced_den q files l Tk Tf Ta HOK EL HF Mk Mf Ma (HPrefix fk) src P (Ga (k, v')) ET HPick).
        * intros [k2 v2] He2 Pe. destruct (in_encodes _ _ _ (proj1 HDk) He2) as (r & Hr & HE). apply (timed_record r k2 v2 HE). apply SSh.
          apply (GP k2 v2 r Hr HE). rewrite (EG (k2, v2) He2), Pe. reflexivity.
        * intros [k2 v2] He2 Pe. destruct (in_encodes _ _ _ (proj1 HDa) He2) as (r & Hr & HE). apply (timed_record r k2 v2 HE). apply SSh.
          apply (GPa k2 v2 r Hr HE). exact Pe.
        * intros k2 v2 v2' E1 E2. rewrite <- (GG k2 v2 v2' E1 E2), (EG (k2, v2) E1), timep_unbounded, andb_true_r. reflexivity.
    - exact HD.
  Qed.

  Theorem fileset_grouped : forall I B M, asks_grouped q (concat recss) I B M ->
    exists recs heads outs all es, database recs Ta /\ covered recs (concat recss) /\
      selects I recs heads /\
      Forall2 (fun h out => selects (fun r => B h r /\ M r) recs out) heads outs /\
      selects M recs all /\ Permutation (concat outs) all /\ Forall2 shows (concat outs) es /\
      lists q (dnstable_query_iter_fileset lib q files) es /\ lists q (dnstable_query_iter q Ta) es.
  Proof. intros I B M. apply fileset_grouped_over. apply covered_refl. Qed.
End Grouped.
