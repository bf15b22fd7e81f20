(** C69: replacing files of a set by one merged from them. *)
From Coq Require Import Permutation.
From Verif Require Import Base BaseFacts ModelVarint VarintProofs ModelMerge SpecMerge MergeProofs PropsMerge ModelWdns SpecName NameFacts.
From Verif Require Import ModelEntry SpecEntry EntryProofs PropsEntry ModelUnion SpecUnion ModelIter SpecIter IterProofs PropsIter.
From Verif Require Import UnionProofs UnionBuild UnionMerge PropsUnion ModelQuery SpecQuery KeyProofs FilterProofs QueryProofs SelectProofs RRsetQueries IndexProofs RightWildcard RdataQueries IpProofs IpQueries Demo PropsQuery.
From Verif Require Import ModelReader SpecReader PropsReader ModelSetters ModelFileset SpecFileset FilesetProofs FilesetQueries FilesetDirect FilesetGrouped FilesetUnmerged FilesetDemo PropsFileset.
From Verif Require Import SpecCompaction CompactionProofs.

(** ** Sets of files that merge to the same records *)

Lemma alike_direct : forall lib lib' q files files' recss recss' M,
  merges lib files -> merges lib' files' -> Forall file_ok files -> Forall file_ok files' ->
  Forall2 database recss files -> Forall2 database recss' files' -> covered (concat recss') (concat recss) ->
  Forall2 alike (lib_merged lib files) (lib_merged lib' files') -> q_aggregated q = true -> asks q (concat recss) M ->
  exists es, lists q (dnstable_query_iter_fileset lib q files) es /\ lists q (dnstable_query_iter_fileset lib' q files') es /\
    lists q (dnstable_query_iter q (lib_merged lib files)) es /\ lists q (dnstable_query_iter q (lib_merged lib' files')) es.
Proof.
  intros lib lib' q files files' recss recss' M HL HL' HO HO' HD HD' HC HA HG HM.
  destruct (fileset_direct lib files recss q HL HO HD HG M HM) as (recs & out & es & D1 & _ & S1 & W1 & L1 & I1).
  destruct (fileset_direct lib' files' recss' q HL' HO' HD' HG M (asks_covered _ _ _ _ HC HM)) as (recs' & out' & es' & D2 & _ & S2 & W2 & L2 & I2).
  pose proof (nearly_records _ _ _ _ HA (proj1 D1) (proj1 D2)) as HN.
  assert (SH : forall r, M r -> shown r) by (intros r; apply (asks_shown q (concat recss)); exact HM).
  pose proof (nearly_selects M recs recs' out out' SH HN S1 S2) as EO. subst out'.
  assert (ES : es = es').
  { apply (shows_det out); [|exact W1|exact W2]. apply Forall_forall. intros r Hr. apply SH. apply (selects_in _ _ _ _ S1 r Hr). }
  subst es'. exists es. auto.
Qed.

Lemma alike_grouped : forall lib lib' q files files' recss recss' I B M,
  merges lib files -> merges lib' files' -> Forall file_ok files -> Forall file_ok files' ->
  Forall2 database recss files -> Forall2 database recss' files' -> covered (concat recss') (concat recss) ->
  Forall2 alike (lib_merged lib files) (lib_merged lib' files') -> q_aggregated q = true ->
  Forall indexed recss -> Forall indexed recss' -> parts_index_safe lib q files -> parts_index_safe lib' q files' ->
  asks_grouped q (concat recss) I B M ->
  exists es, lists q (dnstable_query_iter_fileset lib q files) es /\ lists q (dnstable_query_iter_fileset lib' q files') es /\
    lists q (dnstable_query_iter q (lib_merged lib files)) es /\ lists q (dnstable_query_iter q (lib_merged lib' files')) es.
Proof.
  intros lib lib' q files files' recss recss' I B M HL HL' HO HO' HD HD' HC HA HG HX HX' HS HS' HM.
  destruct (fileset_grouped lib files recss q HL HO HD HX HS HG I B M HM) as (recs & heads & outs & all & es & D1 & _ & H1 & G1 & A1 & P1 & W1 & L1 & I1).
  destruct (fileset_grouped_over lib' files' recss' q HL' HO' HD' HX' HS' HG (concat recss) I B M HC HM) as (recs' & heads' & outs' & all' & es' & D2 & _ & H2 & G2 & A2 & P2 & W2 & L2 & I2).
  pose proof (nearly_records _ _ _ _ HA (proj1 D1) (proj1 D2)) as HN.
  destruct (grouped_unbounded q _ I B M HM) as (M0 & HA0 & HFn). destruct (grouped_same _ _ _ _ _ (fence_unbounded q) HA0) as (SI & SB & SM & SSh).
  assert (SH : forall r, M r -> shown r) by (intros r Mr; apply SSh; apply (HFn r); exact Mr).
  pose proof (nearly_heads I recs recs' heads heads' SI HN H1 H2) as HH.
  pose proof (nearly_groups B M recs recs' heads heads' outs outs' SH SB HN HH G1 G2) as EO. subst outs'.
  assert (ES : es = es').
  { apply (shows_det (concat outs)); [|exact W1|exact W2]. apply Forall_forall. intros r Hr. apply SH.
    apply (Permutation_in _ P1) in Hr. apply (selects_in _ _ _ _ A1 r Hr). }
  subst es'. exists es. auto.
Qed.

Lemma compacted_ok : forall files part c files', compacted files part c files' -> ranges_alike part -> Forall file_ok files -> Forall file_ok files'.
Proof.
  intros files part c files' [rest P Mc P'] HR HO. rewrite Forall_forall in HO.
  assert (H : Forall file_ok (c :: rest)).
  { constructor.
    - apply (part_merged_ok part c); [|exact HR|exact Mc]. apply Forall_forall. intros f Hf. apply HO. apply (perm_in_iff _ _ _ f P). apply in_or_app. left. exact Hf.
    - apply Forall_forall. intros f Hf. apply HO. apply (perm_in_iff _ _ _ f P). apply in_or_app. right. exact Hf. }
  rewrite Forall_forall in H. apply Forall_forall. intros f Hf. apply H. apply (perm_in_iff _ _ _ f P'). exact Hf.
Qed.

Lemma files_observed : forall files, Forall file_ok files -> forall k, timed_key k -> observed k files.
Proof.
  intros files HO k Hk f v Hf Hin. rewrite Forall_forall in HO. destruct (HO f Hf) as (_ & r & _ & H). destruct (H k v Hin Hk) as (o & A & B & _). exists o. split; assumption.
Qed.

(** * C69 *)

(** A query of the set of files lists the same before and after part of the files have
    been replaced by their merge. *)
Theorem compaction_keeps_results : forall lib lib' q files part c files' recss M,
  merges lib files -> merges lib' files' -> compacted files part c files' -> ranges_alike part ->
  Forall file_ok files -> Forall2 database recss files -> q_aggregated q = true -> asks q (concat recss) M ->
  exists es, lists q (dnstable_reader_query lib (dnstable_reader_init_setfile files) q) es /\
    lists q (dnstable_reader_query lib' (dnstable_reader_init_setfile files') q) es.
Proof.
  intros lib lib' q files part c files' recss M HL HL' HC HR HO HD HG HM.
  destruct (compacted_records files part c files' recss HC HD) as (recss' & HD' & HCv & _).
  destruct (alike_direct lib lib' q files files' recss recss' M HL HL' HO (compacted_ok _ _ _ _ HC HR HO) HD HD' HCv) as (es & A & B & _); auto.
  - apply (compacted_alike files part c files' _ _ HC (files_observed files HO)); [apply (all_merged lib files HL)|apply (all_merged lib' files' HL')].
  - exists es. split; assumption.
Qed.

Theorem compaction_keeps_results_grouped : forall lib lib' q files part c files' recss I B M,
  merges lib files -> merges lib' files' -> compacted files part c files' -> ranges_alike part ->
  Forall file_ok files -> Forall2 database recss files -> q_aggregated q = true ->
  Forall indexed recss -> parts_index_safe lib q files -> parts_index_safe lib' q files' -> asks_grouped q (concat recss) I B M ->
  exists es, lists q (dnstable_reader_query lib (dnstable_reader_init_setfile files) q) es /\
    lists q (dnstable_reader_query lib' (dnstable_reader_init_setfile files') q) es.
Proof.
  intros lib lib' q files part c files' recss I B M HL HL' HC HR HO HD HG HX HS HS' HM.
  destruct (compacted_records files part c files' recss HC HD) as (recss' & HD' & HCv & HX').
  destruct (alike_grouped lib lib' q files files' recss recss' I B M HL HL' HO (compacted_ok _ _ _ _ HC HR HO) HD HD' HCv) as (es & A & B' & _); auto.
  - apply (compacted_alike files part c files' _ _ HC (files_observed files HO)); [apply (all_merged lib files HL)|apply (all_merged lib' files' HL')].
  - exists es. split; assumption.
Qed.

(** The same for the merge of all the files, opened as a single file. *)
Theorem merged_file_results : forall lib q files c recss M,
  merges lib files -> merged_from files c -> Forall file_ok files -> Forall2 database recss files -> q_aggregated q = true ->
  asks q (concat recss) M ->
  exists es, lists q (dnstable_reader_query lib (dnstable_reader_init_setfile files) q) es /\
    lists q (dnstable_reader_query lib (dnstable_reader_init c) q) es.
Proof.
  intros lib q files c recss M HL HC HO HD HG HM.
  destruct (fileset_direct lib files recss q HL HO HD HG M HM) as (recs & out & es & D1 & _ & S1 & W1 & L1 & _).
  destruct (merged_database files recss HD files c (fun f H => H) HC) as (recs' & D2 & HCv).
  destruct (query_returns q c recs' M D2 (asks_covered _ _ _ _ HCv HM)) as (out' & es' & S2 & W2 & L2).
  pose proof (reordered_alike files files _ c (Permutation_refl _) (files_observed files HO) (all_merged lib files HL) HC) as HA.
  pose proof (nearly_records _ _ _ _ HA (proj1 D1) (proj1 D2)) as HN.
  assert (SH : forall r, M r -> shown r) by (intros r; apply (asks_shown q (concat recss)); exact HM).
  pose proof (nearly_selects M recs recs' out out' SH HN S1 S2) as EO. subst out'.
  assert (ES : es = es').
  { apply (shows_det out); [|exact W1|exact W2]. apply Forall_forall. intros r Hr. apply SH. apply (selects_in _ _ _ _ S1 r Hr). }
  subst es'. exists es. split; assumption.
Qed.

(** The merge of all the files, opened as a single file, for queries through an index. *)
Theorem merged_file_results_grouped : forall lib q files c recss I B M,
  merges lib files -> merged_from files c -> Forall file_ok files -> Forall2 database recss files -> q_aggregated q = true ->
  Forall indexed recss -> parts_index_safe lib q files ->
  (q_do_rrtype q = true -> forall k m, In (k, m) c -> hd 0 k = 1 \/ hd 0 k = 3 -> index_safe m (q_rrtype q)) ->
  asks_grouped q (concat recss) I B M ->
  exists es, lists q (dnstable_reader_query lib (dnstable_reader_init_setfile files) q) es /\
    lists q (dnstable_reader_query lib (dnstable_reader_init c) q) es.
Proof.
  intros lib q files c recss I B M HL HC HO HD HG HX HS HSc HM.
  destruct (fileset_grouped lib files recss q HL HO HD HX HS HG I B M HM) as (recs & heads & outs & all & es & D1 & _ & H1 & G1 & A1 & P1 & W1 & L1 & _).
  destruct (grouped_unbounded q _ I B M HM) as (M0 & HA0 & HFn). destruct (grouped_same _ _ _ _ _ (fence_unbounded q) HA0) as (SI & SB & SM & SSh).
  destruct (merged_database files recss HD files c (fun f H => H) HC) as (recs' & D2 & HCv).
  destruct (part_own_indexed files recss files c recs' HD HX (fun f H => H) HC D2) as (OI & RI).
  destruct (grouped_parts (without_bounds q) _ I B M0 c c recs' recs' HA0 D2 D2 (proj1 HC) HCv OI RI) as (src & tb & K & ix & P & G & HP).
  { intros D n m [H|H]; destruct (encodes_in _ _ _ (proj1 D2) H) as (e & He & _ & _ & ->); eapply (HSc D _ _ He); [left|right]; reflexivity. }
  pose proof (indirect_bounded q c c recs' recs' I B M0 M src tb K ix P G HFn (proj1 D2) SSh HP) as HPb.
  destruct (indirect_walked _ _ _ _ _ _ _ _ _ _ _ _ _ _ (proj1 D2) (proj1 D2) (proj1 HC) HPb) as (heads' & outs' & es' & all' & H2 & G2 & A2 & P2 & W2 & _ & _ & HDw).
  assert (L2 : lists q (dnstable_query_iter q c) es') by (eapply grouped_listed; eauto; apply D2).
  pose proof (reordered_alike files files _ c (Permutation_refl _) (files_observed files HO) (all_merged lib files HL) HC) as HA.
  pose proof (nearly_records _ _ _ _ HA (proj1 D1) (proj1 D2)) as HN.
  assert (SH : forall r, M r -> shown r) by (intros r Mr; apply SSh; apply (HFn r); exact Mr).
  pose proof (nearly_heads I recs recs' heads heads' SI HN H1 H2) as HH.
  pose proof (nearly_groups B M recs recs' heads heads' outs outs' SH SB HN HH G1 G2) as EO. subst outs'.
  assert (ES : es = es').
  { apply (shows_det (concat outs)); [|exact W1|exact W2]. apply Forall_forall. intros r Hr. apply SH.
    apply (Permutation_in _ P1) in Hr. apply (selects_in _ _ _ _ A1 r Hr). }
  subst es'. exists es. split; assumption.
Qed.
Print Assumptions merged_file_results_grouped.

(** The order of the files does not matter, nor that in which libmtbl merges. *)
Theorem file_order_irrelevant : forall lib lib' q files files' recss M,
  merges lib files -> merges lib' files' -> Permutation files files' ->
  Forall file_ok files -> Forall2 database recss files -> q_aggregated q = true -> asks q (concat recss) M ->
  exists es, lists q (dnstable_reader_query lib (dnstable_reader_init_setfile files) q) es /\
    lists q (dnstable_reader_query lib' (dnstable_reader_init_setfile files') q) es.
Proof.
  intros lib lib' q files files' recss M HL HL' P HO HD HG HM.
  destruct (perm_records files files' recss HD P) as (recss' & PR & HD').
  assert (HO' : Forall file_ok files') by (rewrite Forall_forall in *; intros f Hf; apply HO; apply (perm_in_iff _ _ _ f P); exact Hf).
  destruct (alike_direct lib lib' q files files' recss recss' M HL HL' HO HO' HD HD' (covered_perm _ _ PR)) as (es & A & B & _); auto.
  - apply (reordered_alike files files' _ _ P (files_observed files HO)); [apply (all_merged lib files HL)|apply (all_merged lib' files' HL')].
  - exists es. split; assumption.
Qed.

Theorem file_order_irrelevant_grouped : forall lib lib' q files files' recss I B M,
  merges lib files -> merges lib' files' -> Permutation files files' ->
  Forall file_ok files -> Forall2 database recss files -> q_aggregated q = true ->
  Forall indexed recss -> parts_index_safe lib q files -> parts_index_safe lib' q files' -> asks_grouped q (concat recss) I B M ->
  exists es, lists q (dnstable_reader_query lib (dnstable_reader_init_setfile files) q) es /\
    lists q (dnstable_reader_query lib' (dnstable_reader_init_setfile files') q) es.
Proof.
  intros lib lib' q files files' recss I B M HL HL' P HO HD HG HX HS HS' HM.
  destruct (perm_records files files' recss HD P) as (recss' & PR & HD').
  assert (HO' : Forall file_ok files') by (rewrite Forall_forall in *; intros f Hf; apply HO; apply (perm_in_iff _ _ _ f P); exact Hf).
  assert (HX' : Forall indexed recss') by (rewrite Forall_forall in *; intros f Hf; apply HX; apply (perm_in_iff _ _ _ f PR); exact Hf).
  destruct (alike_grouped lib lib' q files files' recss recss' I B M HL HL' HO HO' HD HD' (covered_perm _ _ PR)) as (es & A & B' & _); auto.
  - apply (reordered_alike files files' _ _ P (files_observed files HO)); [apply (all_merged lib files HL)|apply (all_merged lib' files' HL')].
  - exists es. split; assumption.
Qed.

(** Without time bounds it does not matter which of the files have a time range, or
    whether it is accurate. *)
Lemma fates_found_range : forall q files, Forall has_range files ->
  exists l, fates q files = Ok l /\ map snd l = files /\
    Forall (fun p => exists r, time_range (snd p) r /\ fst p = fate_for q r) l.
Proof.
  intros q files H. induction H as [|f files (HS & r & HR) H (l & E & EM & HF)].
  - exists []. split; [reflexivity|]. split; [reflexivity|constructor].
  - exists ((fate_for q r, f) :: l). split; [|split; [cbn [map snd]; congruence|constructor; [|exact HF]; exists r; auto]].
    cbn [fates]. unfold reader_time_filter. rewrite (range_found f r HS HR). cbn [bind]. rewrite E.
    destruct r as [[mn mx]|]; reflexivity.
Qed.

Lemma unbounded_merged : forall lib q files, Forall has_range files -> q_aggregated q = true -> has_time_bound q = false ->
  dnstable_query_iter_fileset lib q files = dnstable_query_iter q (lib_merged lib files).
Proof.
  intros lib q files HO HA HT. unfold dnstable_query_iter_fileset. destruct (fates_found_range q files HO) as (l & EF & EL & HF). rewrite EF. cbn [bind]. rewrite HA, HT. cbn [andb].
  rewrite (all_kept q l HT HF), EL. reflexivity.
Qed.

Lemma some_or_none : forall part, Forall has_range part ->
  (exists f mn mx, In f part /\ time_range f (Some (mn, mx))) \/ (forall f, In f part -> time_range f None).
Proof.
  intros part H. induction H as [|f part (_ & [[mn mx]|] & HR) H IH].
  - right. intros f [].
  - left. exists f, mn, mx. split; [left; reflexivity|exact HR].
  - destruct IH as [(g & mn & mx & Hg & X)|IH]; [left; exists g, mn, mx; split; [right; exact Hg|exact X]|right]. intros g [<-|Hg]; auto.
Qed.

Lemma part_has_range : forall part c, Forall has_range part -> merged_from part c -> has_range c.
Proof.
  intros part c HF (HS & HK & HV). split; [exact HS|]. destruct (some_or_none part HF) as [(f0 & mn0 & mx0 & Hf0 & X0)|HN]; rewrite Forall_forall in HF.
  - assert (Hc : has_key [254] c).
    { apply HK. inversion X0 as [? ? v ? ? Hin HPv|]; subst. exists f0. split; [exact Hf0|exists v; exact Hin]. }
    destruct Hc as (v & Hv). destruct (HV _ _ Hv) as (tr & HP & HE).
    destruct (forall_choice _ _ (fun w p => time_range_value w (Some p)) (mleaves tr)) as (ps & Hps).
    { intros w Hw. apply (Permutation_in _ HP) in Hw. apply values_in in Hw. destruct Hw as (f & Hf & Hin). destruct (HF f Hf) as (HSf & r & HR).
      inversion HR as [mn mx w' A B Hw' HPv E|HX E]; [|exfalso; apply (HX _ _ Hin); reflexivity].
      pose proof (value_of_one f [254] w HSf Hin) as E1. rewrite (value_of_one f [254] w' HSf Hw') in E1. injection E1 as ->. exists (mn, mx). split; [exact A|]. split; [exact B|exact HPv]. }
    assert (Hos : Forall2 time_range_value (mleaves tr) (map Some ps)) by (clear -Hps; induction Hps; constructor; auto).
    destruct (merge_time_ranges tr _ Hos) as (_ & Y). destruct (Y ps eq_refl) as (F & L & v' & E & _ & _ & (V1 & V2 & V3)). change [ENTRY_TYPE_TIME_RANGE] with [254] in E. rewrite HE in E. injection E as <-.
    exists (Some (F, L)). exact (tr_some c F L v V1 V2 Hv V3).
  - exists None. apply tr_none. intros k v Hin. assert (Hk : has_key k c) by (exists v; exact Hin). apply HK in Hk. destruct Hk as (f & Hf & w & Hw).
    pose proof (HN f Hf) as X. inversion X as [|HX]; subst. exact (HX k w Hw).
Qed.

Theorem compaction_keeps_results_unbounded : forall lib lib' q files part c files' recss M,
  merges lib files -> merges lib' files' -> compacted files part c files' ->
  Forall has_range files -> Forall2 database recss files -> q_aggregated q = true -> has_time_bound q = false -> asks q (concat recss) M ->
  exists es, lists q (dnstable_reader_query lib (dnstable_reader_init_setfile files) q) es /\
    lists q (dnstable_reader_query lib' (dnstable_reader_init_setfile files') q) es.
Proof.
  intros lib lib' q files part c files' recss M HL HL' HC HO HD HG HT HM. cbn [dnstable_reader_query dnstable_reader_init_setfile r_fs].
  assert (HO' : Forall has_range files').
  { destruct HC as [rest P Mc P']. rewrite Forall_forall in HO.
    assert (H : Forall has_range (c :: rest)).
    { constructor.
      - apply (part_has_range part c); [|exact Mc]. apply Forall_forall. intros f Hf. apply HO. apply (perm_in_iff _ _ _ f P). apply in_or_app. left. exact Hf.
      - apply Forall_forall. intros f Hf. apply HO. apply (perm_in_iff _ _ _ f P). apply in_or_app. right. exact Hf. }
    rewrite Forall_forall in H. apply Forall_forall. intros f Hf. apply H. apply (perm_in_iff _ _ _ f P'). exact Hf. }
  rewrite (unbounded_merged lib q files HO HG HT), (unbounded_merged lib' q files' HO' HG HT).
  destruct (compacted_records files part c files' recss HC HD) as (recss' & HD' & HCv & _).
  destruct (merged_database files recss HD files _ (fun f H => H) (all_merged lib files HL)) as (recs1 & D1 & C1).
  destruct (merged_database files' recss' HD' files' _ (fun f H => H) (all_merged lib' files' HL')) as (recs2 & D2 & C2).
  destruct (query_returns q _ recs1 M D1 (asks_covered _ _ _ _ C1 HM)) as (out & es & S1 & W1 & L1).
  destruct (query_returns q _ recs2 M D2 (asks_covered _ _ _ _ (covered_trans _ _ _ C2 HCv) HM)) as (out' & es' & S2 & W2 & L2).
  assert (HA : Forall2 alike (lib_merged lib files) (lib_merged lib' files')).
  { apply (compacted_alike files part c files' _ _ HC); [|apply (all_merged lib files HL)|apply (all_merged lib' files' HL')].
    intros k Hk. exact (observed_files files recss HD k files (fun f H => H) Hk). }
  pose proof (nearly_records _ _ _ _ HA (proj1 D1) (proj1 D2)) as HN.
  assert (SH : forall r, M r -> shown r) by (intros r; apply (asks_shown q (concat recss)); exact HM).
  pose proof (nearly_selects M recs1 recs2 out out' SH HN S1 S2) as EO. subst out'.
  assert (ES : es = es').
  { apply (shows_det out); [|exact W1|exact W2]. apply Forall_forall. intros r Hr. apply SH. apply (selects_in _ _ _ _ S1 r Hr). }
  subst es'. exists es. split; assumption.
Qed.

Lemma merged_grouped : forall lib q files recss recs0 I B M, merges lib files -> Forall2 database recss files -> Forall indexed recss -> parts_index_safe lib q files ->
  covered (concat recss) recs0 -> asks_grouped q recs0 I B M ->
  exists recs heads outs all es, database recs (lib_merged lib files) /\ covered recs (concat recss) /\ selects I recs heads /\
    Forall2 (fun h out => selects (fun r => B h r /\ M r) recs out) heads outs /\
    selects M recs all /\ Permutation (concat outs) all /\ Forall2 shows (concat outs) es /\ lists q (dnstable_query_iter q (lib_merged lib files)) es.
Proof.
  intros lib q files recss recs0 I B M HL HDB HIdx HSafe HC0 HA. destruct (grouped_unbounded q _ I B M HA) as (M0 & HA0 & HFn).
  destruct (grouped_same _ _ _ _ _ (fence_unbounded q) HA0) as (SI & SB & SM & SSh).
  pose proof (all_merged lib files HL) as Ma. set (Ta := lib_merged lib files) in *.
  destruct (merged_database files recss HDB files Ta (fun f H => H) Ma) as (recs & HDa & HCa).
  destruct (part_own_indexed files recss files Ta recs HDB HIdx (fun f H => H) Ma HDa) as (OIa & RIa).
  destruct (grouped_parts (without_bounds q) _ I B M0 Ta Ta recs recs HA0 HDa HDa (proj1 Ma) (covered_trans _ _ _ HCa HC0) OIa RIa) as (srca & tba & Ka & ixa & Pa & Ga & HPa).
  { exact (safe_records lib q files _ files recs HSafe (selects_all _ files) HDa). }
  pose proof (indirect_bounded q Ta Ta recs recs I B M0 M srca tba Ka ixa Pa Ga HFn (proj1 HDa) SSh HPa) as HPb.
  destruct (indirect_walked _ _ _ _ _ _ _ _ _ _ _ _ _ _ (proj1 HDa) (proj1 HDa) (proj1 Ma) HPb) as (heads & outs & es & all & H1 & H2 & H3 & H4 & H5 & _ & _ & HD).
  exists recs, heads, outs, all, es. split; [exact HDa|]. split; [exact HCa|]. do 5 (split; [assumption|]).
  eapply grouped_listed; eauto; apply HDa.
Qed.

Lemma compacted_ranges : forall files part c files', compacted files part c files' -> Forall has_range files -> Forall has_range files'.
Proof.
  intros files part c files' HC HO. destruct HC as [rest P Mc P']. rewrite Forall_forall in HO.
  assert (H : Forall has_range (c :: rest)).
  { constructor.
    - apply (part_has_range part c); [|exact Mc]. apply Forall_forall. intros f Hf. apply HO. apply (perm_in_iff _ _ _ f P). apply in_or_app. left. exact Hf.
    - apply Forall_forall. intros f Hf. apply HO. apply (perm_in_iff _ _ _ f P). apply in_or_app. right. exact Hf. }
  rewrite Forall_forall in H. apply Forall_forall. intros f Hf. apply H. apply (perm_in_iff _ _ _ f P'). exact Hf.
Qed.

(** The same for queries that go through an index. *)
Theorem compaction_keeps_results_unbounded_grouped : forall lib lib' q files part c files' recss I B M,
  merges lib files -> merges lib' files' -> compacted files part c files' ->
  Forall has_range files -> Forall2 database recss files -> q_aggregated q = true -> has_time_bound q = false ->
  Forall indexed recss -> parts_index_safe lib q files -> parts_index_safe lib' q files' -> asks_grouped q (concat recss) I B M ->
  exists es, lists q (dnstable_reader_query lib (dnstable_reader_init_setfile files) q) es /\
    lists q (dnstable_reader_query lib' (dnstable_reader_init_setfile files') q) es.
Proof.
  intros lib lib' q files part c files' recss I B M HL HL' HC HO HD HG HT HX HS HS' HM. cbn [dnstable_reader_query dnstable_reader_init_setfile r_fs].
  rewrite (unbounded_merged lib q files HO HG HT), (unbounded_merged lib' q files' (compacted_ranges _ _ _ _ HC HO) HG HT).
  destruct (compacted_records files part c files' recss HC HD) as (recss' & HD' & HCv & HX').
  destruct (merged_grouped lib q files recss (concat recss) I B M HL HD HX HS (covered_refl _) HM) as (recs & heads & outs & all & es & D1 & _ & H1 & G1 & A1 & P1 & W1 & L1).
  destruct (merged_grouped lib' q files' recss' (concat recss) I B M HL' HD' (HX' HX) HS' HCv HM) as (recs' & heads' & outs' & all' & es' & D2 & _ & H2 & G2 & A2 & P2 & W2 & L2).
  assert (HA : Forall2 alike (lib_merged lib files) (lib_merged lib' files')).
  { apply (compacted_alike files part c files' _ _ HC); [|apply (all_merged lib files HL)|apply (all_merged lib' files' HL')].
    intros k Hk. exact (observed_files files recss HD k files (fun f H => H) Hk). }
  pose proof (nearly_records _ _ _ _ HA (proj1 D1) (proj1 D2)) as HN.
  destruct (grouped_unbounded q _ I B M HM) as (M0 & HA0 & HFn). destruct (grouped_same _ _ _ _ _ (fence_unbounded q) HA0) as (SI & SB & SM & SSh).
  assert (SH : forall r, M r -> shown r) by (intros r Mr; apply SSh; apply (HFn r); exact Mr).
  pose proof (nearly_heads I recs recs' heads heads' SI HN H1 H2) as HH.
  pose proof (nearly_groups B M recs recs' heads heads' outs outs' SH SB HN HH G1 G2) as EO. subst outs'.
  assert (ES : es = es').
  { apply (shows_det (concat outs)); [|exact W1|exact W2]. apply Forall_forall. intros r Hr. apply SH.
    apply (Permutation_in _ P1) in Hr. apply (selects_in _ _ _ _ A1 r Hr). }
  subst es'. exists es. split; assumption.
Qed.
Print Assumptions compaction_keeps_results_unbounded_grouped.


(** ** Examples *)

(** The first two of the three files merged. *)
Definition first_two : list table := [map put file1; map put file2].
Definition merged_two : table := lib_merged lib0 first_two.
Definition compacted_files : list table := [map put file3; merged_two].

Lemma demo_compacted : compacted demo_files first_two merged_two compacted_files.
Proof.
  apply (compacted_intro _ _ _ _ [map put file3]).
  - apply Permutation_refl.
  - apply (all_merged lib0 first_two). apply merges0. vm_compute. reflexivity.
  - apply perm_swap.
Qed.

Lemma demo_alike : ranges_alike first_two.
Proof.
  left. intros f [<-|[<-|[]]].
  - destruct (demo_file_ok file1 60 250) as (HS & r & HR & _); try (vm_compute; reflexivity); [vm_compute; tauto|]. inversion HR as [mn mx v ? ? ? ? E|HX]; subst; [eauto|].
    exfalso. apply (HX [254] [60; 250; 1]); [vm_compute; tauto|reflexivity].
  - destruct (demo_file_ok file2 100 400) as (HS & r & HR & _); try (vm_compute; reflexivity); [vm_compute; tauto|]. inversion HR as [mn mx v ? ? ? ? E|HX]; subst; [eauto|].
    exfalso. apply (HX [254] [100; 144; 3]); [vm_compute; tauto|reflexivity].
Qed.

Lemma compacted_safe : forall q, q_rrtype q = 1 -> parts_index_safe lib0 q compacted_files.
Proof.
  intros q HQ _ P part HP k m Hm Hk. rewrite HQ.
  assert (C : forallb (fun part => forallb (fun e => negb ((hd 0 (fst e) =? 1) || (hd 0 (fst e) =? 3)) || beq (snd e) [0; 1; 64]) (lib_merged lib0 part)) (sublists compacted_files) = true) by (vm_compute; reflexivity).
  rewrite forallb_forall in C. specialize (C part (selects_sublist _ _ _ _ HP)). rewrite forallb_forall in C. specialize (C _ Hm). cbn [fst snd] in C.
  assert (E : (hd 0 k =? 1) || (hd 0 k =? 3) = true) by (destruct Hk as [-> | ->]; reflexivity). rewrite E in C. cbn [negb orb] in C. apply beq_true in C. subst m.
  apply (one_window_safe 0 [64]); [window_here|discriminate].
Qed.

Example c69_case : merges lib0 demo_files /\ merges lib0 compacted_files /\ compacted demo_files first_two merged_two compacted_files /\
  ranges_alike first_two /\ Forall file_ok demo_files /\ Forall2 database demo_recss demo_files /\ Forall indexed demo_recss /\
  asks Q30 (concat demo_recss) (below_rrset Q30 star_sign [L_ex; L_com] None) /\
  parts_index_safe lib0 Q30i demo_files /\ parts_index_safe lib0 Q30i compacted_files /\
  asks_grouped Q30i (concat demo_recss) (after_index star_sign [L_www]) same_owner (after_rrset Q30i star_sign [L_www] None) /\
  fates Q30 compacted_files = Ok (combine [Remove; Keep] compacted_files) /\
  seen_in 3 Q30 demo_files = [Some (Ok (wire [L_www; L_ex; L_com]), Ok 60, Ok 400, Ok 8); None; None] /\
  seen_in 3 Q30 compacted_files = [Some (Ok (wire [L_www; L_ex; L_com]), Ok 60, Ok 400, Ok 8); None; None].
Proof.
  destruct c30_case as (A & B & C & D & E & F & G & _ & H & _).
  split; [exact A|]. split; [apply merges0; vm_compute; reflexivity|]. split; [apply demo_compacted|]. split; [apply demo_alike|].
  split; [exact B|]. split; [exact C|]. split; [exact E|]. split; [exact D|]. split; [exact F|]. split; [apply compacted_safe; reflexivity|]. split; [exact G|].
  split; [vm_compute; reflexivity|]. split; [exact H|vm_compute; reflexivity].
Qed.

(** ** Files with and without a time range *)

(** A file without a time range entry, as older versions wrote them, is merged with one
    that has it: the merged file has the time range of the latter alone, and is passed
    over although it holds what the query asks for. *)
Definition file_bare : list record :=
  [ RRset [L_mx; L_ex; L_com] 1 [L_ex; L_com] [[10; 0; 0; 2]] (ob 1000 2000 5);
    OwnerIndex [L_mx; L_ex; L_com] [0; 1; 64] ].
Definition mixed_recss := [file1; file_bare].
Definition mixed_files : list table := map (map put) mixed_recss.
Definition Q69 := ask QRrset (Some 1) (Some (wire [[star_sign]; L_ex; L_com])) None None [] [] 0 None None (Some 500) None.

Lemma mixed_ok : Forall file_ok mixed_files.
Proof.
  constructor; [|constructor; [|constructor]].
  - apply (demo_file_ok file1 60 250); try (vm_compute; reflexivity). vm_compute. tauto.
  - split; [apply strictb_ok; vm_compute; reflexivity|]. exists None. split.
    + apply tr_none. intros k v Hin. unfold file_bare in Hin. cbn [map put In] in Hin. destruct Hin as [E|[E|[]]]; injection E as <- _; discriminate.
    + intros k v Hin (b & rest & -> & Hb). unfold file_bare in Hin. cbn [map put In] in Hin. destruct Hin as [E|[E|[]]].
      * injection E as _ _ <-. exists (ob 1000 2000 5). destruct (put_obs_seen (ob 1000 2000 5) eq_refl) as [X Y]. split; [exact X|]. split; [exact Y|]. cbn. split; [lia|exact I].
      * injection E as <- _. destruct Hb; discriminate.
Qed.

Theorem compaction_keeps_results_refuted : exists lib q files part c files' recss M,
  merges lib files /\ merges lib files' /\ compacted files part c files' /\ Forall file_ok files /\ Forall2 database recss files /\
  q_aggregated q = true /\ asks q (concat recss) M /\
  exists qi qi' e, dnstable_reader_query lib (dnstable_reader_init_setfile files) q = Ok qi /\
    dnstable_reader_query lib (dnstable_reader_init_setfile files') q = Ok qi' /\
    get_time_last e = Ok 2000 /\ calls 100 1 qi world0 = [QEntry e] /\ calls 100 1 qi' world0 = [QEnd].
Proof.
  exists lib0, Q69, mixed_files, mixed_files, (lib_merged lib0 mixed_files), [lib_merged lib0 mixed_files], mixed_recss, (below_rrset Q69 star_sign [L_ex; L_com] None).
  assert (HM : merges lib0 mixed_files) by (apply merges0; vm_compute; reflexivity).
  split; [exact HM|]. split; [apply merges0; vm_compute; reflexivity|]. split.
  { apply (compacted_intro _ _ _ _ []); [rewrite app_nil_r; apply Permutation_refl|apply (all_merged lib0 _ HM)|apply Permutation_refl]. }
  split; [apply mixed_ok|]. split; [repeat (constructor; [apply demo_ok; vm_compute; reflexivity|]); constructor|]. split; [reflexivity|]. split.
  { apply asks_below_rrset; auto; split; try reflexivity; apply name_okb_ok; reflexivity. }
  assert (X : match dnstable_reader_query lib0 (dnstable_reader_init_setfile mixed_files) Q69 with
              | Ok qi => match calls 100 1 qi world0 with [QEntry e] => get_time_last e = Ok 2000 | _ => False end | _ => False end) by (vm_compute; reflexivity).
  assert (Y : match dnstable_reader_query lib0 (dnstable_reader_init_setfile [lib_merged lib0 mixed_files]) Q69 with
              | Ok qi => calls 100 1 qi world0 = [QEnd] | _ => False end) by (vm_compute; reflexivity).
  destruct (dnstable_reader_query lib0 (dnstable_reader_init_setfile mixed_files) Q69) as [qi| | | |]; try contradiction.
  destruct (dnstable_reader_query lib0 (dnstable_reader_init_setfile [lib_merged lib0 mixed_files]) Q69) as [qi'| | | |]; try contradiction.
  exists qi, qi'. destruct (calls 100 1 qi world0) as [|[e| | | | |] [|]]; try contradiction. exists e. auto.
Qed.

Print Assumptions compaction_keeps_results.
Print Assumptions compaction_keeps_results_grouped.
Print Assumptions merged_file_results.
Print Assumptions file_order_irrelevant.
Print Assumptions file_order_irrelevant_grouped.
Print Assumptions compaction_keeps_results_unbounded.
Print Assumptions compaction_keeps_results_refuted.

(** The same files and a query through the index without time bounds: nothing is lost. *)
Definition Q69i := ask QRrset None (Some (wire [L_mx; [star_sign]])) None None [] [] 0 None None None None.
Example c69_unbounded_case : merges lib0 mixed_files /\ merges lib0 [lib_merged lib0 mixed_files] /\
  compacted mixed_files mixed_files (lib_merged lib0 mixed_files) [lib_merged lib0 mixed_files] /\ Forall has_range mixed_files /\
  Forall2 database mixed_recss mixed_files /\ q_aggregated Q69i = true /\ has_time_bound Q69i = false /\ Forall indexed mixed_recss /\
  parts_index_safe lib0 Q69i mixed_files /\ parts_index_safe lib0 Q69i [lib_merged lib0 mixed_files] /\
  asks_grouped Q69i (concat mixed_recss) (after_index star_sign [L_mx]) same_owner (after_rrset Q69i star_sign [L_mx] None) /\
  seen_in 2 Q69i mixed_files = [Some (Ok (wire [L_mx; L_ex; L_com]), Ok 1000, Ok 2000, Ok 5); None] /\
  seen_in 2 Q69i [lib_merged lib0 mixed_files] = [Some (Ok (wire [L_mx; L_ex; L_com]), Ok 1000, Ok 2000, Ok 5); None].
Proof.
  assert (HM : merges lib0 mixed_files) by (apply merges0; vm_compute; reflexivity).
  assert (HI : Forall indexed mixed_recss).
  { assert (V : union_valid [0; 1; 64]).
    { change [0; 1; 64] with (encode_windows [(0, [64])]). apply uv_map; [discriminate|]. apply one_window. window_here. }
    assert (L : lists_type [0; 1; 64] 1) by (apply (one_window_lists 0 [64]); [window_here|reflexivity|reflexivity]).
    constructor; [|constructor; [|constructor]].
    - pose proof demo_files_indexed as F. inversion F; assumption.
    - split; [|split].
      + intros ow ty bw rs o H. unfold file_bare in H. in_demo H; exists [0; 1; 64]; (split; [cbn; tauto|exact L]).
      + intros ow ty h n x o H. unfold file_bare in H. in_demo H.
      + intros n m [H|H]; unfold file_bare in H; in_demo H; right; exact V. }
  split; [exact HM|]. split; [apply merges0; vm_compute; reflexivity|]. split.
  { apply (compacted_intro _ _ _ _ []); [rewrite app_nil_r; apply Permutation_refl|apply (all_merged lib0 _ HM)|apply Permutation_refl]. }
  split. { eapply Forall_impl; [|exact mixed_ok]. intros f (A & r & B & _). split; [exact A|exists r; exact B]. }
  split; [repeat (constructor; [apply demo_ok; vm_compute; reflexivity|]); constructor|]. split; [reflexivity|]. split; [reflexivity|]. split; [exact HI|].
  split; [intro H; discriminate H|]. split; [intro H; discriminate H|]. split; [|split; vm_compute; reflexivity].
  apply (asks_after_rrset Q69i _ star_sign [L_mx] None); auto.
  - split; [reflexivity|apply name_okb_ok; reflexivity].
  - no_wild_left.
  - split; [reflexivity|exact I].
  - intro H. discriminate H.
  - intros ow ty bw rs o H. apply in_concat in H. destruct H as (recs & HR & H). rewrite Forall_forall in HI.
    destruct (HI recs HR) as (A & _). destruct (A _ _ _ _ _ H) as (m & Hm & Ht). exists m. split; [apply in_concat; exists recs; auto|exact Ht].
  - intro H. discriminate H.
Qed.

(** The merge of all the demonstration files opened as one file. *)
Example c69_merged_grouped_case : merges lib0 demo_files /\ merged_from demo_files (lib_merged lib0 demo_files) /\ Forall file_ok demo_files /\
  Forall2 database demo_recss demo_files /\ Forall indexed demo_recss /\ parts_index_safe lib0 Q30i demo_files /\
  (q_do_rrtype Q30i = true -> forall k m, In (k, m) (lib_merged lib0 demo_files) -> hd 0 k = 1 \/ hd 0 k = 3 -> index_safe m (q_rrtype Q30i)) /\
  asks_grouped Q30i (concat demo_recss) (after_index star_sign [L_www]) same_owner (after_rrset Q30i star_sign [L_www] None).
Proof.
  destruct c30_case as (A & B & C & D & E & F & G & _). split; [exact A|]. split; [apply (all_merged lib0 _ A)|]. do 3 (split; [assumption|]). split; [exact F|]. split; [|exact G].
  intros HQ k m. exact (F HQ (fun _ => True) demo_files (selects_all _ demo_files) k m).
Qed.
