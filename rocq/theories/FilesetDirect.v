(** Queries over a set of files, merged, that are answered by one lookup. *)
From Coq Require Import Permutation.
From Verif Require Import Base BaseFacts ModelVarint VarintProofs ModelMerge SpecMerge MergeProofs PropsMerge ModelWdns SpecName NameFacts.
From Verif Require Import ModelEntry SpecEntry EntryProofs PropsEntry ModelUnion SpecUnion ModelIter SpecIter IterProofs PropsIter.
From Verif Require Import ModelQuery SpecQuery KeyProofs FilterProofs QueryProofs SelectProofs RRsetQueries IndexProofs RightWildcard RdataQueries IpProofs IpQueries Demo PropsQuery.
From Verif Require Import ModelReader ModelSetters ModelFileset SpecFileset FilesetProofs FilesetQueries.

Lemma selects_every_l : forall A (P : A -> Prop) l, Forall P l -> selects P l l.
Proof. intros A P l H. induction H; constructor; auto. Qed.
Lemma selects_all : forall A (l : list A), selects (fun _ => True) l l.
Proof. intros. apply selects_every_l. apply Forall_forall. auto. Qed.

Lemma files_with_in_files : forall (l : list (fate * table)) files x f, map snd l = files -> In f (files_with x l) -> In f files.
Proof. intros l files x f <- H. apply files_with_in in H. apply in_map_iff. exists (x, f). auto. Qed.

(** Without time bounds every file is kept. *)
Lemma all_kept : forall q l, has_time_bound q = false -> Forall (fun p => exists r, time_range (snd p) r /\ fst p = fate_for q r) l ->
  files_with Keep l = map snd l.
Proof.
  intros q l HT H. unfold has_time_bound in HT. rewrite !orb_false_iff in HT. destruct HT as [[[T1 T2] T3] T4].
  induction H as [|[x f] l (r & _ & E) H IH]; [reflexivity|]. cbn [fst snd] in *.
  assert (x = Keep) as ->.
  { rewrite E. unfold fate_for. destruct r as [[mn mx]|]; [|reflexivity]. rewrite T1, T2, T3, T4. reflexivity. }
  change (files_with Keep ((Keep, f) :: l)) with (f :: files_with Keep l). rewrite IH. reflexivity.
Qed.

Section Aggregated.
  Variables (lib : libmtbl) (files : list table) (recss : list (list record)) (q : query).
  Hypothesis HLib : merges lib files.
  Hypothesis HOK : Forall file_ok files.
  Hypothesis HDB : Forall2 database recss files.
  Hypothesis HAgg : q_aggregated q = true.
  Let Ta := lib_merged lib files.

  Lemma all_merged : merged_from files Ta.
  Proof. apply (HLib (fun _ => True)). apply selects_all. Qed.

  Lemma strict_files : Forall strict files.
  Proof. eapply Forall_impl; [|exact HOK]. intros f (H & _). exact H. Qed.

  Lemma with_merged : forall l x, map snd l = files ->
    Forall (fun p => exists r, time_range (snd p) r /\ fst p = fate_for q r) l ->
    merged_from (files_with x l) (lib_merged lib (files_with x l)).
  Proof.
    intros l x HL HF. apply (HLib (fun f => exists r, time_range f r /\ fate_for q r = x)). rewrite <- HL.
    apply files_with_selects; [rewrite HL; apply strict_files|exact HF].
  Qed.

  Theorem fileset_direct : forall M, asks q (concat recss) M ->
    exists recs out es, database recs Ta /\ covered recs (concat recss) /\ selects M recs out /\ Forall2 shows out es /\
      lists q (dnstable_query_iter_fileset lib q files) es /\ lists q (dnstable_query_iter q Ta) es.
  Proof.
    intros M HA. destruct (asks_unbounded q _ M HA) as (M0 & HA0 & HFn).
    destruct (merged_database files recss HDB files Ta (fun f H => H) all_merged) as (recs & HDa & HCa).
    destruct (asks_parts _ Ta recs M0 HDa (asks_covered _ _ _ _ HCa HA0)) as (Pa & srca & Ka & ha & HPa).
    pose proof (direct_bounded q Ta recs M0 M Pa srca Ka ha HPa HFn) as HPb.
    pose proof HPb as (_ & _ & _ & _ & _ & HM & HSh).
    destruct (select_filter _ M recs Ta (proj1 HDa) HM) as (out & Sel & FE).
    destruct (decode_all out _ FE) as (es & HD & HSw).
    { apply Forall_forall. intros r Hr. destruct (selects_in _ _ _ _ Sel r Hr). auto. }
    exists recs, out, es. split; [exact HDa|]. split; [exact HCa|]. split; [exact Sel|]. split; [exact HSw|].
    assert (HB : lists q (dnstable_query_iter q Ta) es) by (eapply direct_listed; eauto). split; [|exact HB].
    unfold dnstable_query_iter_fileset. destruct (fates_found q files HOK) as (l & EF & EL & HF). rewrite EF. cbn [bind]. rewrite HAgg. cbn [andb].
    destruct (has_time_bound q) eqn:ET.
    2:{ cbn [andb]. rewrite (all_kept q l ET HF), EL. exact HB. }
    pose proof (with_merged l Keep EL HF) as Mk. pose proof (with_merged l Fill EL HF) as Mf.
    set (Tk := lib_merged lib (files_with Keep l)) in *. set (Tf := lib_merged lib (files_with Fill l)) in *. cbn [andb].
    destruct (merged_database files recss HDB (files_with Keep l) Tk (fun f H => files_with_in_files l files Keep f EL H) Mk) as (reck & HDk & HCk).
    destruct (asks_parts _ Tk reck M0 HDk (asks_covered _ _ _ _ HCk HA0)) as (P & src & K & h & HI & Hh & HT & HP & HTE & HMk & HShk).
    assert (PM : forall k v r, In r reck -> encodes r (k, v) -> (P (k, v) = true <-> M0 r)).
    { intros k v r Hr He. rewrite <- (HMk r (k, v) Hr He), timep_unbounded, andb_true_r. reflexivity. }
    assert (PMa : forall k v r, In r recs -> encodes r (k, v) -> (Pa (k, v) = true <-> M0 r)).
    { destruct HPa as (_ & _ & _ & _ & _ & HMa & _). intros k v r Hr He. rewrite <- (HMa r (k, v) Hr He), timep_unbounded, andb_true_r. reflexivity. }
    unfold query_iter_common. rewrite init_unbounded in HI. change (is_timed (without_bounds q)) with (is_timed q) in HI, HT. rewrite HI.
    cbn [bind p_key p_key2 p_source p_index]. rewrite stack_fenced.
    eapply (direct_lists q h _ _ es); try reflexivity; cbn [qi_kind].
    - subst h. destruct (snd K); reflexivity.
    - eapply (fenced_den q files l Tk Tf Ta HOK EL HF Mk Mf all_merged h src P Pa ET HP).
      + intros [k v] He Pe. destruct (in_encodes _ _ _ (proj1 HDk) He) as (r & Hr & HE). apply (timed_record r k v HE).
        apply (asks_shown _ _ _ _ HA0). apply (PM k v r Hr HE). exact Pe.
      + intros [k v] He Pe. destruct (in_encodes _ _ _ (proj1 HDa) He) as (r & Hr & HE). apply (timed_record r k v HE).
        apply (asks_shown _ _ _ _ HA0). apply (PMa k v r Hr HE). exact Pe.
      + intros k v v' He He'. destruct (in_encodes _ _ _ (proj1 HDk) He) as (r & Hr & HE). destruct (in_encodes _ _ _ (proj1 HDa) He') as (r' & Hr' & HE').
        pose proof (key_fields r r' k v v' HE HE') as HS. apply eq_true_iff_eq. rewrite (PM k v r Hr HE), (PMa k v' r' Hr' HE').
        split; apply (asks_same _ _ _ _ _ (fence_unbounded q) HA0); [exact HS|apply same_sym; exact HS].
    - rewrite stackF_timeout, HT. auto.
    - exact HD.
  Qed.
End Aggregated.
