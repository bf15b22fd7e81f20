(** Queries over a set of files, not merged. *)
From Coq Require Import Permutation.
From Verif Require Import Base BaseFacts ModelVarint VarintProofs ModelMerge SpecMerge MergeProofs PropsMerge ModelWdns SpecName NameFacts.
From Verif Require Import ModelEntry SpecEntry EntryProofs PropsEntry ModelUnion SpecUnion ModelIter SpecIter IterProofs PropsIter.
From Verif Require Import UnionProofs UnionBuild UnionMerge PropsUnion ModelQuery SpecQuery KeyProofs FilterProofs QueryProofs SelectProofs RRsetQueries IndexProofs RightWildcard RdataQueries IpProofs IpQueries Demo PropsQuery.
From Verif Require Import ModelReader ModelSetters ModelFileset SpecFileset FilesetProofs FilesetQueries FilesetDirect FilesetGrouped.

(** ** Selections and permutations *)

Lemma selects_decides : forall A (P : A -> Prop) l m, selects P l m -> forall a, In a l -> P a \/ ~ P a.
Proof. intros A P l m H. induction H; intros x [<-|Hx] || intros x []; auto. Qed.

Lemma selects_exists : forall A (P : A -> Prop) l, (forall a, In a l -> P a \/ ~ P a) -> exists m, selects P l m.
Proof.
  intros A P l. induction l as [|a l IH]; intro H; [exists []; constructor|].
  destruct IH as (m & Hm); [intros; apply H; right; assumption|]. destruct (H a (or_introl eq_refl)); [exists (a :: m)|exists m]; constructor; assumption.
Qed.

Lemma selects_perm : forall A (P : A -> Prop) l l' m m', Permutation l l' -> selects P l m -> selects P l' m' -> Permutation m m'.
Proof.
  intros A P l l' m m' H. revert m m'. induction H as [|x l l' H IH|x y l|l k n H1 IH1 H2 IH2]; intros m m' S S'.
  - inversion S; inversion S'; subst. constructor.
  - inversion S; inversion S'; subst; try contradiction; auto.
  - inversion S as [|? ? ? ? S1|? ? ? ? S1]; subst; inversion S1; subst; inversion S' as [|? ? ? ? S2|? ? ? ? S2]; subst; inversion S2; subst; try contradiction;
      match goal with A : selects P l ?a, B : selects P l ?b |- _ => rewrite (selects_det _ _ _ _ _ A B) end; auto. apply perm_swap.
  - destruct (selects_exists A P k) as (mk & Hk).
    + intros a Ha. apply (selects_decides _ _ _ _ S). apply (Permutation_in _ (Permutation_sym H1)). exact Ha.
    + rewrite (IH1 m mk S Hk). apply IH2; assumption.
Qed.

Lemma Forall2_perm : forall A B (R : A -> B -> Prop) l m m', Forall2 R l m -> Permutation m m' -> exists l', Permutation l l' /\ Forall2 R l' m'.
Proof.
  intros A B R l m m' HF H. revert l HF. induction H as [|x m m' H IH|x y m|m k n H1 IH1 H2 IH2]; intros l HF.
  - exists l. inversion HF. subst. auto.
  - inversion HF as [|a ? l0 ? Ra HF']; subst. destruct (IH l0 HF') as (l' & P & F). exists (a :: l'). split; auto.
  - inversion HF as [|a ? l0 ? Ra HF']; subst. inversion HF' as [|b ? l1 ? Rb HF'']; subst. exists (b :: a :: l1). split; [apply perm_swap|auto].
  - destruct (IH1 l HF) as (l' & P & F). destruct (IH2 l' F) as (l2 & P2 & F2). exists l2. split; [etransitivity; eauto|exact F2].
Qed.

Lemma selects_none : forall A (P : A -> Prop) l, (forall a, In a l -> ~ P a) -> selects P l [].
Proof. intros A P l. induction l as [|a l IH]; intro H; [constructor|]. apply sel_no; [apply H; left; reflexivity|apply IH; intros; apply H; right; assumption]. Qed.

Lemma selects_app_inv : forall A (P : A -> Prop) a b m, selects P (a ++ b) m -> exists x y, m = x ++ y /\ selects P a x /\ selects P b y.
Proof.
  intros A P a. induction a as [|c a IH]; intros b m H; [exists [], m; split; [reflexivity|split; [constructor|exact H]]|].
  cbn [app] in H. inversion H as [|? ? m0 Pc S|? ? ? Pc S]; subst; destruct (IH _ _ S) as (x & y & -> & Sx & Sy).
  - exists (c :: x), y. split; [reflexivity|]. split; [constructor; assumption|exact Sy].
  - exists x, y. split; [reflexivity|]. split; [apply sel_no; assumption|exact Sy].
Qed.

(** The records of the files kept, and of all files: the same for a condition that no
    record of another file meets. *)
Lemma kept_records : forall (M : record -> Prop) l recss, Forall2 database recss (map snd l) ->
  (forall x f recs r, In (x, f) l -> database recs f -> x <> Keep -> In r recs -> ~ M r) ->
  exists rk, Forall2 database rk (files_with Keep l) /\ (forall recs, In recs rk -> In recs recss) /\
    forall sel, selects M (concat rk) sel -> selects M (concat recss) sel.
Proof.
  intros M l. induction l as [|[x f] l IH]; intros recss HF HN; inversion HF as [|recs ? recss' ? HD HF']; subst.
  - exists []. split; [constructor|]. split; [intros _ []|]. auto.
  - destruct (IH recss' HF') as (rk & A & B & C); [intros y g rs r H; apply HN; right; exact H|].
    destruct x.
    + exists (recs :: rk). split; [change (files_with Keep ((Keep, f) :: l)) with (f :: files_with Keep l); constructor; assumption|].
      split; [intros y [<-|Hy]; [left; reflexivity|right; apply B; exact Hy]|].
      intros sel H. cbn [concat] in *. apply selects_app_inv in H. destruct H as (u & v & -> & Su & Sv). apply selects_app; [exact Su|apply C; exact Sv].
    + exists rk. split; [exact A|]. split; [intros y Hy; right; apply B; exact Hy|].
      intros sel H. cbn [concat]. change sel with ([] ++ sel). apply selects_app; [|apply C; exact H].
      apply selects_none. intros r Hr. apply (HN Fill f recs r); [left; reflexivity|exact HD|discriminate|exact Hr].
    + exists rk. split; [exact A|]. split; [intros y Hy; right; apply B; exact Hy|].
      intros sel H. cbn [concat]. change sel with ([] ++ sel). apply selects_app; [|apply C; exact H].
      apply selects_none. intros r Hr. apply (HN Remove f recs r); [left; reflexivity|exact HD|discriminate|exact Hr].
Qed.

(** ** Order *)

Lemma dupsort_obs : forall k v v' o o', timed_key k -> seen_as v o -> seen_as v' o' ->
  dnstable_dupsort_func k v v' =
  Ok (if o_first o <? o_first o' then Lt else if o_first o' <? o_first o then Gt
      else if o_last o <? o_last o' then Lt else if o_last o' <? o_last o then Gt else Eq).
Proof.
  intros k v v' o o' (b & rest & -> & Hb) [H1 H2] [G1 G2]. unfold dnstable_dupsort_func.
  assert (E : (b =? ENTRY_TYPE_RRSET) || (b =? ENTRY_TYPE_RDATA) = true) by (destruct Hb as [-> | ->]; reflexivity). rewrite E.
  pose proof (triplet_unpack_obs o v H1 H2) as U. pose proof (triplet_unpack_obs o' v' G1 G2) as U'.
  destruct v as [|a v]; [discriminate U|]. destruct v' as [|a' v']; [discriminate U'|].
  rewrite U, U'. cbn [assert_ok bind].
  destruct (o_first o <? o_first o'); [reflexivity|]. destruct (o_first o' <? o_first o); [reflexivity|].
  destruct (o_last o <? o_last o'); [reflexivity|]. destruct (o_last o' <? o_last o); reflexivity.
Qed.

Definition listed_before (a b : kv) : Prop :=
  ble (fst a) (fst b) = true /\ (fst a = fst b -> exists c, dnstable_dupsort_func (fst a) (snd a) (snd b) = Ok c /\ c <> Gt).

Lemma listed_earlier : forall r r' e e', encodes r e -> encodes r' e' -> listed_before e e' -> earlier (r, e) (r', e').
Proof.
  intros r r' [k v] [k' v'] H H' [A B]. unfold earlier. cbn [fst snd] in *. destruct (blt k k') eqn:E; [left; reflexivity|]. right.
  assert (k = k') as <-. { apply ble_lteq in A. destruct A as [A|A]; [rewrite A in E; discriminate|exact A]. }
  split; [reflexivity|]. destruct (B eq_refl) as (c & HC & HNG). pose proof (key_fields r r' k v v' H H') as HS.
  assert (HT : shown r -> timed_key k) by (apply (timed_record r k v H)).
  destruct H as [_ H], H' as [_ H']. destruct r as [ow ty bw rs o|ow ty hd0 tl o| | |], r' as [ow' ty' bw' rs' o'|ow' ty' hd' tl' o'| | |]; try contradiction; trivial.
  - destruct H as (_ & _ & _ & H1 & _ & H2), H' as (_ & _ & _ & G1 & _ & G2). cbn [snd] in *.
    rewrite (dupsort_obs k v v' o o' (HT I) (conj H1 H2) (conj G1 G2)) in HC. injection HC as <-.
    destruct (N.ltb_spec (o_first o) (o_first o')); [left; lia|]. destruct (N.ltb_spec (o_first o') (o_first o)); [congruence|].
    destruct (N.ltb_spec (o_last o) (o_last o')); [right; lia|]. destruct (N.ltb_spec (o_last o') (o_last o)); [congruence|]. right. lia.
  - destruct H as (_ & _ & H1 & _ & _ & H2), H' as (_ & _ & G1 & _ & _ & G2). cbn [snd] in *.
    rewrite (dupsort_obs k v v' o o' (HT I) (conj H1 H2) (conj G1 G2)) in HC. injection HC as <-.
    destruct (N.ltb_spec (o_first o) (o_first o')); [left; lia|]. destruct (N.ltb_spec (o_first o') (o_first o)); [congruence|].
    destruct (N.ltb_spec (o_last o) (o_last o')); [right; lia|]. destruct (N.ltb_spec (o_last o') (o_last o)); [congruence|]. right. lia.
Qed.

Lemma listed_all : forall recs t, Forall2 encodes recs t -> StronglySorted listed_before t -> StronglySorted earlier (combine recs t).
Proof.
  intros recs t H. induction H as [|r e recs t H HF IH]; intro S; [constructor|]. inversion S as [|? ? S' F]; subst. cbn [combine].
  constructor; [apply IH; exact S'|]. apply Forall_forall. intros [r' e'] Hin. destruct (in_combine_encodes _ _ _ _ HF Hin) as (_ & He' & HE').
  rewrite Forall_forall in F. apply listed_earlier; auto.
Qed.

Lemma strongly_filter : forall A (R : A -> A -> Prop) p l, StronglySorted R l -> StronglySorted R (filter p l).
Proof.
  intros A R p l H. induction H as [|a l H IH F]; [constructor|]. cbn [filter]. destruct (p a); [|exact IH]. constructor; [exact IH|].
  apply Forall_forall. intros x Hx. apply filter_In in Hx. rewrite Forall_forall in F. apply F. tauto.
Qed.

Lemma strongly_and : forall A (R1 R2 : A -> A -> Prop) l, StronglySorted R1 l -> StronglySorted R2 l -> StronglySorted (fun a b => R1 a b /\ R2 a b) l.
Proof.
  intros A R1 R2 l H. induction H as [|a l H IH F]; intro H2; [constructor|]. inversion H2; subst. constructor; [auto|].
  rewrite Forall_forall in *. intros x Hx. split; auto.
Qed.

(** ** The query *)

(** Lookups that do not go through an index do not depend on the index. *)
Lemma init_index : forall q s i i' p, query_init q s i = Ok p -> p_index p = None -> query_init q s i' = Ok p.
Proof.
  intros q s i i' p H HN. unfold query_init in *. destruct (q_type q); try exact H.
  - unfold init_rrset in *. destruct (is_left_wildcard (name_data q)); [exact H|].
    destruct (is_right_wildcard (name_data q)); [|exact H].
    unfold init_rrset_right_wildcard in H. injection H as <-. discriminate HN.
  - unfold init_rdata_name in *. destruct (is_right_wildcard (name_data q)); [exact H|].
    destruct (is_left_wildcard (name_data q)); [|exact H].
    unfold init_rdata_left_wildcard in H. destruct (reverse_buf _ _); try discriminate H. cbn [bind] in H. injection H as <-. discriminate HN.
Qed.

Section Unmerged.
  Variables (lib : libmtbl) (files : list table) (recss : list (list record)) (q : query).
  Hypothesis HLib : merges lib files.
  Hypothesis HDup : lists_duplicates lib files.
  Hypothesis HOK : Forall file_ok files.
  Hypothesis HDB : Forall2 database recss files.
  Hypothesis HAgg : q_aggregated q = false.

  (** No record of a file not kept is within the bounds. *)
  Lemma not_kept : forall l x f recs r, map snd l = files ->
    Forall (fun p => exists r, time_range (snd p) r /\ fst p = fate_for q r) l ->
    In (x, f) l -> database recs f -> x <> Keep -> In r recs -> shown r -> ~ fenced_in q r.
  Proof.
    intros l x f recs r EL HF Hin HD NK Hr HS HFe. destruct (encodes_in _ _ _ (proj1 HD) Hr) as ([k v] & He & HE).
    pose proof (proj2 (timed_record r k v HE) HS) as Hk.
    destruct (with_obs q files l HOK EL HF x f k v) as (o & Ho & Hle & HR & HFl); auto; [apply files_with_in; exact Hin|].
    assert (HI : in_fence q o).
    { destruct HE as [_ HE]. destruct r; try contradiction; cbn [fenced_in snd] in *.
      - destruct HE as (_ & _ & _ & A & _ & B). rewrite <- (seen_fun v _ _ (conj A B) Ho). exact HFe.
      - destruct HE as (_ & _ & A & _ & _ & B). rewrite <- (seen_fun v _ _ (conj A B) Ho). exact HFe. }
    destruct HI as (F1 & F2 & F3 & F4). destruct x; [congruence| |].
    - destruct (HFl eq_refl) as [(D & C)|(D & _ & C)]; [specialize (F3 D)|specialize (F2 D)]; lia.
    - destruct (HR eq_refl) as [(D & C)|(D & C)]; [specialize (F1 D)|specialize (F4 D)]; lia.
  Qed.

  (** The records listed by the kept files. *)
  Lemma unmerged_records : forall (M : record -> Prop) l, map snd l = files ->
    Forall (fun p => exists r, time_range (snd p) r /\ fst p = fate_for q r) l ->
    (forall r, M r -> shown r /\ fenced_in q r) ->
    exists recs, Forall2 encodes recs (lib_unmerged lib (files_with Keep l)) /\ covered recs (concat recss) /\
      forall out, selects M recs out -> exists sel, selects M (concat recss) sel /\ Permutation sel out.
  Proof.
    intros M l EL HF HM. rewrite <- EL in HDB.
    destruct (kept_records M l recss HDB) as (rk & A & B & C).
    { intros x f recs r H1 H2 H3 H4 H5. destruct (HM r H5). apply (not_kept l x f recs r EL HF H1 H2 H3 H4); assumption. }
    assert (FE : Forall2 encodes (concat rk) (concat (files_with Keep l))).
    { apply Forall2_concat. clear -A. induction A as [|? ? ? ? [H _]]; constructor; auto. }
    destruct (HDup (fun f => exists r, time_range f r /\ fate_for q r = Keep) (files_with Keep l)) as (P & _ & _).
    { rewrite <- EL. apply files_with_selects; [rewrite EL; apply (strict_files files HOK)|exact HF]. }
    destruct (Forall2_perm _ _ _ _ _ _ FE P) as (recs & HP & HE). exists recs. split; [exact HE|]. split.
    - intros r Hr. apply (Permutation_in _ (Permutation_sym HP)) in Hr. apply in_concat in Hr. destruct Hr as (rs & H1 & H2).
      exists r. split; [apply in_concat; exists rs; split; [apply B; exact H1|exact H2]|].
      destruct (encodes_in _ _ r FE (proj2 (in_concat rk r) (ex_intro _ rs (conj H1 H2)))) as ([k v] & _ & HEr). apply (key_fields r r k v v); assumption.
    - intros out HO. destruct (selects_exists _ M (concat rk)) as (sel & Hsel).
      + intros r Hr. apply (selects_decides _ _ _ _ HO). apply (Permutation_in _ HP). exact Hr.
      + exists sel. split; [apply C; exact Hsel|]. eapply selects_perm; eauto.
  Qed.

  Lemma kept_unmerged : forall l, map snd l = files -> Forall (fun p => exists r, time_range (snd p) r /\ fst p = fate_for q r) l ->
    sorted (lib_unmerged lib (files_with Keep l)) /\ StronglySorted listed_before (lib_unmerged lib (files_with Keep l)) /\
    forall k v, In (k, v) (lib_unmerged lib (files_with Keep l)) -> exists f, In f (files_with Keep l) /\ has_key k f.
  Proof.
    intros l EL HF. destruct (HDup (fun f => exists r, time_range f r /\ fate_for q r = Keep) (files_with Keep l)) as (P & S & D).
    { rewrite <- EL. apply files_with_selects; [rewrite EL; apply (strict_files files HOK)|exact HF]. }
    split; [exact S|]. split; [apply strongly_and; assumption|]. intros k v H. apply (Permutation_in _ (Permutation_sym P)) in H.
    apply in_concat in H. destruct H as (f & A & B). exists f. split; [exact A|]. exists v. exact B.
  Qed.

  (** With the table the results are taken from. *)
  Theorem fileset_unmerged_direct_over : forall M, asks q (concat recss) M ->
    exists l recs sel out kvs es, fates q files = Ok l /\ Forall2 encodes recs (lib_unmerged lib (files_with Keep l)) /\ selects M recs out /\
      selects M (concat recss) sel /\ Permutation sel out /\
      Forall2 encodes out kvs /\ StronglySorted earlier (combine out kvs) /\ Forall2 shows out es /\
      lists q (dnstable_query_iter_fileset lib q files) es.
  Proof.
    intros M HA. destruct (asks_unbounded q _ M HA) as (M0 & HA0 & HFn).
    destruct (fates_found q files HOK) as (l & EF & EL & HF).
    destruct (kept_unmerged l EL HF) as (HS & HB & _).
    destruct (unmerged_records M l EL HF) as (recs & HE & HC & HSel).
    { intros r Mr. apply (HFn r) in Mr. destruct Mr as [Mr Fr]. split; [apply (asks_shown _ _ _ _ HA0 Mr)|exact Fr]. }
    set (U := lib_unmerged lib (files_with Keep l)) in *.
    destruct (asks_parts q U recs M (conj HE HS) (asks_covered _ _ _ _ HC HA)) as (P & src & K & h & HI & Hh & HT & HP & HTE & HM & HSh).
    destruct (select_filter _ M recs U HE HM) as (out & Sel & FE).
    destruct (decode_all out _ FE) as (es & HD & HSw).
    { apply Forall_forall. intros r Hr. destruct (selects_in _ _ _ _ Sel r Hr). auto. }
    destruct (HSel out Sel) as (sel & S1 & S2).
    exists l, recs, sel, out, (filter (fun e => P e && timep q e) U), es. split; [exact EF|]. split; [exact HE|]. split; [exact Sel|].
    split; [exact S1|]. split; [exact S2|]. split; [exact FE|].
    split; [apply listed_all; [exact FE|apply strongly_filter; exact HB]|]. split; [exact HSw|].
    unfold dnstable_query_iter_fileset. rewrite EF. cbn [bind]. rewrite HAgg. cbn [andb bind]. fold U.
    unfold query_iter_common.
    rewrite (init_index q _ _ (if is_timed q then STimeout (SBase (lib_merged lib (files_with Keep l))) else SBase (lib_merged lib (files_with Keep l))) _ HI eq_refl).
    cbn [bind p_key p_key2 p_source p_index].
    change {| f_remove := None; f_fill := None |} with no_fence. rewrite stack_no_fence.
    eapply (direct_lists q h (stack0 q src) _ es); try reflexivity; cbn [qi_kind].
    - subst h. destruct (snd K); reflexivity.
    - apply picks_stack; eauto.
    - rewrite stack0_timeout, HT. auto.
    - exact HD.
  Qed.

  Theorem fileset_unmerged_direct : forall M, asks q (concat recss) M ->
    exists sel out kvs es, selects M (concat recss) sel /\ Permutation sel out /\
      Forall2 encodes out kvs /\ StronglySorted earlier (combine out kvs) /\ Forall2 shows out es /\
      lists q (dnstable_query_iter_fileset lib q files) es.
  Proof. intros M HA. destruct (fileset_unmerged_direct_over M HA) as (l & recs & sel & out & kvs & es & _ & _ & _ & H). exists sel, out, kvs, es. exact H. Qed.

  Hypothesis HIdx : Forall indexed recss.
  Hypothesis HSafe : parts_index_safe lib q files.

  Theorem fileset_unmerged_grouped_over : forall I B M, asks_grouped q (concat recss) I B M ->
    exists l recs reck heads hkvs outs kvss sel es, fates q files = Ok l /\ Forall2 encodes recs (lib_unmerged lib (files_with Keep l)) /\
      Forall2 encodes reck (lib_merged lib (files_with Keep l)) /\ selects I reck heads /\
      Forall2 (fun h out => selects (fun r => B h r /\ M r) recs out) heads outs /\
      Forall I heads /\ Forall2 encodes heads hkvs /\ strict hkvs /\
      Forall2 (fun h out => Forall (B h) out) heads outs /\
      selects M (concat recss) sel /\ Permutation sel (concat outs) /\
      Forall2 (Forall2 encodes) outs kvss /\ Forall2 (fun out kvs => StronglySorted earlier (combine out kvs)) outs kvss /\
      Forall2 shows (concat outs) es /\
      lists q (dnstable_query_iter_fileset lib q files) es.
  Proof.
    intros I B M HA. destruct (grouped_unbounded q _ I B M HA) as (M0 & HA0 & HFn).
    destruct (grouped_same _ _ _ _ _ (fence_unbounded q) HA0) as (SI & SB & SM & SSh).
    destruct (fates_found q files HOK) as (l & EF & EL & HF).
    destruct (kept_unmerged l EL HF) as (HS & HB & HKey).
    destruct (unmerged_records M l EL HF) as (recs & HE & HC & HSel).
    { intros r Mr. apply (HFn r) in Mr. destruct Mr as [Mr Fr]. split; [apply (SSh r Mr)|exact Fr]. }
    pose proof (with_merged lib files q HLib HOK l Keep EL HF) as Mk.
    set (U := lib_unmerged lib (files_with Keep l)) in *. set (Tk := lib_merged lib (files_with Keep l)) in *.
    assert (KF : forall f, In f (files_with Keep l) -> In f files) by (intros f H; exact (files_with_in_files l files Keep f EL H)).
    destruct (merged_database files recss HDB (files_with Keep l) Tk KF Mk) as (reck & HDk & HCk).
    destruct (part_indexed files recss (files_with Keep l) Tk reck HDB HIdx KF Mk HDk recs U HE HKey) as (OI & RI).
    destruct (grouped_parts q _ I B M U Tk recs reck HA (conj HE HS) HDk (proj1 Mk) HC OI RI) as (src & tb & K & ixs & Pk & G & HPt).
    { refine (safe_records lib q files (fun f => exists r, time_range f r /\ fate_for q r = Keep) (files_with Keep l) reck HSafe _ HDk).
      rewrite <- EL. apply files_with_selects; [rewrite EL; apply (strict_files files HOK)|exact HF]. }
    destruct (indirect_walked _ _ _ _ _ _ _ _ _ _ _ _ _ _ HE (proj1 HDk) (proj1 Mk) HPt) as (heads & outs & es & all & H1 & H2 & H3 & H4 & H5 & H6 & H7 & HD).
    destruct (HSel all H3) as (sel & S1 & S2).
    exists l, recs, reck, heads, (filter Pk Tk), outs, (walked U Tk Pk G), sel, es.
    split; [exact EF|]. split; [exact HE|]. split; [exact (proj1 HDk)|]. split; [exact H1|]. split; [exact H2|].
    split; [apply Forall_forall; intros h Hh; apply (selects_in _ _ _ _ H1 h Hh)|]. split; [exact H6|]. split; [apply strict_filter; apply Mk|].
    split. { clear -H2. induction H2 as [|h out heads outs H2 _ IH]; constructor; [|exact IH].
      apply Forall_forall. intros r Hr. destruct (selects_in _ _ _ _ H2 r Hr) as (_ & A & _). exact A. }
    split; [exact S1|]. split; [rewrite S2; symmetry; exact H4|]. split; [exact H7|]. split.
    { clear -H7 HB. unfold walked in *. revert H7. generalize outs. induction (filter Pk Tk) as [|x ix IH]; intros os H7;
        inversion H7 as [|o ? os' ? E1 E2]; subst; cbn [map]; constructor.
      - apply listed_all; [exact E1|apply strongly_filter; exact HB].
      - apply IH. exact E2. }
    split; [exact H5|].
    unfold dnstable_query_iter_fileset. rewrite EF. cbn [bind]. rewrite HAgg. cbn [andb bind]. fold U. fold Tk.
    destruct HPt as (HI & HT & HTi & HP & HPI & HLp & HG & HCv & HU).
    unfold query_iter_common. rewrite HI. cbn [bind p_key p_key2 p_source p_index].
    change {| f_remove := None; f_fill := None |} with no_fence. rewrite stack_no_fence.
    eapply (indirect_lists q (stack0 q src) tb _ (filter Pk Tk) (walked U Tk Pk G) es); try reflexivity.
    - apply open_R. exact HP.
    - rewrite has_timeout_open, HTi. auto.
    - rewrite stack0_timeout, HT. auto.
    - apply Forall2_map_r. intros x Hx. apply filter_In in Hx. destruct Hx as [Hx Px]. destruct (in_encodes _ _ _ (proj1 HDk) Hx) as (h & Hh & He).
      apply group_looked. apply (HLp h x); auto. apply (HPI h x); auto.
    - exact HD.
  Qed.

  Theorem fileset_unmerged_grouped : forall I B M, asks_grouped q (concat recss) I B M ->
    exists heads hkvs outs kvss sel es,
      Forall I heads /\ Forall2 encodes heads hkvs /\ strict hkvs /\
      Forall2 (fun h out => Forall (B h) out) heads outs /\
      selects M (concat recss) sel /\ Permutation sel (concat outs) /\
      Forall2 (Forall2 encodes) outs kvss /\ Forall2 (fun out kvs => StronglySorted earlier (combine out kvs)) outs kvss /\
      Forall2 shows (concat outs) es /\
      lists q (dnstable_query_iter_fileset lib q files) es.
  Proof.
    intros I B M HA. destruct (fileset_unmerged_grouped_over I B M HA) as (l & recs & reck & heads & hkvs & outs & kvss & sel & es & _ & _ & _ & _ & _ & H).
    exists heads, hkvs, outs, kvss, sel, es. exact H.
  Qed.
End Unmerged.
