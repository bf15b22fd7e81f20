(** Property C87: answers come in stored order, none twice. *)
From Verif Require Import Base ModelWdns SpecName NameFacts SpecMerge ModelMerge ModelEntry SpecEntry EntryProofs ModelIter SpecIter ModelQuery SpecQuery SpecDecode PropsDecode.
From Verif Require Import SelectProofs SpecFileset ModelFileset SpecReader SpecSound PropsQuery PropsSound HiddenProofs PropsHidden CurrentProofs SpecTerm PropsTerm SpecOrder OrderProofs OrderQueries.
From Verif Require Import BaseFacts IterProofs FilesetDemo Demo PropsIter PropsResume.

Lemma fits_stored : forall s l es, plain s -> Forall2 (fits s) l es -> Forall2 decodes_to l es.
Proof. intros s l es HP H. induction H as [|p e l es (v & A & B) H IH]; constructor; [|exact IH]. unfold decodes_to. rewrite <- (B HP). exact A. Qed.
Lemma fits_key : forall s l es, Forall2 (fits s) l es -> Forall2 has_key_of l es.
Proof. intros s l es H. induction H as [|p e l es (v & A & B) H IH]; constructor; [|exact IH]. exists v. exact A. Qed.

(** ** C87 *)
(** Over every sorted file, whatever its values are, and for every query answered by one
    lookup: what the calls return, if timeouts come in between and the limits are changed or
    not, are stored entries in the order in which they are stored, no stored entry twice. *)
Theorem answers_in_order : forall t q qi, sorted t -> keys_of_bytes t -> q_rrtype q < u32 -> dnstable_query_iter q t = Ok qi -> one_lookup qi ->
  forall fuel ts w, let rs := timed_calls fuel ts qi w in ~ In QHang rs ->
  exists l, in_order l t /\ Forall2 decodes_to l (got rs).
Proof.
  intros t q qi HS HB HU E HK fuel ts w rs HH. destruct (common_order q no_fence t t qi HS HS HB HB HU E) as [HP HO]. specialize (HO fuel ts w HH).
  unfold one_lookup in HK. destruct (qi_kind qi); [|contradiction]. destruct HO as (l & A & B). exists l. split; [exact A|]. exact (fits_stored _ _ _ (HP eq_refl) B).
Qed.
Print Assumptions answers_in_order.

(** For a query that goes through an index: the answers come in groups, one for each of some
    entries of the file, in the order of these, none of them used twice; the answers of a
    group are in stored order, no stored entry twice. *)
Theorem indexed_answers_in_order : forall t q qi, sorted t -> keys_of_bytes t -> q_rrtype q < u32 -> dnstable_query_iter q t = Ok qi -> through_index qi ->
  forall fuel ts w, let rs := timed_calls fuel ts qi w in ~ In QHang rs ->
  exists idxs groups, in_order idxs t /\ length groups = length idxs /\ Forall (fun g => in_order g t) groups /\ Forall2 decodes_to (concat groups) (got rs).
Proof.
  intros t q qi HS HB HU E HK fuel ts w rs HH. destruct (common_order q no_fence t t qi HS HS HB HB HU E) as [HP HO]. specialize (HO fuel ts w HH).
  unfold through_index in HK. destruct (qi_kind qi); [contradiction|]. destruct HO as (i & g & A & B & C & D). exists i, g. repeat (split; [assumption|]). exact (fits_stored _ _ _ (HP eq_refl) D).
Qed.
Print Assumptions indexed_answers_in_order.

Lemma delivered_bytes : forall lib files part, delivers lib files -> Forall keys_of_bytes files -> incl part files ->
  keys_of_bytes (lib_merged lib part) /\ keys_of_bytes (lib_unmerged lib part).
Proof.
  intros lib files part HD HR HI. rewrite Forall_forall in HR. destruct (HD part HI) as [H1 H2]. split; intros k v HK.
  - destruct (H1 k v HK) as (tr & HF & _). destruct (mleaves tr) as [|x l] eqn:EL.
    { exfalso. clear -EL. induction tr as [y|a IHa b IHb]; cbn [mleaves] in EL; [discriminate|]. apply app_eq_nil in EL. tauto. }
    inversion HF as [|? ? (f & HIf & HIn) _]; subst. exact (HR f (HI f HIf) k x HIn).
  - destruct (H2 k v HK) as (f & HIf & HIn). exact (HR f (HI f HIf) k v HIn).
Qed.
Lemma in_order_in : forall (A : Type) (a l : list A) x, in_order a l -> In x a -> In x l.
Proof. intros A a l x H. induction H; cbn; tauto. Qed.
Lemma in_order_nodup : forall (A B : Type) (f : A -> B) a l, in_order a l -> NoDup (map f l) -> NoDup (map f a).
Proof.
  intros A B f a l H. induction H as [l|x a l H IH|x a l H IH]; cbn [map]; intro HN; [constructor| |].
  - inversion HN as [|y m HX HY]; subst. constructor; [|auto]. intro HI. apply HX. apply in_map_iff in HI. destruct HI as (z & E & HZ). rewrite <- E. apply in_map. eapply in_order_in; eauto.
  - inversion HN; auto.
Qed.

Lemma kept_in_order : forall q files l x, fates q files = Ok l -> in_order (files_with x l) files.
Proof.
  intros q files. induction files as [|f files IH]; intros l x E; cbn [fates] in E.
  - injection E as <-. constructor.
  - destruct (reader_time_filter q f) as [x0| | | |]; cbn [bind] in E; try discriminate. destruct (fates q files) as [l'| | | |]; cbn [bind] in E; try discriminate. injection E as <-.
    unfold files_with. cbn [filter fst]. destruct (fate_eqb x x0); cbn [map snd]; [apply ord_take|apply ord_skip]; exact (IH l' x eq_refl).
Qed.

(** Over several files, for queries answered by one lookup: in the order in which libmtbl
    gives the entries of the files that take part, each of which takes part once; with
    aggregation no key twice, and the value may have been merged with those of other files;
    without, the stored value. *)
Theorem fileset_answers_in_order : forall lib files q qi,
  (forall part, incl part files -> sorted (lib_merged lib part) /\ sorted (lib_unmerged lib part) /\ NoDup (map fst (lib_merged lib part))) ->
  delivers lib files -> Forall keys_of_bytes files -> q_rrtype q < u32 -> dnstable_query_iter_fileset lib q files = Ok qi -> one_lookup qi ->
  exists part, in_order part files /\ forall fuel ts w, let rs := timed_calls fuel ts qi w in ~ In QHang rs ->
  exists l, if q_aggregated q then in_order l (lib_merged lib part) /\ NoDup (map fst l) /\ Forall2 has_key_of l (got rs)
    else in_order l (lib_unmerged lib part) /\ Forall2 decodes_to l (got rs).
Proof.
  intros lib files q qi HS HD HR HU E HK. unfold dnstable_query_iter_fileset in E.
  destruct (fates q files) as [fl| | | |] eqn:EF; cbn [bind] in E; try discriminate E.
  pose proof (files_with_incl q files fl Keep EF) as HI. destruct (HS _ HI) as (S1 & S2 & ND). destruct (delivered_bytes lib files _ HD HR HI) as [R1 R2].
  exists (files_with Keep fl). split; [exact (kept_in_order q files fl Keep EF)|]. intros fuel ts w rs HH.
  unfold one_lookup in HK. destruct (q_aggregated q) eqn:EA; cbn [andb] in E.
  - destruct (common_order _ _ _ _ _ S1 S1 R1 R1 HU E) as [_ HO]. specialize (HO fuel ts w HH). destruct (qi_kind qi); [|contradiction]. destruct HO as (l & A & B).
    exists l. split; [exact A|]. split; [exact (in_order_nodup _ _ fst _ _ A ND)|exact (fits_key _ _ _ B)].
  - destruct (common_order _ _ _ _ _ S2 S1 R2 R1 HU E) as [HP HO]. specialize (HO fuel ts w HH). destruct (qi_kind qi); [|contradiction]. destruct HO as (l & A & B).
    exists l. split; [exact A|]. exact (fits_stored _ _ _ (HP eq_refl) B).
Qed.
Print Assumptions fileset_answers_in_order.

(** For queries through an index the index entries are those of the merged files. *)
Theorem fileset_indexed_answers_in_order : forall lib files q qi,
  (forall part, incl part files -> sorted (lib_merged lib part) /\ sorted (lib_unmerged lib part) /\ NoDup (map fst (lib_merged lib part))) ->
  delivers lib files -> Forall keys_of_bytes files -> q_rrtype q < u32 -> dnstable_query_iter_fileset lib q files = Ok qi -> through_index qi ->
  exists part, in_order part files /\ forall fuel ts w, let rs := timed_calls fuel ts qi w in ~ In QHang rs ->
  exists idxs groups, in_order idxs (lib_merged lib part) /\ NoDup (map fst idxs) /\ length groups = length idxs /\
    if q_aggregated q then Forall (fun g => in_order g (lib_merged lib part) /\ NoDup (map fst g)) groups /\ Forall2 has_key_of (concat groups) (got rs)
    else Forall (fun g => in_order g (lib_unmerged lib part)) groups /\ Forall2 decodes_to (concat groups) (got rs).
Proof.
  intros lib files q qi HS HD HR HU E HK. unfold dnstable_query_iter_fileset in E.
  destruct (fates q files) as [fl| | | |] eqn:EF; cbn [bind] in E; try discriminate E.
  pose proof (files_with_incl q files fl Keep EF) as HI. destruct (HS _ HI) as (S1 & S2 & ND). destruct (delivered_bytes lib files _ HD HR HI) as [R1 R2].
  exists (files_with Keep fl). split; [exact (kept_in_order q files fl Keep EF)|]. intros fuel ts w rs HH.
  unfold through_index in HK. destruct (q_aggregated q) eqn:EA; cbn [andb] in E.
  - destruct (common_order _ _ _ _ _ S1 S1 R1 R1 HU E) as [_ HO]. specialize (HO fuel ts w HH). destruct (qi_kind qi); [contradiction|]. destruct HO as (i & g & A & B & C & D).
    exists i, g. split; [exact A|]. split; [exact (in_order_nodup _ _ fst _ _ A ND)|]. split; [exact B|]. split; [|exact (fits_key _ _ _ D)].
    eapply Forall_impl; [|exact C]. intros x Hx. split; [exact Hx|exact (in_order_nodup _ _ fst _ _ Hx ND)].
  - destruct (common_order _ _ _ _ _ S2 S1 R2 R1 HU E) as [HP HO]. specialize (HO fuel ts w HH). destruct (qi_kind qi); [contradiction|]. destruct HO as (i & g & A & B & C & D).
    exists i, g. split; [exact A|]. split; [exact (in_order_nodup _ _ fst _ _ A ND)|]. split; [exact B|]. split; [exact C|]. exact (fits_stored _ _ _ (HP eq_refl) D).
Qed.
Print Assumptions fileset_indexed_answers_in_order.

(** All of the hidden file, with its junk, and the query through an index of C34. *)
Lemma readable_is_bytes : forall t, readable_keys t -> keys_of_bytes t.
Proof. intros t H k v HI. apply (H k v HI). Qed.
Definition Q87 := ask QRrset None (Some (wire [[star_sign]])) None None [] [] 0 None None None None.
Example c87_case : sorted hiding /\ keys_of_bytes hiding /\ q_rrtype Q85 < u32 /\
  match dnstable_query_iter Q85 hiding with Ok qi => one_lookup qi /\ ~ In QHang (calls 60 3 qi world0) /\ length (got (calls 60 3 qi world0)) = 1%nat | _ => False end /\
  sorted mixed /\ keys_of_bytes mixed /\ q_rrtype Q34x < u32 /\ q_rrtype Q87 < u32 /\
  match dnstable_query_iter Q87 mixed with Ok qi => one_lookup qi /\ ~ In QHang (calls 60 7 qi world0) /\ length (got (calls 60 7 qi world0)) = 2%nat | _ => False end /\
  match dnstable_query_iter Q34x mixed with Ok qi => through_index qi /\ ~ In QHang (calls 60 7 qi jumpy) /\ length (got (calls 60 7 qi jumpy)) = 2%nat | _ => False end.
Proof.
  split; [repeat constructor|]. split; [apply readable_is_bytes, readable_check; vm_compute; reflexivity|]. split; [vm_compute; reflexivity|].
  split; [vm_compute; split; [exact I|]; split; [|reflexivity]; intuition discriminate|].
  split; [repeat constructor|]. split; [apply readable_is_bytes, readable_check; vm_compute; reflexivity|]. split; [vm_compute; reflexivity|]. split; [vm_compute; reflexivity|].
  split; [vm_compute; split; [exact I|]; split; [|reflexivity]; intuition discriminate|].
  vm_compute; split; [exact I|]; split; [|reflexivity]; intuition discriminate.
Qed.
Lemma lib0_nodup : forall files, NoDup (map fst (lib_merged lib0 files)).
Proof.
  intro files. cbn [lib_merged lib0]. destruct (merge_entries (concat files)) as [t| | | |] eqn:E; try constructor.
  destruct (merge_entries_ok _ _ E) as [HS _]. clear E. induction HS as [|[k v] t HS IH HF]; cbn [map]; constructor; [|exact IH].
  intro HI. apply in_map_iff in HI. destruct HI as ([k2 v2] & E & HI). rewrite Forall_forall in HF. specialize (HF _ HI). cbn [fst] in *. subst k2. rewrite blt_irrefl in HF. discriminate.
Qed.
Example c87_files_case : (forall part, incl part junk_files -> sorted (lib_merged lib0 part) /\ sorted (lib_unmerged lib0 part) /\ NoDup (map fst (lib_merged lib0 part))) /\
  delivers lib0 junk_files /\ Forall keys_of_bytes junk_files /\ q_rrtype (Q79files true) < u32 /\
  match dnstable_query_iter_fileset lib0 (Q79files true) junk_files with Ok qi => one_lookup qi /\ ~ In QHang (calls 60 3 qi world0) /\ length (got (calls 60 3 qi world0)) = 1%nat | _ => False end.
Proof.
  split. { intros part _. split; [apply lib0_sorted|]. split; [apply lib0_sorted|]. apply lib0_nodup. }
  split; [apply lib0_delivers|]. split; [repeat (first [apply Forall_nil | apply Forall_cons; [apply readable_is_bytes, readable_check; vm_compute; reflexivity|]])|].
  split; [vm_compute; reflexivity|]. vm_compute. split; [exact I|]. split; [|reflexivity]. intuition discriminate.
Qed.

(** The index of one file and that of another. *)
Example c87_indexed_files_case : (forall part, incl part [mixed; stray] -> sorted (lib_merged lib0 part) /\ sorted (lib_unmerged lib0 part) /\ NoDup (map fst (lib_merged lib0 part))) /\
  delivers lib0 [mixed; stray] /\ Forall keys_of_bytes [mixed; stray] /\ q_rrtype Q86 < u32 /\
  match dnstable_query_iter_fileset lib0 Q86 [mixed; stray] with Ok qi => through_index qi /\ ~ In QHang (calls 60 5 qi world0) /\ length (got (calls 60 5 qi world0)) = 2%nat | _ => False end.
Proof.
  split. { intros part _. split; [apply lib0_sorted|]. split; [apply lib0_sorted|]. apply lib0_nodup. }
  split; [apply lib0_delivers|]. split; [repeat (first [apply Forall_nil | apply Forall_cons; [apply readable_is_bytes, readable_check; vm_compute; reflexivity|]])|].
  split; [vm_compute; reflexivity|]. vm_compute. split; [exact I|]. split; [|reflexivity]. intuition discriminate.
Qed.
