(** Property C86: iterating comes to an end. *)
From Verif Require Import Base ModelWdns SpecName NameFacts SpecMerge ModelMerge ModelEntry SpecEntry EntryProofs ModelIter SpecIter ModelQuery SpecQuery SpecDecode PropsDecode.
From Verif Require Import SelectProofs SpecFileset ModelFileset SpecReader SpecSound PropsQuery PropsSound HiddenProofs PropsHidden CurrentProofs TermProofs TermQueries SpecTerm.
From Verif Require Import BaseFacts IterProofs FilesetDemo Demo PropsIter.

Lemma readable_bytes : forall t, readable_keys t -> byte_keys t.
Proof. intros t H k v HI. apply (H k v HI). Qed.
Lemma readable_ends : forall t, readable_keys t -> forall k v, In (k, v) t -> ~ unending k.
Proof. intros t H k v HI. apply (H k v HI). Qed.

(** ** C86 *)
(** Over every file sorted as libmtbl keeps it, with whatever keys and values as long as no
    key is one whose decoding never ends, and for every query: all calls on the iterator
    come to an end.  A query answered by one lookup returns at most as many entries as the
    file has; one that goes through an index, at most the square of that. *)
Theorem iteration_ends : forall t q qi, sorted t -> readable_keys t -> q_rrtype q < u32 -> dnstable_query_iter q t = Ok qi ->
  always_ends qi (match qi_kind qi with Direct _ => length t | Indirect _ _ _ => length t * length t end).
Proof.
  intros t q qi HS HR HU E.
  exact (all_calls_end q no_fence t t qi HS HS (readable_bytes t HR) (readable_bytes t HR) HU (readable_ends t HR) E).
Qed.
Print Assumptions iteration_ends.

Lemma delivered_readable : forall lib files part, delivers lib files -> Forall readable_keys files -> incl part files ->
  readable_keys (lib_merged lib part) /\ readable_keys (lib_unmerged lib part).
Proof.
  intros lib files part HD HR HI. rewrite Forall_forall in HR. destruct (HD part HI) as [H1 H2]. split; intros k v HK.
  - destruct (H1 k v HK) as (tr & HF & _). destruct (mleaves tr) as [|x l] eqn:EL.
    { exfalso. clear -EL. induction tr as [y|a IHa b IHb]; cbn [mleaves] in EL; [discriminate|]. apply app_eq_nil in EL. tauto. }
    inversion HF as [|? ? (f & HIf & HIn) _]; subst. exact (HR f (HI f HIf) k x HIn).
  - destruct (H2 k v HK) as (f & HIf & HIn). exact (HR f (HI f HIf) k v HIn).
Qed.

(** The same over several files, also when some of them are only merged in or only taken
    away because of the time bounds: a number of rounds and a number of entries suffice. *)
Theorem fileset_iteration_ends : forall lib files q qi,
  (forall part, incl part files -> sorted (lib_merged lib part) /\ sorted (lib_unmerged lib part)) ->
  delivers lib files -> Forall readable_keys files -> q_rrtype q < u32 ->
  dnstable_query_iter_fileset lib q files = Ok qi -> exists most, always_ends qi most.
Proof.
  intros lib files q qi HS HD HR HU E. unfold dnstable_query_iter_fileset in E.
  destruct (fates q files) as [l| | | |] eqn:EF; cbn [bind] in E; try discriminate E.
  pose proof (files_with_incl q files l Keep EF) as HI.
  destruct (HS _ HI) as [S1 S2]. destruct (delivered_readable lib files _ HD HR HI) as [R1 R2].
  destruct (q_aggregated q).
  - eexists. eapply all_calls_end; [exact S1|exact S1|apply readable_bytes; exact R1|apply readable_bytes; exact R1|exact HU|apply readable_ends; exact R1|exact E].
  - eexists. eapply all_calls_end; [exact S2|exact S1|apply readable_bytes; exact R2|apply readable_bytes; exact R1|exact HU|apply readable_ends; exact R2|exact E].
Qed.
Print Assumptions fileset_iteration_ends.

(** So a caller who never sets a timeout or deadline and asks often enough is told the end,
    or the program crashes on junk. *)
Theorem asking_ends : forall qi most, always_ends qi most -> exists rounds, forall fuel w ts, (rounds <= fuel)%nat -> (most < length ts)%nat ->
  exists r, In r (timed_calls fuel ts qi w) /\ (r = QEnd \/ r = QTimeout \/ r = QAbort \/ r = QUB).
Proof.
  intros qi most (n & H). exists n. intros fuel w ts HL HT. destruct (H fuel ts w HL) as [HH HC].
  assert (L : length (timed_calls fuel ts qi w) = length ts).
  { clear. revert qi w. induction ts as [|tm ts IH]; intros qi w; [reflexivity|]. cbn [timed_calls]. destruct (qnext fuel (set_timing tm qi) w) as [[r qi'] w']. cbn [length]. f_equal. apply IH. }
  rewrite <- L in HT. unfold returned in HC. revert HH HC HT. generalize (timed_calls fuel ts qi w). clear. intros l. revert most.
  induction l as [|r l IH]; intros most HH HC HT; [cbn in HT; lia|].
  destruct r as [e| | | | |]; try (eexists; split; [left; reflexivity|tauto]).
  - cbn [filter length] in HC, HT. destruct most as [|most]; [lia|]. destruct (IH most) as (r & A & B); [intro C; apply HH; right; exact C|lia|lia|]. exists r. split; [right; exact A|exact B].
  - exfalso. apply HH. left. reflexivity.
Qed.
Print Assumptions asking_ends.

(** The files of C85, with keys cut short, names too deep and junk for values, and queries
    whose filters seek: by label, by address, through an index. *)
Definition Q86 := ask QRrset None (Some (wire [[97]; [star_sign]])) None None [] [] 0 None None None None.
Definition stray : table := [put (RRset [[97]; [98]] 1 [] [[9; 9; 9; 9]] (ob 10 20 3)); ([1; 1; 97], []); put (OwnerIndex [[97]; [98]] [0; 1; 64]); ([1; 1; 97; 1; 98; 0; 7], [1; 2; 3; 4])].
Lemma few_unending : forall k, match k with 0 :: _ => match entry_decode k [] with Hang => False | _ => True end | _ => True end -> bytes_ok k -> ~ unending k.
Proof.
  intros k H HB HU. pose proof (decode_unending k [] HB HU) as E. destruct HU as [buf owner ty bw rest ds l A B C].
  change (match entry_decode (ENTRY_TYPE_RRSET :: buf) [] with Hang => False | _ => True end) in H. rewrite E in H. exact H.
Qed.
Lemma readable_check : forall t, forallb (fun e => forallb (fun b => b <? 256) (fst e) && match entry_decode (fst e) [] with Hang => false | _ => true end) t = true -> readable_keys t.
Proof.
  intros t H k v HI. rewrite forallb_forall in H. specialize (H _ HI). apply andb_true_iff in H. destruct H as [H1 H2]. cbn [fst] in *.
  assert (HB : bytes_ok k) by (apply Forall_forall; intros x Hx; rewrite forallb_forall in H1; specialize (H1 x Hx); apply N.ltb_lt; exact H1).
  split; [exact HB|]. apply few_unending; [|exact HB]. destruct k as [|[|p] k]; auto. destruct (entry_decode (0 :: k) []); auto. discriminate.
Qed.
Example c86_case : sorted hiding /\ readable_keys hiding /\ sorted stray /\ readable_keys stray /\ q_rrtype Q85 < u32 /\ q_rrtype Q85ip < u32 /\ q_rrtype Q86 < u32 /\
  (exists qi, dnstable_query_iter Q85 hiding = Ok qi) /\ (exists qi, dnstable_query_iter Q85ip hiding = Ok qi) /\
  (exists qi, dnstable_query_iter Q86 stray = Ok qi /\ exists tb i c, qi_kind qi = Indirect tb i c) /\
  seen_by 2 Q85 hiding = [Some (0, Ok (wire [[98]; [97]]), Ok 1); None] /\
  seen_by 2 Q85ip hiding = [Some (2, Ok (wire [[99]]), Ok 1); None].
Proof.
  split; [repeat constructor|]. split; [apply readable_check; vm_compute; reflexivity|]. split; [repeat constructor|]. split; [apply readable_check; vm_compute; reflexivity|].
  split; [vm_compute; reflexivity|]. split; [vm_compute; reflexivity|]. split; [vm_compute; reflexivity|].
  split; [eexists; vm_compute; reflexivity|]. split; [eexists; vm_compute; reflexivity|].
  split; [eexists; split; [reflexivity|]; eexists; eexists; eexists; reflexivity|].
  split; vm_compute; reflexivity.
Qed.

(** Without the condition on keys: a file with the single key of C16 on which decoding never
    ends, and the first call on a query for all its data never returns. *)
Definition Q86x := ask QRrset None (Some (wire [])) None None [] [] 0 None None None None.
Theorem one_key_hangs_refuted : exists t q qi, sorted t /\ stored_bytes t /\ dnstable_query_iter q t = Ok qi /\
  forall most, ~ always_ends qi most.
Proof.
  exists [([0; 0; 1; 0; 2; 7; 8; 128; 128; 128; 128; 128], [1; 1; 1])], Q86x. eexists. split; [repeat constructor|]. split.
  { intros k v [E|[]]. injection E as <- <-. split; apply bytes_okb_ok; reflexivity. }
  split; [reflexivity|]. intros most (n & H). destruct (H (S (S n)) [TKeep] world0 ltac:(lia)) as [HH _]. apply HH. left. reflexivity.
Qed.
Print Assumptions one_key_hangs_refuted.

(** Three files with junk, two of them kept and one only merged in. *)
Lemma insert_sort_sorted : forall k v t, sorted t -> sorted (insert_sort k v t).
Proof.
  intros k v t H. induction H as [|[k' v'] t H IH HF]; cbn [insert_sort]; [repeat constructor|].
  assert (A : ble k k' = true -> sorted ((k, v) :: (k', v') :: t)).
  { intro E. constructor; [constructor; assumption|]. constructor; [exact E|]. eapply Forall_impl; [|exact HF]. intros e He. eapply ble_trans; [exact E|exact He]. }
  assert (B : ble k' k = true -> sorted ((k', v') :: insert_sort k v t)).
  { intro E. constructor; [exact IH|]. apply Forall_forall. intros e He. apply (Permutation.Permutation_in e (Permutation.Permutation_sym (insert_sort_perm k v t))) in He.
    destruct He as [<-|He]; [exact E|rewrite Forall_forall in HF; exact (HF e He)]. }
  unfold ble in A, B. rewrite (bytes_compare_antisym k k') in B. destruct (bytes_compare k k'); cbn [CompOpp] in B; auto.
  destruct (dnstable_dupsort_func k v v') as [[]| | | |]; auto.
Qed.
Lemma lib0_sorted : forall files, sorted (lib_merged lib0 files) /\ sorted (lib_unmerged lib0 files).
Proof.
  intro files. cbn [lib_merged lib_unmerged lib0]. split.
  - destruct (merge_entries (concat files)) as [t| | | |] eqn:E; try constructor. apply strict_sorted. apply (merge_entries_ok _ _ E).
  - induction (concat files) as [|e l IH]; [constructor|]. cbn [sort_entries fold_right]. apply insert_sort_sorted. exact IH.
Qed.
Example c86_files_case : (forall part, incl part junk_files -> sorted (lib_merged lib0 part) /\ sorted (lib_unmerged lib0 part)) /\
  delivers lib0 junk_files /\ Forall readable_keys junk_files /\ q_rrtype (Q79files true) < u32 /\
  (exists qi, dnstable_query_iter_fileset lib0 (Q79files true) junk_files = Ok qi) /\
  file_reports (Q79files true) = [Some (Ok 1, Ok 30, Ok 8); None; None].
Proof.
  split; [intros part _; apply lib0_sorted|]. split; [apply lib0_delivers|].
  split; [repeat (first [apply Forall_nil | apply Forall_cons; [apply readable_check; vm_compute; reflexivity|]])|].
  split; [vm_compute; reflexivity|]. split; [|vm_compute; reflexivity].
  assert (H : match dnstable_query_iter_fileset lib0 (Q79files true) junk_files with Ok _ => True | _ => False end) by (vm_compute; exact I).
  destruct (dnstable_query_iter_fileset lib0 (Q79files true) junk_files) as [qi| | | |]; try contradiction. exists qi. reflexivity.
Qed.
