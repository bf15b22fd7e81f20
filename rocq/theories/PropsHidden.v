(** Property C85: junk in a file hides nothing that is well-formed. *)
From Verif Require Import Base ModelWdns SpecName NameFacts SpecMerge ModelEntry SpecEntry EntryProofs ModelIter SpecIter ModelQuery SpecQuery.
From Verif Require Import SelectProofs SpecFileset ModelFileset SpecReader SpecSound PropsQuery PropsFileset PropsSound HiddenProofs SpecHidden CurrentProofs.
From Verif Require Import Demo PropsIter.

Lemma stored_byte_keys : forall t, stored_bytes t -> byte_keys t.
Proof. intros t H k v HI. apply (H k v HI). Qed.

(** ** C85 *)
(** A file, sorted as libmtbl keeps it, holds an entry that encodes [r], and anything
    else: keys cut short, junk for values, junk between the entries of one name.  A query
    answered by one lookup that asks for [r] can be iterated, and however timeout and
    deadline are changed meanwhile, if the iteration comes to an end, [r] was returned. *)
Theorem junk_hides_nothing : forall t q r k v M, sorted t -> stored_bytes t -> In (k, v) t -> encodes r (k, v) ->
  asks q [r] M -> M r -> q_offset q = 0 ->
  exists qi e, dnstable_query_iter q t = Ok qi /\ shows r e /\ entry_decode k v = Ok e /\
    forall fuel ts w n, ends_with (timed_calls fuel ts qi w) n -> In (QEntry e) (firstn n (timed_calls fuel ts qi w)).
Proof.
  intros t q r k v M HS HB HI HE HA HM HO.
  destruct (unhidden t q r k v M HS (stored_byte_keys t HB) HI HE HA HM HO) as (qi & e & E & SH & ED & H).
  exists qi, e. split; [apply E|]. split; [exact SH|]. split; [exact ED|]. intros fuel ts w n [H1 H2]. exact (H fuel ts w n H1 H2).
Qed.
Print Assumptions junk_hides_nothing.

Lemma no_bounds_keep : forall q files l, no_bounds q -> fates q files = Ok l -> files_with Keep l = files.
Proof.
  intros q files. induction files as [|f files IH]; intros l HN E; cbn [fates] in E.
  - injection E as <-. reflexivity.
  - destruct (reader_time_filter q f) as [x| | | |] eqn:EX; cbn [bind] in E; try discriminate.
    destruct (fates q files) as [l0| | | |] eqn:EL; cbn [bind] in E; try discriminate. injection E as <-.
    assert (X : x = Keep).
    { unfold reader_time_filter in EX. destruct (file_time_range f) as [[[a b]|]| | | |]; cbn [bind] in EX; try discriminate; [|congruence].
      destruct HN as (A & B & C & D). rewrite A, B, C, D in EX. cbn [andb] in EX. congruence. }
    subst x. unfold files_with. cbn [filter fst fate_eqb map snd]. f_equal. apply IH; auto.
Qed.

(** The same for a query without time bounds over several files: nothing that libmtbl
    delivers from them is hidden by the rest. *)
Theorem fileset_junk_hides_nothing : forall lib files q qi r k v M,
  let t := if q_aggregated q then lib_merged lib files else lib_unmerged lib files in
  sorted t -> stored_bytes t -> In (k, v) t -> encodes r (k, v) ->
  asks q [r] M -> M r -> q_offset q = 0 -> no_bounds q -> dnstable_query_iter_fileset lib q files = Ok qi ->
  exists e, shows r e /\ entry_decode k v = Ok e /\
    forall fuel ts w n, ends_with (timed_calls fuel ts qi w) n -> In (QEntry e) (firstn n (timed_calls fuel ts qi w)).
Proof.
  intros lib files q qi r k v M t HS HB HI HE HA HM HO HN E.
  destruct (unhidden t q r k v M HS (stored_byte_keys t HB) HI HE HA HM HO) as (qi' & e & E' & SH & ED & H).
  assert (Eq : qi = qi').
  { unfold dnstable_query_iter_fileset in E. destruct (fates q files) as [l| | | |] eqn:EF; cbn [bind] in E; try discriminate.
    rewrite (no_bounds_keep q files l HN EF) in E.
    assert (TB : has_time_bound q = false) by (destruct HN as (A & B & C & D); unfold has_time_bound; rewrite A, B, C, D; reflexivity).
    rewrite TB, andb_false_r in E. cbn [andb] in E. change {| f_remove := None; f_fill := None |} with no_fence in E.
    unfold t in E'. destruct (q_aggregated q); rewrite E' in E; congruence. }
  subst qi'. exists e. split; [exact SH|]. split; [exact ED|]. intros fuel ts w n [H1 H2]. exact (H fuel ts w n H1 H2).
Qed.
Print Assumptions fileset_junk_hides_nothing.

(** A name with a wildcard, a type, a bailiwick and a time bound over a file with keys cut
    short, names too deep and values that do not decode; a range of addresses over keys of
    other types and lengths. *)
Definition R85 : record := RRset [[98]; [97]] 1 [[97]] [[9; 9; 9; 9]] (ob 10 20 3).
Definition A85 : record := RData [[99]] 1 [] [1; 2; 3; 4] (ob 10 20 3).
Definition hiding : table :=
  [([0; 1; 97], [1]); ([0; 1; 97; 0; 7], []); ([0; 1; 97; 1; 97; 1; 98; 0; 1], [1; 2; 3]); ([0; 1; 97; 1; 98; 0], [5]);
   ([0; 1; 97; 1; 98; 0; 1; 1; 97; 0; 3], [9; 9; 1]); put R85; ([0; 1; 97; 1; 98; 63], [200]); ([0; 1; 97; 2; 98], [5; 6]);
   ([2; 1], [7]); ([2; 1; 1; 1; 1; 0; 9], [1; 1; 1]); ([2; 1; 2; 3; 4; 0; 1; 2; 9; 9], []); ([2; 1; 2; 3; 4; 1; 1; 65; 0; 4], [3]); put A85; ([2; 1; 2; 3; 5; 1; 70; 0], [4]); ([9; 9; 9], [])].
Definition Q85 := ask QRrset (Some 1) (Some (wire [[plus_sign]; [97]])) (Some (rwire [[97]])) None [] [] 0 (Some 7) None None None.
Definition Q85ip := ask QRdataIp (Some 1) None None None [1; 0; 0; 0] [2; 0; 0; 0] 0 None None None None.
Example c85_case : sorted hiding /\ stored_bytes hiding /\ In (put R85) hiding /\ encodes R85 (put R85) /\ In (put A85) hiding /\ encodes A85 (put A85) /\
  asks Q85 [R85] (below_rrset Q85 plus_sign [[97]] (Some [[97]])) /\ below_rrset Q85 plus_sign [[97]] (Some [[97]]) R85 /\
  asks Q85ip [A85] (ip_rdata Q85ip 1 [1; 0; 0; 0] [2; 0; 0; 0]) /\ ip_rdata Q85ip 1 [1; 0; 0; 0] [2; 0; 0; 0] A85 /\
  seen_by 2 Q85 hiding = [Some (0, Ok (wire [[98]; [97]]), Ok 1); None] /\
  seen_by 2 Q85ip hiding = [Some (2, Ok (wire [[99]]), Ok 1); None] /\
  (exists qi, dnstable_query_iter Q85 hiding = Ok qi /\ ends_with (timed_calls 100 [TKeep; TKeep] qi (load_offset Q85 world0)) 1) /\
  (exists qi, dnstable_query_iter Q85ip hiding = Ok qi /\ ends_with (timed_calls 100 [TKeep; TKeep] qi (load_offset Q85ip world0)) 1).
Proof.
  split; [repeat constructor|]. split.
  { assert (H : forallb (fun e => forallb (fun b => b <? 256) (fst e) && forallb (fun b => b <? 256) (snd e)) hiding = true) by reflexivity.
    intros k v Hin. rewrite forallb_forall in H. specialize (H _ Hin). apply andb_true_iff in H. destruct H as [H1 H2]. rewrite forallb_forall in H1, H2.
    split; apply Forall_forall; intros x Hx; [specialize (H1 x Hx)|specialize (H2 x Hx)]; apply N.ltb_lt; assumption. }
  split; [cbn; tauto|]. split; [apply put_ok; reflexivity|]. split; [unfold hiding; cbn [In]; tauto|]. split; [apply put_ok; reflexivity|].
  split; [apply asks_below_rrset; auto; split; try reflexivity; apply name_okb_ok; reflexivity|].
  split. { split; [exists [[98]]; split; [reflexivity|intros _; reflexivity]|]. split; [intros _; reflexivity|]. split; [reflexivity|]. vm_compute. intuition congruence. }
  split.
  { apply (asks_ip_rdata _ _ 4%nat 1 [1; 0; 0; 0] [2; 0; 0; 0]); try reflexivity.
    - split; [left; split; reflexivity|]. repeat (split; [try reflexivity; apply bytes_okb_ok; reflexivity|]). right. repeat (split; [reflexivity|]). apply bytes_okb_ok. reflexivity.
    - intros ow head tail o [E|[]]. injection E as _ <- <- _. split; reflexivity.
    - intros ow ty' head tail o k [E|[]] HN. injection E as _ E _ _ _. congruence. }
  split. { split; [reflexivity|]. split; [vm_compute; intuition congruence|]. vm_compute. intuition congruence. }
  split; [vm_compute; reflexivity|]. split; [vm_compute; reflexivity|].
  split.
  - destruct (dnstable_query_iter Q85 hiding) as [qi| | | |] eqn:E; try (vm_compute in E; discriminate E). exists qi. split; [reflexivity|].
    vm_compute in E. injection E as <-. split; [vm_compute; reflexivity|]. vm_compute. repeat constructor.
  - destruct (dnstable_query_iter Q85ip hiding) as [qi| | | |] eqn:E; try (vm_compute in E; discriminate E). exists qi. split; [reflexivity|].
    vm_compute in E. injection E as <-. split; [vm_compute; reflexivity|]. vm_compute. repeat constructor.
Qed.

(** A query that follows an index is cut short by junk in the index: the record and its
    index entry are well-formed, and the first call says the end. *)
Definition R85x : record := RRset [[97]; [98]] 1 [] [[9; 9; 9; 9]] (ob 10 20 3).
Definition Q85x := ask QRrset None (Some (wire [[97]; [star_sign]])) None None [] [] 0 None None None None.
Theorem index_junk_hides_refuted : exists t q r ix I B M qi, sorted t /\ stored_bytes t /\ In (put r) t /\ encodes r (put r) /\ In (put ix) t /\ encodes ix (put ix) /\
  asks_grouped q [r; ix] I B M /\ M r /\ q_offset q = 0 /\ dnstable_query_iter q t = Ok qi /\
  forall w, ends_with (timed_calls 10 [TKeep; TKeep] qi w) 0.
Proof.
  exists [put R85x; ([1; 1; 97; 1], []); put (OwnerIndex [[97]; [98]] [0; 1; 64])], Q85x, R85x, (OwnerIndex [[97]; [98]] [0; 1; 64]),
    (after_index star_sign [[97]]), same_owner, (after_rrset Q85x star_sign [[97]] None).
  eexists. split; [repeat constructor|]. split.
  { intros k v Hin. cbn in Hin. repeat (destruct Hin as [E|Hin]; [injection E as <- <-; split; apply bytes_okb_ok; reflexivity|]). contradiction. }
  split; [cbn; tauto|]. split; [apply put_ok; reflexivity|]. split; [cbn; tauto|]. split; [apply put_ok; reflexivity|].
  split.
  { apply (asks_after_rrset _ _ star_sign [[97]] None); try reflexivity; auto.
    - split; [reflexivity|apply name_okb_ok; reflexivity].
    - no_wild_left.
    - split; [reflexivity|exact I].
    - intro C. discriminate C.
    - intros ow ty bw rs o [E|[E|[]]]; [|discriminate E]. injection E as <- <- _ _ _. exists [0; 1; 64]. split; [right; left; reflexivity|].
      apply (one_window_lists 0 [64]); [window_here|reflexivity|reflexivity].
    - intro C. discriminate C. }
  split. { split; [exists [[98]]; split; [reflexivity|intro C; discriminate C]|]. split; [intro C; discriminate C|]. split; [exact I|]. vm_compute. intuition congruence. }
  split; [reflexivity|]. split; [reflexivity|]. intro w. split; [vm_compute; reflexivity|constructor].
Qed.
Print Assumptions index_junk_hides_refuted.
