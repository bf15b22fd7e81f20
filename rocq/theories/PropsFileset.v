(** C30, C31: queries over a set of files.  C50: the order of duplicates. *)
From Coq Require Import Permutation.
From Verif Require Import Base BaseFacts ModelVarint VarintProofs ModelMerge SpecMerge MergeProofs PropsMerge ModelWdns SpecName NameFacts.
From Verif Require Import ModelEntry SpecEntry EntryProofs PropsEntry ModelUnion SpecUnion ModelIter SpecIter IterProofs PropsIter.
From Verif Require Import UnionProofs UnionBuild UnionMerge PropsUnion ModelQuery SpecQuery KeyProofs FilterProofs QueryProofs SelectProofs RRsetQueries IndexProofs RightWildcard RdataQueries IpProofs IpQueries Demo PropsQuery.
From Verif Require Import ModelReader SpecReader PropsReader ModelSetters ModelFileset SpecFileset FilesetProofs FilesetQueries FilesetDirect FilesetGrouped FilesetUnmerged FilesetDemo.

(** * C30 *)

(** The records of all files merged, those the query asks for within its bounds; the
    same as a query of one file with all of them merged returns. *)
Theorem fileset_query : forall lib q files recss M,
  merges lib files -> Forall file_ok files -> Forall2 database recss files -> q_aggregated q = true ->
  asks q (concat recss) M ->
  exists recs out es, database recs (lib_merged lib files) /\ selects M recs out /\ Forall2 shows out es /\
    lists q (dnstable_reader_query lib (dnstable_reader_init_setfile files) q) es /\
    lists q (dnstable_reader_query lib (dnstable_reader_init (lib_merged lib files)) q) es.
Proof.
  intros lib q files recss M HL HO HD HA HM. destruct (fileset_direct lib files recss q HL HO HD HA M HM) as (recs & out & es & A & _ & B & C & D & E).
  exists recs, out, es. auto.
Qed.

Theorem fileset_query_grouped : forall lib q files recss I B M,
  merges lib files -> Forall file_ok files -> Forall2 database recss files -> q_aggregated q = true ->
  Forall indexed recss -> parts_index_safe lib q files ->
  asks_grouped q (concat recss) I B M ->
  exists recs heads outs all es, database recs (lib_merged lib files) /\
    selects I recs heads /\ Forall2 (fun h out => selects (fun r => B h r /\ M r) recs out) heads outs /\
    selects M recs all /\ Permutation (concat outs) all /\ Forall2 shows (concat outs) es /\
    lists q (dnstable_reader_query lib (dnstable_reader_init_setfile files) q) es /\
    lists q (dnstable_reader_query lib (dnstable_reader_init (lib_merged lib files)) q) es.
Proof.
  intros lib q files recss I B M HL HO HD HA HX HS HM.
  destruct (fileset_grouped lib files recss q HL HO HD HX HS HA I B M HM) as (recs & heads & outs & all & es & A & _ & H).
  exists recs, heads, outs, all, es. split; [exact A|]. exact H.
Qed.

(** Without bounds, for every kind of query whatsoever: exactly the iterator over the
    files merged. *)
Theorem fileset_query_unbounded : forall lib q files, Forall file_ok files -> q_aggregated q = true -> has_time_bound q = false ->
  dnstable_reader_query lib (dnstable_reader_init_setfile files) q =
  dnstable_reader_query lib (dnstable_reader_init (lib_merged lib files)) q.
Proof.
  intros lib q files HO HA HT. cbn [dnstable_reader_query dnstable_reader_init dnstable_reader_init_setfile r_fs r_source].
  unfold dnstable_query_iter_fileset. destruct (fates_found q files HO) as (l & EF & EL & HF). rewrite EF. cbn [bind]. rewrite HA, HT. cbn [andb].
  rewrite (all_kept q l HT HF), EL. reflexivity.
Qed.

(** Type, owner, times and count of the entries. *)
Definition seen_in (n : nat) (q : query) (files : list table) : list (option (res bytes * res N * res N * res N)) :=
  match dnstable_reader_query lib0 (dnstable_reader_init_setfile files) q with
  | Ok qi => map (fun r => match r with QEntry e => Some (get_rrname e, get_time_first e, get_time_last e, get_count e) | _ => None end)
                 (calls 100 n qi (load_offset q world0))
  | _ => []
  end.

(** First seen 50 or later, last seen 300 or later: of file1 only values are filled in,
    the keys of file3 are removed. *)
Definition Q30 := ask QRrset (Some 1) (Some (wire [[star_sign]; L_ex; L_com])) None None [] [] 0 (Some 50) None (Some 300) None.
Definition Q30i := ask QRrset (Some 1) (Some (wire [L_www; [star_sign]])) None None [] [] 0 (Some 50) None (Some 300) None.

Lemma demo_files_indexed : Forall indexed demo_recss.
Proof.
  assert (V : union_valid [0; 1; 64]).
  { change [0; 1; 64] with (encode_windows [(0, [64])]). apply uv_map; [discriminate|]. apply one_window. window_here. }
  assert (L : lists_type [0; 1; 64] 1) by (apply (one_window_lists 0 [64]); [window_here|reflexivity|reflexivity]).
  unfold demo_recss. constructor; [|constructor; [|constructor; [|constructor]]].
  - split; [|split].
    + intros ow ty bw rs o H. unfold file1 in H. in_demo H; exists [0; 1; 64]; (split; [cbn; tauto|exact L]).
    + intros ow ty h n x o H. unfold file1 in H. in_demo H.
    + intros n m [H|H]; unfold file1 in H; in_demo H; right; exact V.
  - split; [|split].
    + intros ow ty bw rs o H. unfold file2 in H. in_demo H; exists [0; 1; 64]; (split; [cbn; tauto|exact L]).
    + intros ow ty h n x o H. unfold file2 in H. in_demo H.
    + intros n m [H|H]; unfold file2 in H; in_demo H; right; exact V.
  - split; [|split].
    + intros ow ty bw rs o H. unfold file3 in H. in_demo H; exists [0; 1; 64]; (split; [cbn; tauto|exact L]).
    + intros ow ty h n x o H. unfold file3 in H. in_demo H.
    + intros n m [H|H]; unfold file3 in H; in_demo H; right; exact V.
Qed.

Lemma demo_parts_safe : forall q, q_rrtype q = 1 -> parts_index_safe lib0 q demo_files.
Proof.
  intros q HQ _ P part HP k m Hm Hk. rewrite HQ.
  assert (C : forallb (fun part => forallb (fun e => negb ((hd 0 (fst e) =? 1) || (hd 0 (fst e) =? 3)) || beq (snd e) [0; 1; 64]) (lib_merged lib0 part)) (sublists demo_files) = true) by (vm_compute; reflexivity).
  rewrite forallb_forall in C. specialize (C part (selects_sublist _ _ _ _ HP)). rewrite forallb_forall in C. specialize (C _ Hm). cbn [fst snd] in C.
  assert (E : (hd 0 k =? 1) || (hd 0 k =? 3) = true) by (destruct Hk as [-> | ->]; reflexivity). rewrite E in C. cbn [negb orb] in C. apply beq_true in C. subst m.
  apply (one_window_safe 0 [64]); [window_here|discriminate].
Qed.

Lemma demo_grouped_ask : forall q, q_type q = QRrset -> q_name q = Some (wire [L_www; [star_sign]]) -> q_bailiwick q = None -> q_rrtype q = 1 ->
  asks_grouped q (concat demo_recss) (after_index star_sign [L_www]) same_owner (after_rrset q star_sign [L_www] None).
Proof.
  intros q H1 H2 H3 H4. apply (asks_after_rrset q _ star_sign [L_www] None); auto.
  - split; [exact H2|apply name_okb_ok; reflexivity].
  - no_wild_left.
  - split; [exact H3|exact I].
  - intros _. rewrite H4. vm_compute. split; congruence.
  - intros ow ty bw rs o H. apply in_concat in H. destruct H as (recs & HR & H). pose proof demo_files_indexed as F. rewrite Forall_forall in F.
    destruct (F recs HR) as (A & _). destruct (A _ _ _ _ _ H) as (m & Hm & Ht). exists m. split; [apply in_concat; exists recs; auto|exact Ht].
  - intros _ ow m H. rewrite H4. unfold demo_recss, file1, file2, file3 in H. cbn [concat app] in H. in_demo H; apply (one_window_safe 0 [64]); try window_here; discriminate.
Qed.

Example c30_case : merges lib0 demo_files /\ Forall file_ok demo_files /\ Forall2 database demo_recss demo_files /\
  asks Q30 (concat demo_recss) (below_rrset Q30 star_sign [L_ex; L_com] None) /\
  Forall indexed demo_recss /\ parts_index_safe lib0 Q30i demo_files /\
  asks_grouped Q30i (concat demo_recss) (after_index star_sign [L_www]) same_owner (after_rrset Q30i star_sign [L_www] None) /\
  fates Q30 demo_files = Ok (combine [Fill; Keep; Remove] demo_files) /\
  seen_in 3 Q30 demo_files = [Some (Ok (wire [L_www; L_ex; L_com]), Ok 60, Ok 400, Ok 8); None; None] /\
  seen_in 3 Q30i demo_files = [Some (Ok (wire [L_www; L_ex; L_com]), Ok 60, Ok 400, Ok 8); None; None].
Proof.
  split; [apply demo_merges|]. split; [apply demo_files_ok|]. split; [apply demo_databases|]. split.
  { apply asks_below_rrset; auto; split; try reflexivity; apply name_okb_ok; reflexivity. }
  split; [apply demo_files_indexed|]. split; [apply demo_parts_safe; reflexivity|]. split; [apply demo_grouped_ask; reflexivity|].
  split; [vm_compute; reflexivity|]. split; vm_compute; reflexivity.
Qed.

(** * C31 *)

(** What the files hold separately, within the bounds, in key order and with the same
    key by first and last seen; nothing is merged. *)
Theorem fileset_query_unaggregated : forall lib q files recss M,
  lists_duplicates lib files -> Forall file_ok files -> Forall2 database recss files -> q_aggregated q = false ->
  asks q (concat recss) M ->
  exists sel out kvs es, selects M (concat recss) sel /\ Permutation sel out /\
    Forall2 encodes out kvs /\ StronglySorted earlier (combine out kvs) /\ Forall2 shows out es /\
    lists q (dnstable_reader_query lib (dnstable_reader_init_setfile files) q) es.
Proof. intros lib q files recss M HDp HO HD HA HM. exact (fileset_unmerged_direct lib files recss q HDp HO HD HA M HM). Qed.

(** Queries through an index: the groups follow the keys of the index records. *)
Theorem fileset_query_unaggregated_grouped : forall lib q files recss I B M,
  merges lib files -> lists_duplicates lib files -> Forall file_ok files -> Forall2 database recss files -> q_aggregated q = false ->
  Forall indexed recss -> parts_index_safe lib q files ->
  asks_grouped q (concat recss) I B M ->
  exists heads hkvs outs kvss sel es,
    Forall I heads /\ Forall2 encodes heads hkvs /\ strict hkvs /\
    Forall2 (fun h out => Forall (B h) out) heads outs /\
    selects M (concat recss) sel /\ Permutation sel (concat outs) /\
    Forall2 (Forall2 encodes) outs kvss /\ Forall2 (fun out kvs => StronglySorted earlier (combine out kvs)) outs kvss /\
    Forall2 shows (concat outs) es /\
    lists q (dnstable_reader_query lib (dnstable_reader_init_setfile files) q) es.
Proof. intros lib q files recss I B M HL HDp HO HD HA HX HS HM. exact (fileset_unmerged_grouped lib files recss q HL HDp HO HD HA HX HS I B M HM). Qed.

Definition unaggregated (q : query) : query :=
  {| q_type := q_type q; q_do_rrtype := q_do_rrtype q; q_rrtype := q_rrtype q;
     q_do_timeout := q_do_timeout q; q_timeout := q_timeout q;
     q_do_deadline := q_do_deadline q; q_deadline := q_deadline q;
     q_aggregated := false; q_case_sensitive := q_case_sensitive q;
     q_do_tfb := q_do_tfb q; q_tfb := q_tfb q; q_do_tfa := q_do_tfa q; q_tfa := q_tfa q;
     q_do_tlb := q_do_tlb q; q_tlb := q_tlb q; q_do_tla := q_do_tla q; q_tla := q_tla q;
     q_name := q_name q; q_bailiwick := q_bailiwick q;
     q_len_ip1 := q_len_ip1 q; q_len_ip2 := q_len_ip2 q; q_ip1 := q_ip1 q; q_ip2 := q_ip2 q;
     q_len_rdata := q_len_rdata q; q_rdata := q_rdata q; q_offset := q_offset q;
     q_has_v_type := q_has_v_type q; q_v_type := q_v_type q |}.

Definition Q31 := unaggregated (ask QRrset (Some 1) (Some (wire [[star_sign]; L_ex; L_com])) None None [] [] 0 None None None None).
Definition Q31f := unaggregated (ask QRrset (Some 1) (Some (wire [[star_sign]; L_ex; L_com])) None None [] [] 0 (Some 50) None (Some 100) None).
Definition Q31i := unaggregated (ask QRrset (Some 1) (Some (wire [L_www; [star_sign]])) None None [] [] 0 (Some 50) None (Some 100) None).
Example c31_case : merges lib0 demo_files /\ lists_duplicates lib0 demo_files /\ Forall file_ok demo_files /\ Forall2 database demo_recss demo_files /\
  asks Q31f (concat demo_recss) (below_rrset Q31f star_sign [L_ex; L_com] None) /\
  Forall indexed demo_recss /\ parts_index_safe lib0 Q31i demo_files /\
  asks_grouped Q31i (concat demo_recss) (after_index star_sign [L_www]) same_owner (after_rrset Q31i star_sign [L_www] None) /\
  fates Q31f demo_files = Ok (combine [Keep; Keep; Remove] demo_files) /\
  seen_in 5 Q31 demo_files =
    [Some (Ok (wire [L_mx; L_ex; L_com]), Ok 10, Ok 20, Ok 3); Some (Ok (wire [L_mx; L_ex; L_com]), Ok 100, Ok 400, Ok 5);
     Some (Ok (wire [L_www; L_ex; L_com]), Ok 60, Ok 250, Ok 7); Some (Ok (wire [L_www; L_ex; L_com]), Ok 200, Ok 400, Ok 1); None] /\
  seen_in 4 Q31f demo_files =
    [Some (Ok (wire [L_mx; L_ex; L_com]), Ok 100, Ok 400, Ok 5);
     Some (Ok (wire [L_www; L_ex; L_com]), Ok 60, Ok 250, Ok 7); Some (Ok (wire [L_www; L_ex; L_com]), Ok 200, Ok 400, Ok 1); None] /\
  seen_in 3 Q31i demo_files =
    [Some (Ok (wire [L_www; L_ex; L_com]), Ok 60, Ok 250, Ok 7); Some (Ok (wire [L_www; L_ex; L_com]), Ok 200, Ok 400, Ok 1); None].
Proof.
  split; [apply demo_merges|]. split; [apply demo_lists_duplicates|]. split; [apply demo_files_ok|]. split; [apply demo_databases|]. split.
  { apply asks_below_rrset; auto; split; try reflexivity; apply name_okb_ok; reflexivity. }
  split; [apply demo_files_indexed|]. split; [apply demo_parts_safe; reflexivity|]. split; [apply demo_grouped_ask; reflexivity|].
  split; [vm_compute; reflexivity|]. split; [vm_compute; reflexivity|]. split; vm_compute; reflexivity.
Qed.

(** * C50 *)

(** For the values of RRset and record data entries, first seen decides, then last
    seen; the count does not matter.  All other values are equal to each other. *)
Theorem dupsort_order : forall k,
  (timed_key k -> forall v v' o o', obs_ok o -> obs_value o v -> obs_ok o' -> obs_value o' v' ->
     exists c, dnstable_dupsort_func k v v' = Ok c /\
       (c = Lt <-> o_first o < o_first o' \/ (o_first o = o_first o' /\ o_last o < o_last o')) /\
       (c = Gt <-> o_first o' < o_first o \/ (o_first o' = o_first o /\ o_last o' < o_last o)) /\
       (c = Eq <-> o_first o = o_first o' /\ o_last o = o_last o')) /\
  (~ timed_key k -> forall v v', dnstable_dupsort_func k v v' = Ok Eq).
Proof.
  intro k. split.
  - intros HK v v' o o' H1 H2 G1 G2. eexists. split; [apply (dupsort_obs k v v' o o' HK (conj H1 H2) (conj G1 G2))|].
    destruct (N.ltb_spec (o_first o) (o_first o')); [repeat split; intros; try discriminate; try reflexivity; lia|].
    destruct (N.ltb_spec (o_first o') (o_first o)); [repeat split; intros; try discriminate; try reflexivity; lia|].
    destruct (N.ltb_spec (o_last o) (o_last o')); [repeat split; intros; try discriminate; try reflexivity; lia|].
    destruct (N.ltb_spec (o_last o') (o_last o)); repeat split; intros; try discriminate; try reflexivity; lia.
  - intros HK v v'. unfold dnstable_dupsort_func. destruct k as [|b k]; [reflexivity|].
    destruct ((b =? ENTRY_TYPE_RRSET) || (b =? ENTRY_TYPE_RDATA)) eqn:E; [|reflexivity]. exfalso. apply HK. exists b, k. split; [reflexivity|].
    unfold ENTRY_TYPE_RRSET, ENTRY_TYPE_RDATA in E. lia.
Qed.

(** A total preorder on the values that can be compared with themselves. *)
Theorem dupsort_total_preorder : forall k,
  let fits v := exists c, dnstable_dupsort_func k v v = Ok c in
  let le v v' := exists c, dnstable_dupsort_func k v v' = Ok c /\ c <> Gt in
  (forall v, fits v -> le v v) /\
  (forall v v', fits v -> fits v' -> le v v' \/ le v' v) /\
  (forall u v w, le u v -> le v w -> le u w) /\
  (forall v v' c, dnstable_dupsort_func k v v' = Ok c -> dnstable_dupsort_func k v' v = Ok (CompOpp c)) /\
  (timed_key k -> forall o v, obs_ok o -> obs_value o v -> fits v).
Proof.
  intro k. cbn zeta.
  assert (SH : (forall v v', dnstable_dupsort_func k v v' = Ok Eq) \/
    forall v v' c, dnstable_dupsort_func k v v' = Ok c <-> exists f l n f' l' n', v <> [] /\ v' <> [] /\
      triplet_unpack v = Ok (f, l, n) /\ triplet_unpack v' = Ok (f', l', n') /\
      c = (if f <? f' then Lt else if f' <? f then Gt else if l <? l' then Lt else if l' <? l then Gt else Eq)).
  { unfold dnstable_dupsort_func. destruct k as [|b k]; [left; reflexivity|].
    destruct ((b =? ENTRY_TYPE_RRSET) || (b =? ENTRY_TYPE_RDATA)); [right|left; reflexivity].
    intros v v' c. split.
    - destruct v as [|x v]; [discriminate|]. destruct v' as [|x' v']; [discriminate|].
      destruct (triplet_unpack (x :: v)) as [[[f l] n]| | | |] eqn:E; try discriminate. destruct (triplet_unpack (x' :: v')) as [[[f' l'] n']| | | |] eqn:E'; try discriminate.
      intro H. exists f, l, n, f', l', n'. repeat (split; [try discriminate; auto|]). cbn [assert_ok bind] in H. revert H.
      destruct (f <? f'); [congruence|]. destruct (f' <? f); [congruence|]. destruct (l <? l'); [congruence|]. destruct (l' <? l); congruence.
    - intros (f & l & n & f' & l' & n' & N1 & N2 & E & E' & ->). destruct v as [|x v]; [congruence|]. destruct v' as [|x' v']; [congruence|].
      rewrite E, E'. cbn [assert_ok bind]. destruct (f <? f'); [reflexivity|]. destruct (f' <? f); [reflexivity|]. destruct (l <? l'); [reflexivity|]. destruct (l' <? l); reflexivity. }
  assert (GT : forall f l f' l', (if f <? f' then Lt else if f' <? f then Gt else if l <? l' then Lt else if l' <? l then Gt else Eq) <> Gt <-> f < f' \/ (f = f' /\ l <= l')).
  { intros f l f' l'. destruct (N.ltb_spec f f'); [split; [lia|congruence]|]. destruct (N.ltb_spec f' f); [split; [congruence|lia]|].
    destruct (N.ltb_spec l l'); [split; [lia|congruence]|]. destruct (N.ltb_spec l' l); split; try congruence; lia. }
  assert (FL : timed_key k -> forall o v, obs_ok o -> obs_value o v -> exists c, dnstable_dupsort_func k v v = Ok c).
  { intros HK o v A B. destruct (proj1 (dupsort_order k) HK v v o o A B A B) as (c & E & _). exists c. exact E. }
  destruct SH as [SH|SH].
  - split; [intros v _; exists Eq; split; [apply SH|discriminate]|]. split; [intros v v' _ _; left; exists Eq; split; [apply SH|discriminate]|].
    split; [intros u v w _ _; exists Eq; split; [apply SH|discriminate]|]. split; [|exact FL]. intros v v' c H. rewrite SH in *. injection H as <-. reflexivity.
  - assert (TOT : forall v v', (exists c, dnstable_dupsort_func k v v = Ok c) -> (exists c, dnstable_dupsort_func k v' v' = Ok c) ->
      (exists c, dnstable_dupsort_func k v v' = Ok c /\ c <> Gt) \/ (exists c, dnstable_dupsort_func k v' v = Ok c /\ c <> Gt)).
    { intros v v' (c & H) (c' & H'). apply SH in H. apply SH in H'. destruct H as (f & l & n & _ & _ & _ & A & _ & B & _), H' as (f' & l' & n' & _ & _ & _ & A' & _ & B' & _).
      destruct (N.lt_ge_cases f f') as [C|C]; [|destruct (N.lt_ge_cases f' f) as [D|D]; [|destruct (N.lt_ge_cases l l')]].
      - left. eexists. split; [apply SH; exists f, l, n, f', l', n'; auto 10|]. apply GT. lia.
      - right. eexists. split; [apply SH; exists f', l', n', f, l, n; auto 10|]. apply GT. lia.
      - left. eexists. split; [apply SH; exists f, l, n, f', l', n'; auto 10|]. apply GT. lia.
      - right. eexists. split; [apply SH; exists f', l', n', f, l, n; auto 10|]. apply GT. lia. }
    split; [intros v H; destruct (TOT v v H H); assumption|]. split; [exact TOT|]. split.
    { intros u v w (c & H & N1) (c' & H' & N2). apply SH in H. apply SH in H'.
      destruct H as (f & l & n & f1 & l1 & n1 & A1 & A2 & A3 & A4 & ->), H' as (f1' & l1' & n1' & f2 & l2 & n2 & B1 & B2 & B3 & B4 & ->).
      rewrite A4 in B3. injection B3 as <- <- <-. apply GT in N1. apply GT in N2.
      eexists. split; [apply SH; exists f, l, n, f2, l2, n2; auto 10|]. apply GT. lia. }
    split; [|exact FL]. intros v v' c H. apply SH in H. destruct H as (f & l & n & f' & l' & n' & A1 & A2 & A3 & A4 & ->).
    apply SH. exists f', l', n', f, l, n. repeat (split; [assumption|]).
    destruct (N.ltb_spec f f'), (N.ltb_spec f' f), (N.ltb_spec l l'), (N.ltb_spec l' l); try reflexivity; lia.
Qed.

Example c50_case : let k := [0; 1] in
  dnstable_dupsort_func k (put_obs (ob 1 9 5)) (put_obs (ob 2 3 5)) = Ok Lt /\
  dnstable_dupsort_func k (put_obs (ob 1 9 5)) (put_obs (ob 1 3 7)) = Ok Gt /\
  dnstable_dupsort_func k (put_obs (ob 1 9 5)) (put_obs (ob 1 9 7)) = Ok Eq /\
  dnstable_dupsort_func [1] [3] [4] = Ok Eq /\ timed_key k /\ obs_value (ob 1 9 5) (put_obs (ob 1 9 5)).
Proof. repeat (split; [reflexivity|]). split; [exists 0, [1]; auto|]. apply put_obs_ok. vm_compute. auto. Qed.

(** * Readers of a set of files *)

(** C37, C52: the iterators over entries dereference a source that such a reader does
    not have. *)
Theorem setfile_reader_iter_refuted : forall files b,
  dnstable_reader_iter (dnstable_reader_init_setfile files) = UB /\
  dnstable_reader_iter_prefix (dnstable_reader_init_setfile files) b = UB.
Proof. intros. split; reflexivity. Qed.

(** * C41: statistics of filesets *)

Lemma role_of : forall q f r, strict f -> time_range f r ->
  (fate_for q r = Keep <-> file_searched q f) /\ (fate_for q r = Fill <-> file_added q f).
Proof.
  intros q f r S R. assert (B : forall b, before b f <-> match r with Some (mn, mx) => mx < b | None => False end).
  { intro b. split; [intros (mn & mx & T & L); rewrite (time_range_fun f r _ S R T); exact L|]. destruct r as [[mn mx]|]; [intro L; exists mn, mx; auto|tauto]. }
  assert (A : forall b, after b f <-> match r with Some (mn, mx) => b < mn | None => False end).
  { intro b. split; [intros (mn & mx & T & L); rewrite (time_range_fun f r _ S R T); exact L|]. destruct r as [[mn mx]|]; [intro L; exists mn, mx; auto|tauto]. }
  unfold file_searched, file_added, too_early, too_late, adds_only. rewrite !B, !A. clear A B. unfold fate_for.
  destruct r as [[mn mx]|]; [|intuition discriminate].
  destruct (q_do_tfa q), (q_do_tla q), (q_do_tlb q), (q_do_tfb q); cbn [andb negb];
    repeat match goal with |- context [if ?a <? ?b then _ else _] => destruct (N.ltb_spec a b) end; split; split; intros; try discriminate; try reflexivity; try (exfalso; intuition lia); intuition (try discriminate; try lia).
Qed.

Lemma selects_ext : forall {A} (P Q : A -> Prop) l m, selects P l m -> Forall (fun a => P a <-> Q a) l -> selects Q l m.
Proof.
  intros A P Q l m H F. induction H as [|a l m HP H IH|a l m HP H IH]; [constructor|apply sel_yes|apply sel_no]; inversion F; subst; tauto || auto.
Qed.

Lemma roles : forall q files, Forall file_ok files -> exists l, fates q files = Ok l /\
  selects (file_searched q) files (files_with Keep l) /\ selects (file_added q) files (files_with Fill l).
Proof.
  intros q files HO. destruct (fates_found q files HO) as (l & EF & EL & HF). exists l. split; [exact EF|].
  assert (HS : Forall strict (map snd l)) by (rewrite EL; eapply Forall_impl; [|exact HO]; intros f (S & _); exact S).
  assert (X : forall x (P : table -> Prop), (forall f r, strict f -> time_range f r -> (fate_for q r = x <-> P f)) -> selects P files (files_with x l)).
  { intros x P HP. rewrite <- EL. eapply selects_ext; [exact (files_with_selects q x l HS HF)|]. rewrite EL. eapply Forall_impl; [|exact HO]. intros f (S & r & R & _).
    rewrite <- (HP f r S R). split; [intros (r' & R' & E); rewrite (time_range_fun f r r' S R R'); exact E|intro E; exists r; auto]. }
  split; apply X; intros f r S R; apply (role_of q f r S R).
Qed.

(** Aggregated queries: the numbers of files are those of the files the query searches and
    of the files that only add to its results; the query reads no others but for removing. *)
Theorem fileset_files_counted_partial : forall q files, Forall file_ok files -> q_aggregated q = true ->
  exists searched added, selects (file_searched q) files searched /\ selects (file_added q) files added /\
    fileset_stats q files = Ok (N.of_nat (length searched), N.of_nat (length added)) /\
    forall lib lib', lib_merged lib searched = lib_merged lib' searched -> lib_merged lib added = lib_merged lib' added ->
      dnstable_query_iter_fileset lib q files = dnstable_query_iter_fileset lib' q files.
Proof.
  intros q files HO HA. destruct (roles q files HO) as (l & EF & S1 & S2). exists (files_with Keep l), (files_with Fill l).
  split; [exact S1|]. split; [exact S2|]. unfold fileset_stats, dnstable_query_iter_fileset. rewrite EF. cbn [bind]. rewrite HA. cbn [andb]. split.
  - destruct (has_time_bound q) eqn:ET; [reflexivity|]. f_equal. f_equal. 
    assert (files_with Fill l = []) as ->; [|reflexivity].
    destruct (files_with Fill l) as [|f r] eqn:E; [reflexivity|]. exfalso.
    assert (IN : exists f, file_added q f). { clear - S2. remember (f :: r) as m. revert f r Heqm. induction S2; intros; [discriminate|eauto|eauto]. }
    destruct IN as (f' & _ & [[T _]|[_ [T _]]]); unfold has_time_bound in ET; rewrite T in ET; destruct (q_do_tfb q), (q_do_tfa q), (q_do_tlb q), (q_do_tla q); discriminate.
  - intros lib lib' E1 E2. rewrite E1, E2. reflexivity.
Qed.

(** Unaggregated ones count each file twice. *)
Theorem fileset_files_counted_twice : forall q files, Forall file_ok files -> q_aggregated q = false ->
  exists searched, selects (file_searched q) files searched /\ fileset_stats q files = Ok (2 * N.of_nat (length searched), 0).
Proof.
  intros q files HO HA. destruct (roles q files HO) as (l & EF & S1 & S2). exists (files_with Keep l). split; [exact S1|].
  unfold fileset_stats. rewrite EF. cbn [bind]. rewrite HA. cbn [andb]. f_equal. f_equal. lia.
Qed.
Theorem fileset_files_counted_refuted : exists q files kept filled, Forall file_ok files /\
  fileset_stats q files = Ok (kept, filled) /\ N.of_nat (length files) < kept.
Proof. exists Q31, demo_files, 6, 0. split; [apply demo_files_ok|]. split; vm_compute; reflexivity. Qed.

(** The number of merged values: for every key that libmtbl delivers, one less than it has
    values, in whatever order and grouping they are combined; and counting changes
    nothing of the values. *)
Fixpoint saved (files : list table) (keys : list bytes) : N :=
  match keys with [] => 0 | k :: r => N.of_nat (length (values_of k files)) - 1 + saved files r end.

Lemma u64_nz : u64 <> 0. Proof. discriminate. Qed.
Lemma mleaves_pos : forall t, 1 <= N.of_nat (length (mleaves t)).
Proof. induction t; cbn [mleaves]; [cbn; lia|rewrite app_length; lia]. Qed.
Lemma count_meval_ok : forall key t v c, c < u64 -> meval key t = Ok v -> count_meval key t c = Ok (Some v, (c + (N.of_nat (length (mleaves t)) - 1)) mod u64).
Proof.
  intros key t. induction t as [w|l IHl r IHr]; intros v c C E; cbn [meval count_meval mleaves] in *.
  - inversion E. cbn [length]. rewrite N.add_0_r, N.mod_small by exact C. reflexivity.
  - destruct (meval key l) as [a| | | |]; try discriminate E. cbn [bind] in E. destruct (meval key r) as [b| | | |]; try discriminate E. cbn [bind] in E.
    rewrite (IHl a c C eq_refl). cbn [bind]. rewrite (IHr b _ (N.mod_lt _ _ u64_nz) eq_refl). cbn [bind]. unfold count_merge_func. rewrite E.
    do 2 f_equal. rewrite N.add_mod_idemp_l by exact u64_nz. rewrite <- N.add_assoc, N.add_mod_idemp_l by exact u64_nz. f_equal. rewrite app_length. pose proof (mleaves_pos l). pose proof (mleaves_pos r). lia.
Qed.
Theorem merges_counted : forall files l counter, counter < u64 ->
  Forall (fun d => Permutation (mleaves (snd d)) (values_of (fst d) files) /\ exists v, meval (fst d) (snd d) = Ok v) l ->
  exists es, deliver l counter = Ok (es, (counter + saved files (map fst l)) mod u64) /\ Forall2 (fun d e => fst e = fst d /\ meval (fst d) (snd d) = Ok (snd e)) l es.
Proof.
  intros files l. induction l as [|[k t] l IH]; intros c C H; cbn [map fst snd deliver saved].
  - exists []. rewrite N.add_0_r, N.mod_small by exact C. split; [reflexivity|constructor].
  - inversion H as [|? ? [P (v & E)] H']; subst. cbn [fst snd] in *. rewrite (count_meval_ok k t v c C E). cbn [bind].
    destruct (IH _ (N.mod_lt (c + (N.of_nat (length (mleaves t)) - 1)) u64 u64_nz) H') as (es & D & F). rewrite D. cbn [bind].
    exists ((k, v) :: es). split; [|constructor; [split; [reflexivity|exact E]|exact F]].
    do 2 f_equal. rewrite N.add_mod_idemp_l by exact u64_nz. rewrite (Permutation_length P). rewrite N.add_assoc. reflexivity.
Qed.
Example c41_merges_case : let k := [ENTRY_TYPE_TIME_RANGE] in let tr f l := [(k, pair_pack f l)] in
  let files := [tr 3 8; tr 1 5; tr 2 9] in let t := MNode (MLeaf (pair_pack 1 5)) (MNode (MLeaf (pair_pack 2 9)) (MLeaf (pair_pack 3 8))) in
  Permutation (mleaves t) (values_of k files) /\ deliver [(k, t)] 10 = Ok ([(k, pair_pack 1 9)], 12) /\ saved files [k] = 2.
Proof.
  cbv zeta. split; [|split; vm_compute; reflexivity]. cbn [mleaves app]. change (values_of _ _) with [pair_pack 3 8; pair_pack 1 5; pair_pack 2 9].
  apply Permutation_sym, (Permutation_cons_append [pair_pack 1 5; pair_pack 2 9] (pair_pack 3 8)).
Qed.

(** If the values of a key cannot be merged, libmtbl ends there: the keys before it are
    delivered, it and the later ones are not.  A crash of the merge function is a crash. *)
Lemma count_meval_fails : forall key t c, c < u64 -> meval key t = Fail -> exists n, 0 < n < N.of_nat (length (mleaves t)) /\ count_meval key t c = Ok (None, (c + n) mod u64).
Proof.
  intros key t. induction t as [w|l IHl r IHr]; intros c C E; cbn [meval count_meval mleaves] in *; [discriminate E|].
  rewrite app_length. pose proof (mleaves_pos l). pose proof (mleaves_pos r).
  destruct (meval key l) as [a| | | |] eqn:EL; try discriminate E; cbn [bind] in E.
  2:{ destruct (IHl c C eq_refl) as (n & Hn & ->). exists n. cbn [bind]. split; [lia|reflexivity]. }
  rewrite (count_meval_ok key l a c C EL). cbn [bind].
  destruct (meval key r) as [b| | | |] eqn:ER; try discriminate E; cbn [bind] in E.
  - rewrite (count_meval_ok key r b _ (N.mod_lt _ _ u64_nz) ER). cbn [bind]. unfold count_merge_func. rewrite E.
    exists (N.of_nat (length (mleaves l)) - 1 + (N.of_nat (length (mleaves r)) - 1) + 1). split; [lia|]. do 2 f_equal.
    rewrite !N.add_mod_idemp_l by exact u64_nz. rewrite <- N.add_assoc, N.add_mod_idemp_l by exact u64_nz. f_equal. lia.
  - destruct (IHr _ (N.mod_lt (c + (N.of_nat (length (mleaves l)) - 1)) u64 u64_nz) eq_refl) as (n & Hn & ->). cbn [bind].
    exists (N.of_nat (length (mleaves l)) - 1 + n). split; [lia|]. do 2 f_equal. rewrite N.add_mod_idemp_l by exact u64_nz. f_equal. lia.
Qed.
Lemma count_meval_crash : forall key t c r, c < u64 -> meval key t = r -> (r = Abort \/ r = UB \/ r = Hang) -> exists r', count_meval key t c = r' /\ (r = Abort -> r' = Abort) /\ (r = UB -> r' = UB) /\ (r = Hang -> r' = Hang).
Proof.
  intros key t. induction t as [w|l IHl r IHr]; intros c x C E H; cbn [meval count_meval] in *; [destruct H as [H|[H|H]]; congruence|].
  destruct (meval key l) as [a| | | |] eqn:EL; cbn [bind] in E.
  - rewrite (count_meval_ok key l a c C EL). cbn [bind].
    destruct (meval key r) as [b| | | |] eqn:ER; cbn [bind] in E.
    + rewrite (count_meval_ok key r b _ (N.mod_lt _ _ u64_nz) ER). cbn [bind]. unfold count_merge_func. rewrite E.
      destruct H as [->|[->| ->]]; eexists; (split; [reflexivity|]); repeat split; congruence.
    + destruct H as [H|[H|H]]; congruence.
    + destruct (IHr _ _ (N.mod_lt (c + (N.of_nat (length (mleaves l)) - 1)) u64 u64_nz) eq_refl ltac:(auto)) as (r' & -> & A & B & D). rewrite A by reflexivity. cbn [bind]. exists Abort. subst x. repeat split; congruence.
    + destruct (IHr _ _ (N.mod_lt (c + (N.of_nat (length (mleaves l)) - 1)) u64 u64_nz) eq_refl ltac:(auto)) as (r' & -> & A & B & D). rewrite B by reflexivity. cbn [bind]. exists UB. subst x. repeat split; congruence.
    + destruct (IHr _ _ (N.mod_lt (c + (N.of_nat (length (mleaves l)) - 1)) u64 u64_nz) eq_refl ltac:(auto)) as (r' & -> & A & B & D). rewrite D by reflexivity. cbn [bind]. exists Hang. subst x. repeat split; congruence.
  - destruct H as [H|[H|H]]; congruence.
  - destruct (IHl c _ C eq_refl ltac:(auto)) as (r' & -> & A & B & D). rewrite A by reflexivity. exists Abort. subst x. repeat split; congruence.
  - destruct (IHl c _ C eq_refl ltac:(auto)) as (r' & -> & A & B & D). rewrite B by reflexivity. exists UB. subst x. repeat split; congruence.
  - destruct (IHl c _ C eq_refl ltac:(auto)) as (r' & -> & A & B & D). rewrite D by reflexivity. exists Hang. subst x. repeat split; congruence.
Qed.
Theorem merge_failure_ends_delivery : forall files l k t rest counter, counter < u64 ->
  Forall (fun d => Permutation (mleaves (snd d)) (values_of (fst d) files) /\ exists v, meval (fst d) (snd d) = Ok v) l ->
  (meval k t = Fail -> exists es n, 0 < n < N.of_nat (length (mleaves t)) /\
     deliver (l ++ (k, t) :: rest) counter = Ok (es, (counter + saved files (map fst l) + n) mod u64) /\
     Forall2 (fun d e => fst e = fst d /\ meval (fst d) (snd d) = Ok (snd e)) l es) /\
  (meval k t = Abort -> deliver (l ++ (k, t) :: rest) counter = Abort) /\
  (meval k t = UB -> deliver (l ++ (k, t) :: rest) counter = UB) /\ (meval k t = Hang -> deliver (l ++ (k, t) :: rest) counter = Hang).
Proof.
  intros files l k t rest. induction l as [|[k' t'] l IH]; intros c C H; cbn [map fst snd deliver saved app].
  - split; [|split; [|split]]; intro E.
    + destruct (count_meval_fails k t c C E) as (n & Hn & ->). cbn [bind]. exists [], n. split; [exact Hn|]. rewrite N.add_0_r. split; [reflexivity|constructor].
    + destruct (count_meval_crash k t c _ C E ltac:(auto)) as (r' & -> & A & _). rewrite (A eq_refl). reflexivity.
    + destruct (count_meval_crash k t c _ C E ltac:(auto)) as (r' & -> & _ & A & _). rewrite (A eq_refl). reflexivity.
    + destruct (count_meval_crash k t c _ C E ltac:(auto)) as (r' & -> & _ & _ & A). rewrite (A eq_refl). reflexivity.
  - inversion H as [|? ? [P (v & E)] H']; subst. cbn [fst snd] in *. rewrite (count_meval_ok k' t' v c C E). cbn [bind].
    destruct (IH _ (N.mod_lt (c + (N.of_nat (length (mleaves t')) - 1)) u64 u64_nz) H') as (F & A & U & G).
    split; [|split; [|split]]; intro X; [|rewrite (A X); reflexivity|rewrite (U X); reflexivity|rewrite (G X); reflexivity].
    destruct (F X) as (es & n & Hn & D & Q). rewrite D. cbn [bind]. exists ((k', v) :: es), n. split; [exact Hn|]. split; [|constructor; [split; [reflexivity|exact E]|exact Q]].
    rewrite (Permutation_length P). rewrite <- (N.add_assoc (_ mod _)), N.add_mod_idemp_l by exact u64_nz.
    match goal with |- Ok (_, ?a mod _) = Ok (_, ?b mod _) => replace a with b by lia end. reflexivity.
Qed.
Example c41_failure_case : let k := [ENTRY_TYPE_RRSET_NAME_FWD; 0] in let t := MNode (MLeaf [0; 2; 64; 1]) (MLeaf [0; 2; 64]) in
  meval k t = Fail /\ deliver [([ENTRY_TYPE_TIME_RANGE], MLeaf [1; 2]); (k, t); ([255], MLeaf [])] 10 = Ok ([([ENTRY_TYPE_TIME_RANGE], [1; 2])], 11).
Proof. split; vm_compute; reflexivity. Qed.

Print Assumptions fileset_query.
Print Assumptions fileset_query_grouped.
Print Assumptions fileset_query_unbounded.
Print Assumptions fileset_query_unaggregated.
Print Assumptions fileset_query_unaggregated_grouped.
Print Assumptions dupsort_order.
Print Assumptions dupsort_total_preorder.
Print Assumptions setfile_reader_iter_refuted.
Print Assumptions fileset_files_counted_partial.
Print Assumptions fileset_files_counted_refuted.
Print Assumptions fileset_files_counted_twice.
Print Assumptions merges_counted.
Print Assumptions merge_failure_ends_delivery.
