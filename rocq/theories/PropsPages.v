(** C70: pages of results. *)
From Coq Require Import Permutation.
From Verif Require Import Base BaseFacts ModelVarint VarintProofs ModelMerge SpecMerge MergeProofs PropsMerge ModelWdns SpecName NameFacts.
From Verif Require Import ModelEntry SpecEntry EntryProofs PropsEntry ModelUnion SpecUnion ModelIter SpecIter IterProofs PropsIter.
From Verif Require Import UnionProofs UnionBuild UnionMerge PropsUnion ModelQuery SpecQuery KeyProofs FilterProofs QueryProofs SelectProofs RRsetQueries IndexProofs RightWildcard RdataQueries IpProofs IpQueries Demo PropsQuery.
From Verif Require Import ModelReader SpecReader PropsReader ModelSetters ModelFileset SpecFileset FilesetProofs FilesetQueries FilesetDirect FilesetGrouped FilesetUnmerged FilesetDemo PropsFileset.
From Verif Require Import CompactionProofs SpecPages.

Lemma shows_shown : forall out es, Forall2 shows out es -> Forall shown out.
Proof. intros out es H. induction H as [|r e out es (R & _) H IH]; constructor; [|exact IH]. destruct r; cbn in R |- *; auto. Qed.
Lemma shows_once : forall out es es', Forall2 shows out es -> Forall2 shows out es' -> es = es'.
Proof. intros out es es' H H'. exact (shows_det out es es' (shows_shown _ _ H) H H'). Qed.

(** ** The offset does not matter to what is listed *)

Lemma asks_offset : forall n q recs M, asks q recs M -> asks (with_offset_of n q) recs M.
Proof.
  intros n q recs M [name bw H1 H2 H3 H4 H5 H6|c x bw H1 H2 H3 H4|name H1 H2 H3 H4 H5 H6|c x H1 H2 H3 H4 H5|raw H1 H2 H3|k ty lo hi H1 H2 H3 H4].
  - exact (asks_exact_rrset (with_offset_of n q) recs name bw H1 H2 H3 H4 H5 H6).
  - exact (asks_below_rrset (with_offset_of n q) recs c x bw H1 H2 H3 H4).
  - exact (asks_named_rdata (with_offset_of n q) recs name H1 H2 H3 H4 H5 H6).
  - exact (asks_name_after (with_offset_of n q) recs c x H1 H2 H3 H4 H5).
  - exact (asks_raw_rdata (with_offset_of n q) recs raw H1 H2 H3).
  - exact (asks_ip_rdata (with_offset_of n q) recs k ty lo hi H1 H2 H3 H4).
Qed.
Lemma grouped_offset : forall n q recs I B M, asks_grouped q recs I B M -> asks_grouped (with_offset_of n q) recs I B M.
Proof.
  intros n q recs I B M [c x bw H1 H2 H3 H4 H5 H6 H7 H8|c x H1 H2 H3 H4 H5 H6 H7 H8].
  - exact (asks_after_rrset (with_offset_of n q) recs c x bw H1 H2 H3 H4 H5 H6 H7 H8).
  - exact (asks_name_below (with_offset_of n q) recs c x H1 H2 H3 H4 H5 H6 H7 H8).
Qed.

Lemma fates_offset : forall n q files, fates (with_offset_of n q) files = fates q files.
Proof. intros n q. induction files as [|f files IH]; [reflexivity|]. cbn [fates]. rewrite IH. reflexivity. Qed.

Lemma alike_refl : forall t, Forall2 alike t t.
Proof. induction t; constructor; [split; auto|assumption]. Qed.

Lemma same_table_selects : forall (M : record -> Prop) t recs recs' out out', (forall r, M r -> shown r) -> Forall2 encodes recs t -> Forall2 encodes recs' t ->
  selects M recs out -> selects M recs' out' -> out = out'.
Proof. intros M t recs recs' out out' HM E E' S S'. exact (nearly_selects M recs recs' out out' HM (nearly_records _ _ _ _ (alike_refl t) E E') S S'). Qed.

Lemma same_table_groups : forall (I : record -> Prop) (B : record -> record -> Prop) (M : record -> Prop) t ti recs recs' reci reci' heads heads' outs outs', (forall r, M r -> shown r) ->
  (forall h h', same_fields h h' -> I h -> I h') -> (forall h h' r r', same_fields h h' -> same_fields r r' -> B h r -> B h' r') ->
  Forall2 encodes recs t -> Forall2 encodes recs' t -> Forall2 encodes reci ti -> Forall2 encodes reci' ti ->
  selects I reci heads -> selects I reci' heads' ->
  Forall2 (fun h out => selects (fun r => B h r /\ M r) recs out) heads outs ->
  Forall2 (fun h out => selects (fun r => B h r /\ M r) recs' out) heads' outs' -> outs = outs'.
Proof.
  intros I B M t ti recs recs' reci reci' heads heads' outs outs' HM SI SB E E' Ei Ei' S S' G G'.
  pose proof (nearly_heads I reci reci' heads heads' SI (nearly_records _ _ _ _ (alike_refl ti) Ei Ei') S S') as HH.
  exact (nearly_groups B M recs recs' heads heads' outs outs' HM SB (nearly_records _ _ _ _ (alike_refl t) E E') HH G G').
Qed.

(** For every query, file and set of files: with whatever offset, what is listed is the
    same list without its first entries. *)
Theorem offset_slices : forall lib q rd, proper lib q rd ->
  exists es, forall off, lists (with_offset_of off q) (dnstable_reader_query lib rd (with_offset_of off q)) es.
Proof.
  intros lib q rd [t recs M HD HA|t recs I B M HD HS HA|files recss M HO HD HL HU HA|files recss I B M HO HD HL HU HX HS HA].
  - destruct (query_returns q t recs M HD HA) as (out & es & S & W & L). exists es. intro off.
    destruct (query_returns _ t recs M HD (asks_offset off q recs M HA)) as (out' & es' & S' & W' & L').
    rewrite (selects_det _ _ _ _ _ S' S) in W'. rewrite (shows_once _ _ _ W' W) in L'. exact L'.
  - destruct (query_returns_grouped q t recs I B M HD HS HA) as (heads & outs & es & all & H & G & _ & _ & W & L). exists es. intro off.
    destruct (query_returns_grouped _ t recs I B M HD HS (grouped_offset off q recs I B M HA)) as (heads' & outs' & es' & all' & H' & G' & _ & _ & W' & L').
    assert (EO : outs' = outs).
    { rewrite (selects_det _ _ _ _ _ H' H) in G'. clear -G G'. revert outs' G'. induction G as [|h o heads outs G1 G IH]; intros outs' G'; inversion G' as [|? o' ? os' G1' G2']; subst; [reflexivity|].
      rewrite (selects_det _ _ _ _ _ G1' G1), (IH _ G2'). reflexivity. }
    rewrite EO in W'. rewrite (shows_once _ _ _ W' W) in L'. exact L'.
  - assert (SH : forall r, M r -> shown r) by (intros r; apply (asks_shown q (concat recss)); exact HA).
    destruct (q_aggregated q) eqn:QA.
    + destruct (fileset_direct lib files recss q (HL eq_refl) HO HD QA M HA) as (recs & out & es & D & _ & S & W & L & _). exists es. intro off.
      destruct (fileset_direct lib files recss (with_offset_of off q) (HL eq_refl) HO HD QA M (asks_offset off q _ M HA)) as (recs' & out' & es' & D' & _ & S' & W' & L' & _).
      rewrite (same_table_selects M _ _ _ _ _ SH (proj1 D') (proj1 D) S' S) in W'. rewrite (shows_once _ _ _ W' W) in L'. exact L'.
    + destruct (fileset_unmerged_direct_over lib files recss q (HU eq_refl) HO HD QA M HA) as (l & recs & sel & out & kvs & es & F & E & S & _ & _ & _ & _ & W & L). exists es. intro off.
      destruct (fileset_unmerged_direct_over lib files recss (with_offset_of off q) (HU eq_refl) HO HD QA M (asks_offset off q _ M HA)) as (l' & recs' & sel' & out' & kvs' & es' & F' & E' & S' & _ & _ & _ & _ & W' & L').
      rewrite fates_offset, F in F'. injection F' as <-.
      rewrite (same_table_selects M _ _ _ _ _ SH E' E S' S) in W'. rewrite (shows_once _ _ _ W' W) in L'. exact L'.
  - destruct (grouped_unbounded q _ I B M HA) as (M0 & HA0 & HFn). destruct (grouped_same _ _ _ _ _ (fence_unbounded q) HA0) as (SI & SB & SM & SSh).
    assert (SH : forall r, M r -> shown r) by (intros r Mr; apply SSh; apply (HFn r); exact Mr).
    destruct (q_aggregated q) eqn:QA.
    + destruct (fileset_grouped lib files recss q HL HO HD HX HS QA I B M HA) as (recs & heads & outs & all & es & D & _ & H & G & _ & _ & W & L & _). exists es. intro off.
      destruct (fileset_grouped lib files recss (with_offset_of off q) HL HO HD HX HS QA I B M (grouped_offset off q _ I B M HA)) as (recs' & heads' & outs' & all' & es' & D' & _ & H' & G' & _ & _ & W' & L' & _).
      rewrite (same_table_groups I B M _ _ _ _ _ _ _ _ _ _ SH SI SB (proj1 D') (proj1 D) (proj1 D') (proj1 D) H' H G' G) in W'. rewrite (shows_once _ _ _ W' W) in L'. exact L'.
    + destruct (fileset_unmerged_grouped_over lib files recss q HL (HU eq_refl) HO HD QA HX HS I B M HA) as (l & recs & reck & heads & hk & outs & kvs & sel & es & F & E & Ek & H & G & _ & _ & _ & _ & _ & _ & _ & _ & W & L). exists es. intro off.
      destruct (fileset_unmerged_grouped_over lib files recss (with_offset_of off q) HL (HU eq_refl) HO HD QA HX HS I B M (grouped_offset off q _ I B M HA)) as (l' & recs' & reck' & heads' & hk' & outs' & kvs' & sel' & es' & F' & E' & Ek' & H' & G' & _ & _ & _ & _ & _ & _ & _ & _ & W' & L').
      rewrite fates_offset, F in F'. injection F' as <-.
      rewrite (same_table_groups I B M _ _ _ _ _ _ _ _ _ _ SH SI SB E' E Ek' Ek H' H G' G) in W'. rewrite (shows_once _ _ _ W' W) in L'. exact L'.
Qed.

(** * C70 *)

Lemma calls_length : forall fuel n qi w, length (calls fuel n qi w) = n.
Proof. induction n as [|n IH]; intros qi w; [reflexivity|]. cbn [calls]. destruct (qnext fuel qi w) as [[r qi'] w']. cbn [length]. rewrite IH. reflexivity. Qed.

Lemma answered_all : forall rs, ~ In QTimeout rs -> answered rs = rs.
Proof.
  induction rs as [|r rs IH]; intro H; [reflexivity|]. cbn [answered filter]. destruct r; try (fold (answered rs); rewrite IH; [reflexivity|intro; apply H; right; assumption]).
  exfalso. apply H. left. reflexivity.
Qed.

Lemma entries_listing : forall es n, entries (listing es n) = firstn n es.
Proof.
  intros es n. unfold listing.
  assert (G : forall k n, entries (firstn n (map QEntry es ++ repeat QEnd k)) = firstn n es).
  { induction es as [|e es IH]; intros k m.
    - cbn [map app]. rewrite firstn_nil. revert m. induction k as [|k IHk]; intros [|m]; try reflexivity. cbn [repeat firstn entries flat_map app]. apply IHk.
    - destruct m as [|m]; [reflexivity|]. cbn [map app firstn entries flat_map]. f_equal. apply IH. }
  apply G.
Qed.

Lemma page_lists : forall lib rd q es off w m, q_do_timeout q = false -> q_do_deadline q = false ->
  lists (with_offset_of off q) (dnstable_reader_query lib rd (with_offset_of off q)) es ->
  eventually (fun fuel => page fuel lib rd q w m off = firstn m (skipn (N.to_nat off) es)).
Proof.
  intros lib rd q es off w m T1 T2 HL. destruct (lists_calls _ _ _ HL) as (qi & E & H).
  destruct (H (load_offset (with_offset_of off q) w) m) as (F & HF); [cbn; lia|]. exists F. intros fuel Hf. destruct (HF fuel Hf) as (A & B & _). cbv zeta in *.
  unfold page. cbv zeta. rewrite E. specialize (B T1 T2). rewrite (answered_all _ B), calls_length in A. rewrite A, entries_listing. reflexivity.
Qed.

(** Pages of [m] entries at the offsets 0, [m], 2[m], ...: every result is on exactly one
    of them, and they follow one another in order. *)
Theorem pages_once : forall lib q rd, proper lib q rd -> q_do_timeout q = false -> q_do_deadline q = false ->
  exists es, lists (with_offset_of 0 q) (dnstable_reader_query lib rd (with_offset_of 0 q)) es /\
  forall w m n, eventually (fun fuel => pages fuel lib rd q w m n = firstn (n * m) es).
Proof.
  intros lib q rd HP T1 T2. destruct (offset_slices lib q rd HP) as (es & HL). exists es. split; [apply HL|]. intros w m n.
  unfold pages. induction n as [|n (F & IH)]; [exists O; intros; reflexivity|].
  destruct (page_lists lib rd q es (N.of_nat (n * m)) w m T1 T2 (HL _)) as (F' & HF). exists (F + F')%nat. intros fuel Hf.
  rewrite seq_S, Nat.add_0_l, map_app, concat_app. cbn [map concat]. rewrite (IH fuel ltac:(lia)), (HF fuel ltac:(lia)), app_nil_r, Nnat.Nat2N.id.
  rewrite Nat.mul_succ_l. clear. revert es. induction (n * m)%nat as [|k IH]; intros es; [reflexivity|].
  destruct es as [|e es]; [rewrite !firstn_nil; reflexivity|]. cbn [firstn skipn plus app]. rewrite IH. reflexivity.
Qed.

(** Once the pages reach over all results, they are the results. *)
Theorem pages_complete : forall lib q rd, proper lib q rd -> q_do_timeout q = false -> q_do_deadline q = false ->
  exists es, lists (with_offset_of 0 q) (dnstable_reader_query lib rd (with_offset_of 0 q)) es /\
  forall w m n, (length es <= n * m)%nat -> eventually (fun fuel => pages fuel lib rd q w m n = es).
Proof.
  intros lib q rd HP T1 T2. destruct (pages_once lib q rd HP T1 T2) as (es & L & H). exists es. split; [exact L|]. intros w m n Hn.
  destruct (H w m n) as (F & HF). exists F. intros fuel Hf. rewrite (HF fuel Hf). apply firstn_all2. exact Hn.
Qed.

Definition shown_times (e : entry) := (get_rrname e, get_time_first e, get_time_last e, get_count e).
Definition Q70 := ask QRrset (Some 1) (Some (wire [[star_sign]; L_ex; L_com])) None None [] [] 0 None None None None.
Example c70_case : proper lib0 Q70 (dnstable_reader_init_setfile demo_files) /\ proper lib0 Q31 (dnstable_reader_init_setfile demo_files) /\
  proper lib0 Q30i (dnstable_reader_init_setfile demo_files) /\ proper lib0 Q31i (dnstable_reader_init_setfile demo_files) /\
  q_do_timeout Q31 = false /\ q_do_deadline Q31 = false /\
  map shown_times (page 100 lib0 (dnstable_reader_init_setfile demo_files) Q31 world0 3 0) =
    [(Ok (wire [L_mx; L_ex; L_com]), Ok 10, Ok 20, Ok 3); (Ok (wire [L_mx; L_ex; L_com]), Ok 100, Ok 400, Ok 5); (Ok (wire [L_www; L_ex; L_com]), Ok 60, Ok 250, Ok 7)] /\
  map shown_times (page 100 lib0 (dnstable_reader_init_setfile demo_files) Q31 world0 3 3) = [(Ok (wire [L_www; L_ex; L_com]), Ok 200, Ok 400, Ok 1)] /\
  map shown_times (pages 100 lib0 (dnstable_reader_init_setfile demo_files) Q70 world0 1 3) =
    [(Ok (wire [L_mx; L_ex; L_com]), Ok 10, Ok 400, Ok 8); (Ok (wire [L_www; L_ex; L_com]), Ok 60, Ok 400, Ok 8)].
Proof.
  destruct c31_case as (A & B & C & D & _ & E & F & G & _). destruct c30_case as (_ & _ & _ & _ & _ & F' & G' & _).
  split; [|split; [|split; [|split]]].
  - apply (proper_set lib0 Q70 demo_files demo_recss (below_rrset Q70 star_sign [L_ex; L_com] None)); auto.
    apply asks_below_rrset; auto; split; try reflexivity; apply name_okb_ok; reflexivity.
  - apply (proper_set lib0 Q31 demo_files demo_recss (below_rrset Q31 star_sign [L_ex; L_com] None)); auto.
    apply asks_below_rrset; auto; split; try reflexivity; apply name_okb_ok; reflexivity.
  - apply (proper_set_grouped lib0 Q30i demo_files demo_recss (after_index star_sign [L_www]) same_owner (after_rrset Q30i star_sign [L_www] None)); auto.
  - apply (proper_set_grouped lib0 Q31i demo_files demo_recss (after_index star_sign [L_www]) same_owner (after_rrset Q31i star_sign [L_www] None)); auto.
  - repeat (split; [vm_compute; reflexivity|]). vm_compute. reflexivity.
Qed.

Print Assumptions offset_slices.
Print Assumptions pages_once.
Print Assumptions pages_complete.
