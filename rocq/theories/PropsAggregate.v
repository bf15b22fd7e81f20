(** C72: results with and without aggregation. *)
From Coq Require Import Permutation.
From Verif Require Import Base BaseFacts ModelVarint VarintProofs ModelMerge SpecMerge MergeProofs PropsMerge ModelWdns SpecName NameFacts.
From Verif Require Import ModelEntry SpecEntry EntryProofs PropsEntry ModelUnion SpecUnion ModelIter SpecIter IterProofs PropsIter.
From Verif Require Import UnionProofs UnionBuild UnionMerge PropsUnion ModelQuery SpecQuery KeyProofs FilterProofs QueryProofs SelectProofs RRsetQueries IndexProofs RightWildcard RdataQueries IpProofs IpQueries Demo PropsQuery.
From Verif Require Import ModelReader SpecReader PropsReader ModelSetters ModelFileset SpecFileset FilesetProofs FilesetQueries FilesetDirect FilesetGrouped FilesetUnmerged FilesetDemo PropsFileset.
From Verif Require Import SpecAggregate SpecCompaction CompactionProofs PropsCompaction SpecPages PropsPages.

(** ** The flag does not matter to what is asked for *)

Lemma asks_aggregated : forall b q recs M, asks q recs M -> asks (snd (set_aggregated b q)) recs M.
Proof.
  intros b q recs M [name bw H1 H2 H3 H4 H5 H6|c x bw H1 H2 H3 H4|name H1 H2 H3 H4 H5 H6|c x H1 H2 H3 H4 H5|raw H1 H2 H3|k ty lo hi H1 H2 H3 H4].
  - exact (asks_exact_rrset (snd (set_aggregated b q)) recs name bw H1 H2 H3 H4 H5 H6).
  - exact (asks_below_rrset (snd (set_aggregated b q)) recs c x bw H1 H2 H3 H4).
  - exact (asks_named_rdata (snd (set_aggregated b q)) recs name H1 H2 H3 H4 H5 H6).
  - exact (asks_name_after (snd (set_aggregated b q)) recs c x H1 H2 H3 H4 H5).
  - exact (asks_raw_rdata (snd (set_aggregated b q)) recs raw H1 H2 H3).
  - exact (asks_ip_rdata (snd (set_aggregated b q)) recs k ty lo hi H1 H2 H3 H4).
Qed.
Lemma grouped_aggregated : forall b q recs I B M, asks_grouped q recs I B M -> asks_grouped (snd (set_aggregated b q)) recs I B M.
Proof.
  intros b q recs I B M [c x bw H1 H2 H3 H4 H5 H6 H7 H8|c x H1 H2 H3 H4 H5 H6 H7 H8].
  - exact (asks_after_rrset (snd (set_aggregated b q)) recs c x bw H1 H2 H3 H4 H5 H6 H7 H8).
  - exact (asks_name_below (snd (set_aggregated b q)) recs c x H1 H2 H3 H4 H5 H6 H7 H8).
Qed.

Lemma unbounded_fence : forall q o, has_time_bound q = false -> in_fence q o.
Proof.
  intros q o H. unfold has_time_bound in H. rewrite !orb_false_iff in H. destruct H as [[[A B] C] D]. unfold in_fence. rewrite A, B, C, D. repeat split; discriminate.
Qed.

(** ** Entries by key *)

Definition at_key (k : bytes) (t : table) : table := filter (fun x => beq (fst x) k) t.

Lemma least_first : forall k t, sorted t -> Forall (fun x => ble k (fst x) = true) t ->
  t = at_key k t ++ filter (fun x => negb (beq (fst x) k)) t.
Proof.
  intros k t S. induction S as [|x t S IH F]; intro H; [reflexivity|]. inversion H as [|? ? Hx Ht]; subst. cbn [at_key filter].
  destruct (beq (fst x) k) eqn:E; cbn [negb]; [apply (f_equal (cons x)); apply IH; exact Ht|].
  assert (N : Forall (fun y => beq (fst y) k = false) t).
  { apply Forall_forall. intros y Hy. rewrite Forall_forall in F. specialize (F y Hy). apply not_true_is_false. intro Ey. apply beq_true in Ey. rewrite Ey in F.
    rewrite (ble_antisym _ _ F Hx), (proj2 (beq_true k k) eq_refl) in E. discriminate. }
  rewrite filter_nil; [|intros y Hy; rewrite Forall_forall in N; apply N; exact Hy]. apply (f_equal (cons x)).
  clear -N. induction N as [|y t Hy N IHn]; [reflexivity|]. cbn [filter]. rewrite Hy. cbn [negb]. apply (f_equal (cons y)). exact IHn.
Qed.

Lemma sorted_by_key : forall T, strict T -> forall U, sorted U -> (forall x, In x U -> has_key (fst x) T) ->
  U = concat (map (fun e => at_key (fst e) U) T).
Proof.
  intros T S. induction S as [|e T S IH F]; intros U SU H.
  - destruct U as [|x U]; [reflexivity|]. destruct (H x (or_introl eq_refl)) as (v & []).
  - cbn [map concat]. rewrite Forall_forall in F.
    assert (L : Forall (fun x => ble (fst e) (fst x) = true) U).
    { apply Forall_forall. intros x Hx. destruct (H x Hx) as (v & [E|Hv]); [rewrite E; apply ble_refl|]. apply BaseFacts.blt_ble. exact (F _ Hv). }
    pose proof (least_first (fst e) U SU L) as E. rewrite E at 1. f_equal.
    set (R := filter (fun x => negb (beq (fst x) (fst e))) U) in *. rewrite (IH R).
    + f_equal. apply map_ext_in. intros e' He'. unfold R, at_key. clear -F He'. induction U as [|x U IHu]; [reflexivity|]. cbn [filter].
      destruct (beq (fst x) (fst e)) eqn:E1; cbn [negb].
      * destruct (beq (fst x) (fst e')) eqn:E2; [|exact IHu]. apply beq_true in E1, E2. specialize (F _ He'). rewrite <- E1, <- E2, blt_irrefl in F. discriminate.
      * cbn [filter]. rewrite IHu. reflexivity.
    + apply strongly_filter. exact SU.
    + intros x Hx. apply filter_In in Hx. destruct Hx as [Hx Nx]. destruct (H x Hx) as (v & [Ev|Hv]); [|exists v; exact Hv].
      rewrite Ev in Nx. cbn [fst] in Nx. rewrite (proj2 (beq_true _ _) eq_refl) in Nx. discriminate.
Qed.

(** ** Records by key *)

Definition seen_record (r : record) : obs := match r with RRset _ _ _ _ o | RData _ _ _ _ o => o | _ => {| o_first := 0; o_last := 0; o_count := 0 |} end.

Lemma record_seen : forall r k v, shown r -> encodes r (k, v) -> seen_as v (seen_record r).
Proof. intros [] k v HS (_ & H); try contradiction; cbn [seen_record] in *; cbn [snd] in H; split; tauto. Qed.

Lemma same_collapse : forall r g, shown r -> Forall (same_fields r) g -> total (map seen_record g) (seen_record r) -> collapses g r.
Proof.
  intros r g HS HF HT. destruct r as [ow ty bw rs o|ow ty hd tl o| | |]; try contradiction.
  - assert (E : g = map (RRset ow ty bw rs) (map seen_record g)).
    { clear HT HS. induction HF as [|r g Hr HF IH]; [reflexivity|]. cbn [map]. rewrite <- IH. destruct r; try contradiction. destruct Hr as (-> & -> & -> & ->). reflexivity. }
    rewrite E. constructor. exact HT.
  - assert (E : g = map (RData ow ty hd tl) (map seen_record g)).
    { clear HT HS. induction HF as [|r g Hr HF IH]; [reflexivity|]. cbn [map]. rewrite <- IH. destruct r; try contradiction. destruct Hr as (-> & -> & -> & ->). reflexivity. }
    rewrite E. constructor. exact HT.
Qed.

Lemma at_key_values : forall k files U, Permutation (concat files) U -> Permutation (map snd (at_key k U)) (values_of k files).
Proof. intros k files U P. apply Permutation_map. apply Permutation_sym. unfold at_key. apply filter_perm. exact P. Qed.

(** What is selected of the separate entries, and of the merged ones. *)
Lemma collapsed : forall files T U (P : record -> Prop) recs recsU out outU,
  merged_from files T -> unmerged_from files U -> (forall k, timed_key k -> observed k files) ->
  (forall r r', same_fields r r' -> P r -> P r') -> (forall r, P r -> shown r) ->
  Forall2 encodes recs T -> Forall2 encodes recsU U -> selects P recs out -> selects P recsU outU ->
  exists groups, concat groups = outU /\ Forall2 collapses groups out.
Proof.
  intros files T U P recs recsU out outU HM (HP & HS & _) HO HI HSh ET EU ST SU.
  assert (EK : U = concat (map (fun e => at_key (fst e) U) T)).
  { apply sorted_by_key; [apply HM|exact HS|]. intros [k v] Hx. apply (proj1 (proj2 HM) k). apply (Permutation_in _ (Permutation_sym HP)) in Hx.
    apply in_concat in Hx. destruct Hx as (f & Hf & Hx). exists f. split; [exact Hf|exists v; exact Hx]. }
  assert (G : forall T' recs' out' U', (forall e, In e T' -> In e T) -> U' = concat (map (fun e => at_key (fst e) U) T') -> Forall2 encodes recs' T' -> selects P recs' out' ->
     forall recsU' outU', Forall2 encodes recsU' U' -> selects P recsU' outU' -> exists groups, concat groups = outU' /\ Forall2 collapses groups out').
  { clear ET EU ST SU EK. induction T' as [|[k v] T' IH]; intros recs' out' U' Hin EU ET ST recsU' outU' FU SU.
    - inversion ET; subst. inversion ST; subst. cbn [map concat] in FU. inversion FU; subst. inversion SU; subst. exists []. split; constructor.
    - inversion ET as [|r ? recs1 ? Hr ET1]; subst. cbn [map concat fst] in FU. apply Forall2_app_inv_r in FU. destruct FU as (ra & rb & Fa & Fb & ->).
      apply selects_app_inv in SU. destruct SU as (oa & ob & -> & Sa & Sb).
      assert (SF : Forall (same_fields r) ra).
      { apply Forall_forall. intros r' Hr'. destruct (encodes_in _ _ _ Fa Hr') as ([k' v'] & He & HE). unfold at_key in He. apply filter_In in He. destruct He as (_ & Ek).
        apply beq_true in Ek. cbn [fst] in Ek. subst k'. exact (key_fields r r' k v v' Hr HE). }
      inversion ST as [|? ? m Pr S1|? ? ? Pr S1]; subst.
      + destruct (IH recs1 m _ (fun e H => Hin e (or_intror H)) eq_refl ET1 S1 rb ob Fb Sb) as (groups & EG & FG).
        assert (oa = ra) as ->.
        { apply (selects_det _ P ra); [exact Sa|]. clear -SF Pr HI. induction SF as [|r' ra H SF IH]; constructor; [apply (HI r); assumption|exact IH]. }
        exists (ra :: groups). split; [cbn [concat]; rewrite EG; reflexivity|]. constructor; [|exact FG].
        pose proof (HSh r Pr) as Sr. pose proof (proj2 (timed_record r k v Hr) Sr) as TK. apply same_collapse; [exact Sr|exact SF|].
        assert (FS : Forall2 seen_as (map snd (at_key k U)) (map seen_record ra)).
        { assert (K : Forall (fun x => fst x = k) (at_key k U)) by (apply Forall_forall; intros x Hx; apply filter_In in Hx; apply beq_true; tauto).
          assert (A : Forall shown ra) by (apply Forall_forall; intros r' Hr'; apply HSh; apply (HI r); [rewrite Forall_forall in SF; apply SF; exact Hr'|exact Pr]).
          clear -Fa K A. induction Fa as [|r' [k' v'] ra l H F IHf]; [constructor|]. inversion K; inversion A; subst. cbn [map snd]. constructor; [|apply IHf; assumption].
          eapply record_seen; eauto. }
        destruct (Permutation_Forall2 (at_key_values k files U HP) FS) as (os & Pos & Fos).
        destruct (merged_total files T k v os TK HM (Hin _ (or_introl eq_refl)) Fos) as (o & So & To).
        rewrite (seen_fun v _ _ (record_seen r k v Sr Hr) So). apply (total_perm os); [apply Permutation_sym; exact Pos|exact To].
      + destruct (IH recs1 out' _ (fun e H => Hin e (or_intror H)) eq_refl ET1 S1 rb ob Fb Sb) as (groups & EG & FG).
        exists groups. split; [|exact FG]. assert (oa = []) as ->; [|exact EG].
        apply (selects_det _ P ra); [exact Sa|]. apply selects_none. intros r' Hr' Pr'. apply Pr. apply (HI r'); [|exact Pr']. apply same_sym. rewrite Forall_forall in SF. apply SF. exact Hr'. }
  apply (G T recs out U (fun e H => H) EK ET ST recsU outU EU SU).
Qed.

Lemma records_unlike : forall recs t, Forall2 encodes recs t -> strict t -> StronglySorted unlike recs.
Proof.
  intros recs t H. induction H as [|r [k v] recs t H HF IH]; intro S; inversion S as [|? ? S1 F]; subst; [constructor|]. constructor; [apply IH; exact S1|].
  apply Forall_forall. intros r' Hr'. destruct (encodes_in _ _ _ HF Hr') as ([k' v'] & He & HE). rewrite Forall_forall in F. specialize (F _ He). cbn [fst] in F.
  destruct r as [ow ty bw rs o|ow ty hd tl o| | |], r' as [ow' ty' bw' rs' o'|ow' ty' hd' tl' o'| | |]; cbn [unlike]; trivial; intro E; injection E as <- <- <- <-.
  - destruct H as [_ H], HE as [_ HE]. cbn [fst snd] in H, HE. destruct H as (_ & _ & _ & _ & (t1 & rd & Lt & Ra & ->) & _), HE as (_ & _ & _ & _ & (t2 & rd' & Lt' & Ra' & ->) & _).
    rewrite (leb128_det _ _ _ Lt Lt'), (rdata_array_det _ _ _ Ra Ra'), blt_irrefl in F. discriminate.
  - destruct H as [_ H], HE as [_ HE]. cbn [fst snd] in H, HE. destruct H as (_ & _ & _ & _ & (t1 & Lt & ->) & _), HE as (_ & _ & _ & _ & (t2 & Lt' & ->) & _).
    rewrite (leb128_det _ _ _ Lt Lt'), blt_irrefl in F. discriminate.
Qed.

Lemma all_unmerged : forall lib files, lists_duplicates lib files -> unmerged_from files (lib_unmerged lib files).
Proof. intros lib files H. apply (H (fun _ => True)). clear H. induction files; constructor; auto. Qed.

(** * C72 *)

(** Without time bounds: what the query lists with aggregation is what it lists without,
    with every run of records that differ only in times and count collapsed into one. *)
Theorem aggregation_collapses : forall lib q files recss M,
  merges lib files -> lists_duplicates lib files -> Forall file_ok files -> Forall2 database recss files ->
  has_time_bound q = false -> asks q (concat recss) M ->
  exists groups out es es', Forall2 collapses groups out /\ StronglySorted unlike out /\
    Forall2 shows out es /\ Forall2 shows (concat groups) es' /\
    let on := snd (set_aggregated true q) in let off := snd (set_aggregated false q) in
    lists on (dnstable_reader_query lib (dnstable_reader_init_setfile files) on) es /\
    lists off (dnstable_reader_query lib (dnstable_reader_init_setfile files) off) es'.
Proof.
  intros lib q files recss M HL HU HO HD HB HA.
  destruct (fileset_direct lib files recss (snd (set_aggregated true q)) HL HO HD eq_refl M (asks_aggregated true q _ M HA)) as (recs & out & es & D & _ & S & W & L & _).
  destruct (fileset_unmerged_direct_over lib files recss (snd (set_aggregated false q)) HU HO HD eq_refl M (asks_aggregated false q _ M HA)) as (l & recsU & sel & outU & kvs & es' & F & E & SU & _ & _ & _ & _ & W' & L').
  destruct (fates_found (snd (set_aggregated false q)) files HO) as (l' & EF & EL & HF). rewrite F in EF. injection EF as <-.
  rewrite (all_kept _ l HB HF), EL in E.
  destruct (collapsed files _ _ M recs recsU out outU (all_merged lib files HL) (all_unmerged lib files HU) (files_observed files HO)) as (groups & EG & FG); try eassumption.
  - intros r r'. apply (asks_same q (concat recss) M r r'); [|exact HA]. intro o. apply unbounded_fence. exact HB.
  - intros r. apply (asks_shown q (concat recss)). exact HA.
  - apply D.
  - exists groups, out, es, es'. split; [exact FG|]. split; [|rewrite EG; auto].
    pose proof (records_unlike recs _ (proj1 D) (proj1 (all_merged lib files HL))) as UL. clear -S UL. induction S as [|r recs out Pr S IH|r recs out Pr S IH]; inversion UL as [|? ? U1 U2]; subst.
    + constructor.
    + constructor; [apply IH; exact U1|]. apply Forall_forall. intros r' Hr'. rewrite Forall_forall in U2. apply U2. apply (selects_in _ _ _ _ S r' Hr').
    + apply IH. exact U1.
Qed.

(** The same for queries through an index. *)
Theorem aggregation_collapses_grouped : forall lib q files recss I B M,
  merges lib files -> lists_duplicates lib files -> Forall file_ok files -> Forall2 database recss files ->
  Forall indexed recss -> parts_index_safe lib q files ->
  has_time_bound q = false -> asks_grouped q (concat recss) I B M ->
  exists groups out es es', Forall2 collapses groups out /\ StronglySorted unlike out /\
    Forall2 shows out es /\ Forall2 shows (concat groups) es' /\
    let on := snd (set_aggregated true q) in let off := snd (set_aggregated false q) in
    lists on (dnstable_reader_query lib (dnstable_reader_init_setfile files) on) es /\
    lists off (dnstable_reader_query lib (dnstable_reader_init_setfile files) off) es'.
Proof.
  intros lib q files recss I B M HL HU HO HD HX HS HB HA.
  destruct (fileset_grouped lib files recss (snd (set_aggregated true q)) HL HO HD HX HS eq_refl I B M (grouped_aggregated true q _ I B M HA)) as (recs & heads & outs & all & es & D & _ & H & G & HAll & HPm & W & L & _).
  destruct (fileset_unmerged_grouped_over lib files recss (snd (set_aggregated false q)) HL HU HO HD eq_refl HX HS I B M (grouped_aggregated false q _ I B M HA)) as (l & recsU & reck & headsU & hk & outsU & kvs & sel & es' & F & E & Ek & H' & G' & _ & _ & _ & _ & _ & _ & _ & _ & W' & L').
  destruct (fates_found (snd (set_aggregated false q)) files HO) as (l' & EF & EL & HF). rewrite F in EF. injection EF as <-.
  rewrite (all_kept _ l HB HF), EL in E, Ek.
  destruct (grouped_same q _ I B M (fun o => unbounded_fence q o HB) HA) as (SI & SB & SM & SSh).
  pose proof (nearly_heads I recs reck heads headsU SI (nearly_records _ _ _ _ (alike_refl _) (proj1 D) Ek) H H') as HH.
  assert (X : exists groups, concat groups = concat outsU /\ Forall2 collapses groups (concat outs)).
  { clear W W' L L' H H' HPm EL HF F. revert outs outsU G G'. induction HH as [|h h' heads headsU Hh HH IH]; intros outs outsU G G'; inversion G as [|? out ? outs1 G1 G2]; inversion G' as [|? outU ? outsU1 G1' G2']; subst.
    - exists []. split; constructor.
    - destruct (IH outs1 outsU1 G2 G2') as (gs & EG & FG).
      destruct (collapsed files _ _ (fun r => B h r /\ M r) recs recsU out outU (all_merged lib files HL) (all_unmerged lib files HU) (files_observed files HO)) as (g1 & E1 & F1); auto.
      + intros r r' Hr [A1 A2]. split; [apply (SB h h r r'); [apply same_refl|exact Hr|exact A1]|apply (SM r r'); assumption].
      + intros r [_ A2]. auto.
      + apply D.
      + clear -G1' Hh SB. induction G1' as [|r recsU outU [P1 P2] S IHs|r recsU outU Pr S IHs].
        * constructor.
        * constructor; [|exact IHs]. split; [|exact P2]. apply (SB h' h r r); [apply same_sym; exact Hh|apply same_refl|exact P1].
        * apply sel_no; [|exact IHs]. intros [P1 P2]. apply Pr. split; [|exact P2]. apply (SB h h' r r); [exact Hh|apply same_refl|exact P1].
      + exists (g1 ++ gs). cbn [concat]. rewrite concat_app, E1, EG. split; [reflexivity|]. apply Forall2_app; assumption. }
  destruct X as (groups & EG & FG). exists groups, (concat outs), es, es'. split; [exact FG|]. split; [|rewrite EG; auto].
  pose proof (records_unlike recs _ (proj1 D) (proj1 (all_merged lib files HL))) as UL.
  assert (ULa : StronglySorted unlike all).
  { clear -HAll UL. induction HAll as [|r recs out Pr S IH|r recs out Pr S IH]; inversion UL as [|? ? U1 U2]; subst.
    - constructor.
    - constructor; [apply IH; exact U1|]. apply Forall_forall. intros r' Hr'. rewrite Forall_forall in U2. apply U2. apply (selects_in _ _ _ _ S r' Hr').
    - apply IH. exact U1. }
  assert (Sym : forall a b, unlike a b -> unlike b a) by (intros [] [] U; cbn [unlike] in *; trivial; congruence).
  revert ULa. clear -HPm Sym. intro ULa. apply Permutation_sym in HPm. induction HPm as [|x a b P IH|x y a|a b c P1 IH1 P2 IH2].
  - constructor.
  - inversion ULa as [|? ? U1 U2]; subst. constructor; [apply IH; exact U1|]. apply Forall_forall. intros z Hz. rewrite Forall_forall in U2. apply U2. apply (Permutation_in _ (Permutation_sym P)). exact Hz.
  - inversion ULa as [|? ? U1 U2]; subst. inversion U1 as [|? ? U3 U4]; subst. inversion U2 as [|? ? U5 U6]; subst. constructor; [constructor; assumption|]. constructor; [apply Sym; exact U5|exact U4].
  - apply IH2, IH1, ULa.
Qed.

Definition Q72 := ask QRrset (Some 1) (Some (wire [[star_sign]; L_ex; L_com])) None None [] [] 0 None None None None.
Definition Q72i := ask QRrset (Some 1) (Some (wire [L_www; [star_sign]])) None None [] [] 0 None None None None.
Example c72_case : merges lib0 demo_files /\ lists_duplicates lib0 demo_files /\ Forall file_ok demo_files /\ Forall2 database demo_recss demo_files /\
  Forall indexed demo_recss /\ parts_index_safe lib0 Q72i demo_files /\
  has_time_bound Q72 = false /\ has_time_bound Q72i = false /\
  asks Q72 (concat demo_recss) (below_rrset Q72 star_sign [L_ex; L_com] None) /\
  asks_grouped Q72i (concat demo_recss) (after_index star_sign [L_www]) same_owner (after_rrset Q72i star_sign [L_www] None) /\
  seen_in 3 (snd (set_aggregated true Q72)) demo_files =
    [Some (Ok (wire [L_mx; L_ex; L_com]), Ok 10, Ok 400, Ok 8); Some (Ok (wire [L_www; L_ex; L_com]), Ok 60, Ok 400, Ok 8); None] /\
  seen_in 5 (snd (set_aggregated false Q72)) demo_files =
    [Some (Ok (wire [L_mx; L_ex; L_com]), Ok 10, Ok 20, Ok 3); Some (Ok (wire [L_mx; L_ex; L_com]), Ok 100, Ok 400, Ok 5);
     Some (Ok (wire [L_www; L_ex; L_com]), Ok 60, Ok 250, Ok 7); Some (Ok (wire [L_www; L_ex; L_com]), Ok 200, Ok 400, Ok 1); None].
Proof.
  split; [apply demo_merges|]. split; [apply demo_lists_duplicates|]. split; [apply demo_files_ok|]. split; [apply demo_databases|]. split; [apply demo_files_indexed|].
  split; [apply demo_parts_safe; reflexivity|]. split; [reflexivity|]. split; [reflexivity|]. split.
  { apply asks_below_rrset; auto; split; try reflexivity; apply name_okb_ok; reflexivity. }
  split; [apply demo_grouped_ask; reflexivity|]. split; vm_compute; reflexivity.
Qed.

Print Assumptions aggregation_collapses.
Print Assumptions aggregation_collapses_grouped.
