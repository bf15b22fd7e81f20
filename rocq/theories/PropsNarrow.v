(** Property C90: a restriction takes answers away and adds none. *)
From Coq Require Import Permutation.
From Verif Require Import Base BaseFacts SpecMerge SpecName ModelEntry SpecEntry ModelIter SpecIter ModelQuery SpecQuery PropsQuery SelectProofs.
From Verif Require Import ModelReader SpecReader PropsReader ModelSetters ModelFileset SpecFileset FilesetProofs FilesetDirect FilesetQueries FilesetGrouped CompactionProofs SpecOrder Demo FilesetDemo PropsIter PropsFileset PropsGrow.

(** [q] asks for the same as [q0], restricted further: [q0] has the type of [q] or none, the
    bailiwick of [q] or none, and lets through all times that [q] lets through.  A query for
    addresses always has a type, which setting the addresses sets. *)
Record narrows (q q0 : query) : Prop := {
  nar_kind : q_type q = q_type q0;
  nar_name : q_name q = q_name q0;
  nar_data : q_rdata q = q_rdata q0 /\ q_len_rdata q = q_len_rdata q0;
  nar_ip : q_ip1 q = q_ip1 q0 /\ q_ip2 q = q_ip2 q0 /\ q_len_ip1 q = q_len_ip1 q0 /\ q_len_ip2 q = q_len_ip2 q0;
  nar_type : q_do_rrtype q0 = false \/ (q_do_rrtype q = true /\ q_rrtype q = q_rrtype q0);
  nar_address : q_type q0 = QRdataIp -> q_do_rrtype q0 = true;
  nar_bailiwick : q_bailiwick q0 = None \/ q_bailiwick q = q_bailiwick q0;
  nar_times : forall o, in_fence q o -> in_fence q0 o }.

Lemma sub_selects : forall (A : Type) (P Q : A -> Prop) l m n, (forall x, P x -> Q x) -> selects P l m -> selects Q l n -> in_order m n.
Proof.
  intros A P Q l m n H S. revert n. induction S as [|x l m X S IH|x l m X S IH]; intros n T; inversion T as [|? ? n0 Y T1|? ? n0 Y T1]; subst.
  - constructor.
  - apply ord_take. auto.
  - exfalso. apply Y, H, X.
  - apply ord_skip. auto.
  - auto.
Qed.
Lemma narrow_type : forall q q0 ty, narrows q q0 -> type_ok q ty -> type_ok q0 ty.
Proof. intros q q0 ty N H E. destruct (nar_type _ _ N) as [X|[X Y]]; [congruence|]. rewrite <- Y. apply H, X. Qed.
Lemma narrow_bailiwick : forall q q0 bw, narrows q q0 -> asks_bailiwick q bw -> exists bw0, asks_bailiwick q0 bw0 /\ forall b, bailiwick_ok bw b -> bailiwick_ok bw0 b.
Proof.
  intros q q0 bw N [H K]. destruct (nar_bailiwick _ _ N) as [X|X].
  - exists None. split; [split; [exact X|exact I]|]. intros b _. exact I.
  - exists bw. split; [split; [congruence|exact K]|auto].
Qed.
Lemma narrow_name : forall q q0 n, narrows q q0 -> asks_name q n -> asks_name q0 n.
Proof. intros q q0 n N [A B]. split; [rewrite <- (nar_name _ _ N); exact A|exact B]. Qed.
Lemma narrow_param : forall q q0, narrows q q0 -> type_param_ok q -> type_param_ok q0.
Proof. intros q q0 N H E. destruct (nar_type _ _ N) as [X|[X Y]]; [congruence|]. rewrite <- Y. apply H, X. Qed.
Lemma narrow_nparam : forall q q0, narrows q q0 -> name_type_param_ok q -> name_type_param_ok q0.
Proof. intros q q0 N H E. destruct (nar_type _ _ N) as [X|[X Y]]; [congruence|]. rewrite <- Y. apply H, X. Qed.
Lemma narrow_range : forall q q0 n ty lo hi, narrows q q0 -> q_type q = QRdataIp -> asks_range q n ty lo hi -> asks_range q0 n ty lo hi.
Proof.
  intros q q0 n ty lo hi N HK H. destruct (nar_ip _ _ N) as (A & B & C & D). unfold asks_range in *. rewrite <- A, <- B, <- C, <- D.
  assert (E : q_do_rrtype q0 = true) by (apply (nar_address _ _ N); rewrite <- (nar_kind _ _ N); exact HK).
  destruct (nar_type _ _ N) as [X|[X Y]]; [congruence|]. rewrite E, <- Y. tauto.
Qed.
Lemma narrow_asks : forall q q0 recs M, narrows q q0 -> asks q recs M -> exists M0, asks q0 recs M0 /\ forall r, M r -> M0 r.
Proof.
  intros q q0 recs M N H. pose proof (nar_kind _ _ N) as K. pose proof (nar_times _ _ N) as T. pose proof (fun ty => narrow_type q q0 ty N) as Y.
  destruct H as [name bw A1 A2 A3 A4 A5 A6|c x bw A1 A2 A3 A4|name A1 A2 A3 A4 A5 A6|c x A1 A2 A3 A4 A5|raw A1 A2 A3|n ty lo hi A1 A2 A3 A4]; rewrite K in *.
  - destruct (narrow_bailiwick _ _ _ N A5) as (bw0 & B & BB). exists (exact_rrset q0 name bw0). split; [apply asks_exact_rrset; eauto using narrow_name, narrow_param|].
    intros []; cbn; try tauto. intros (H1 & H2 & H3 & H4). auto.
  - destruct (narrow_bailiwick _ _ _ N A4) as (bw0 & B & BB). exists (below_rrset q0 c x bw0). split; [apply asks_below_rrset; eauto using narrow_name, narrow_param|].
    intros []; cbn; try tauto. intros (H1 & H2 & H3 & H4). auto.
  - exists (named_rdata q0 name). split; [apply asks_named_rdata; eauto using narrow_name, narrow_nparam|]. intros []; cbn; try tauto. intros (H1 & H2 & H3 & H4). auto.
  - exists (name_after q0 c x). split; [apply asks_name_after; eauto using narrow_name, narrow_nparam|]. intros []; cbn; try tauto. intros (H1 & H2 & H3 & H4). auto.
  - destruct (nar_data _ _ N) as [D1 D2]. exists (raw_rdata q0 raw). split; [apply asks_raw_rdata; congruence|]. intros []; cbn; try tauto. intros (H1 & H2 & H3). auto.
  - exists (ip_rdata q0 ty lo hi). split; [apply (asks_ip_rdata q0 recs n); auto; apply (narrow_range q q0 n ty lo hi N); [congruence|exact A2]|].
    intros []; cbn; try tauto. intros (H1 & H2 & H3). auto.
Qed.
Lemma narrow_grouped : forall q q0 recs I B M, narrows q q0 -> asks_grouped q recs I B M -> exists M0, asks_grouped q0 recs I B M0 /\ forall r, M r -> M0 r.
Proof.
  intros q q0 recs I B M N H. pose proof (nar_kind _ _ N) as K. pose proof (nar_times _ _ N) as T. pose proof (fun ty => narrow_type q q0 ty N) as Y.
  assert (SF : (q_do_rrtype q = true -> forall m, index_safe m (q_rrtype q) -> q_do_rrtype q0 = true -> index_safe m (q_rrtype q0)) /\ (q_do_rrtype q0 = true -> q_do_rrtype q = true)).
  { destruct (nar_type _ _ N) as [X|[X Z]]; [split; congruence|]. rewrite Z. auto. }
  destruct SF as [SF SD].
  destruct H as [c x bw A1 A2 A3 A4 A5 A6 A7 A8|c x A1 A2 A3 A4 A5 A6 A7 A8]; rewrite K in *.
  - destruct (narrow_bailiwick _ _ _ N A5) as (bw0 & B0 & BB). exists (after_rrset q0 c x bw0). split.
    + apply asks_after_rrset; eauto using narrow_name, narrow_param. intros E ow m Hm. apply (SF (SD E)); [exact (A8 (SD E) ow m Hm)|exact E].
    + intros []; cbn; try tauto. intros (H1 & H2 & H3 & H4). auto.
  - exists (name_below q0 c x). split.
    + apply asks_name_below; eauto using narrow_name, narrow_nparam. intros E ow m Hm. apply (SF (SD E)); [exact (A8 (SD E) ow m Hm)|exact E].
    + intros []; cbn; try tauto. intros (H1 & H2 & H3 & H4). auto.
Qed.

(** ** C90 *)
(** What a query answers that is restricted further is a part, in order, of what the less
    restricted one answers; also where both leave out the first [n] for an offset. *)
Theorem restriction_adds_nothing : forall q q0 t recs M, database recs t -> narrows q q0 -> asks q recs M ->
  exists es es0, lists q (dnstable_query_iter q t) es /\ lists q0 (dnstable_query_iter q0 t) es0 /\ (forall n, in_order (skipn n es) (skipn n es0)).
Proof.
  intros q q0 t recs M HD N HA. destruct (narrow_asks q q0 recs M N HA) as (M0 & HA0 & HS).
  destruct (query_returns q t recs M HD HA) as (out & es & S & W & L). destruct (query_returns q0 t recs M0 HD HA0) as (out0 & es0 & S0 & W0 & L0).
  exists es, es0. split; [exact L|]. split; [exact L0|]. apply part_skipn. apply (part_shows out out0); [exact (sub_selects _ _ _ _ _ _ HS S S0)| |exact W|exact W0].
  intros r Hr. apply (asks_shown q0 recs M0 r HA0). apply (selects_in _ _ _ _ S0 r Hr).
Qed.
Print Assumptions restriction_adds_nothing.

(** The same for queries that go through an index. *)
Theorem restriction_adds_nothing_grouped : forall q q0 t recs I B M, database recs t -> strict t -> narrows q q0 -> asks_grouped q recs I B M ->
  exists es es0, lists q (dnstable_query_iter q t) es /\ lists q0 (dnstable_query_iter q0 t) es0 /\ (forall n, in_order (skipn n es) (skipn n es0)).
Proof.
  intros q q0 t recs I B M HD HS N HA. destruct (narrow_grouped q q0 recs I B M N HA) as (M0 & HA0 & HM).
  destruct (query_returns_grouped q t recs I B M HD HS HA) as (heads & outs & es & all & S & G & A & P & W & L).
  destruct (query_returns_grouped q0 t recs I B M0 HD HS HA0) as (heads0 & outs0 & es0 & all0 & S0 & G0 & A0 & P0 & W0 & L0).
  pose proof (selects_det _ _ _ _ _ S S0) as <-.
  exists es, es0. split; [exact L|]. split; [exact L0|]. apply part_skipn. apply (part_shows (concat outs) (concat outs0)); [| |exact W|exact W0].
  - clear -G G0 HM. revert outs0 G0. induction G as [|h out heads outs X G IH]; intros outs0 G0; inversion G0 as [|? out0 ? outs1 X0 G1]; subst; cbn [concat]; [constructor|].
    apply part_app; [|apply IH; exact G1]. refine (sub_selects _ _ _ _ _ _ _ X X0). intros r [R1 R2]. auto.
  - destruct (grouped_unbounded q0 _ I B M0 HA0) as (Mu & HAu & HFn). destruct (grouped_same _ _ _ _ _ (fence_unbounded q0) HAu) as (_ & _ & _ & SSh).
    intros r Hr. apply SSh. apply (HFn r). apply (Permutation_in _ P0) in Hr. apply (selects_in _ _ _ _ A0 r Hr).
Qed.
Print Assumptions restriction_adds_nothing_grouped.

(** ** Queries that ask for less *)

(** Two queries answered by one lookup each, one asking for a part of what the other asks for. *)
Theorem answers_within : forall q q0 t recs M M0, database recs t -> asks q recs M -> asks q0 recs M0 -> (forall r, M r -> M0 r) ->
  exists es es0, lists q (dnstable_query_iter q t) es /\ lists q0 (dnstable_query_iter q0 t) es0 /\ (forall n, in_order (skipn n es) (skipn n es0)).
Proof.
  intros q q0 t recs M M0 HD HA HA0 HS.
  destruct (query_returns q t recs M HD HA) as (out & es & S & W & L). destruct (query_returns q0 t recs M0 HD HA0) as (out0 & es0 & S0 & W0 & L0).
  exists es, es0. split; [exact L|]. split; [exact L0|]. apply part_skipn. apply (part_shows out out0); [exact (sub_selects _ _ _ _ _ _ HS S S0)| |exact W|exact W0].
  intros r Hr. apply (asks_shown q0 recs M0 r HA0). apply (selects_in _ _ _ _ S0 r Hr).
Qed.
Print Assumptions answers_within.

(** A name and the wildcard above it: what is answered for the RRset name [y ++ x] is answered
    for "*.x", if neither query is restricted otherwise. *)
Theorem name_within_wildcard : forall q q0 t recs x y, database recs t -> q_type q = QRrset -> q_type q0 = QRrset -> asks_name q (y ++ x) -> asks_name q0 ([star_sign] :: x) ->
  not_left_wild (y ++ x) -> not_right_wild (y ++ x) -> q_bailiwick q = None -> q_bailiwick q0 = None -> q_do_rrtype q = false -> q_do_rrtype q0 = false -> has_time_bound q0 = false ->
  exists es es0, lists q (dnstable_query_iter q t) es /\ lists q0 (dnstable_query_iter q0 t) es0 /\ (forall n, in_order (skipn n es) (skipn n es0)).
Proof.
  intros q q0 t recs x y HD K K0 A A0 NL NR B B0 T T0 HT.
  apply (answers_within q q0 t recs (exact_rrset q (y ++ x) None) (below_rrset q0 star_sign x None) HD).
  - apply asks_exact_rrset; auto; [split; [exact B|exact I]|intro E; congruence].
  - apply asks_below_rrset; auto. split; [exact B0|exact I].
  - intros []; cbn; try tauto. intros (-> & _). split; [exists y; split; [reflexivity|intro E; discriminate E]|]. split; [intro E; congruence|]. split; [exact I|].
    unfold has_time_bound in HT. apply orb_false_iff in HT. destruct HT as [HT E4]. apply orb_false_iff in HT. destruct HT as [HT E3]. apply orb_false_iff in HT. destruct HT as [E1 E2].
    unfold in_fence. rewrite E1, E2, E3, E4. repeat split; discriminate.
Qed.
Print Assumptions name_within_wildcard.

(** An address range and one around it. *)
Theorem range_within_range : forall q q0 t recs n ty lo hi lo0 hi0, database recs t -> q_type q = QRdataIp -> q_type q0 = QRdataIp ->
  asks_range q n ty lo hi -> asks_range q0 n ty lo0 hi0 -> ip_value lo0 <= ip_value lo -> ip_value hi <= ip_value hi0 -> (forall o, in_fence q o -> in_fence q0 o) ->
  addresses_canonical recs n ty -> no_overread recs n ty ->
  exists es es0, lists q (dnstable_query_iter q t) es /\ lists q0 (dnstable_query_iter q0 t) es0 /\ (forall n, in_order (skipn n es) (skipn n es0)).
Proof.
  intros q q0 t recs n ty lo hi lo0 hi0 HD K K0 A A0 L H T C O.
  assert (OB : forall l h, no_overread_between recs n ty l h) by (intros l h ow ty' hd0 tl o k H1 H2 H3 _ _; exact (O ow ty' hd0 tl o k H1 H2 H3)).
  apply (answers_within q q0 t recs (ip_rdata q ty lo hi) (ip_rdata q0 ty lo0 hi0) HD).
  - apply (asks_ip_rdata q recs n); auto.
  - apply (asks_ip_rdata q0 recs n); auto.
  - intros []; cbn; try tauto. intros (H1 & H2 & H3). split; [exact H1|]. split; [lia|auto].
Qed.
Print Assumptions range_within_range.

Lemma alike_refl : forall t, Forall2 alike t t.
Proof. intro t. induction t as [|e t IH]; constructor; [split; auto|exact IH]. Qed.
Lemma sub_selects_nearly : forall (P Q : record -> Prop) l l' m n, Forall2 nearly l l' -> (forall x, P x -> Q x) -> (forall x, Q x -> shown x) -> selects P l m -> selects Q l' n -> in_order m n.
Proof.
  intros P Q l l' m n HN H HQ. revert m n. induction HN as [|x y l l' (SF & E) HN IH]; intros m n S T; inversion S as [|? ? m0 X S1|? ? m0 X S1]; subst; inversion T as [|? ? n0 Y T1|? ? n0 Y T1]; subst.
  - constructor.
  - pose proof (E (HQ _ (H _ X))) as <-. apply ord_take. auto.
  - pose proof (E (HQ _ (H _ X))) as <-. exfalso. apply Y, H, X.
  - apply ord_skip. auto.
  - auto.
Qed.

(** The same over a set of files, where the time bounds also decide which files are searched. *)
Theorem restriction_adds_nothing_files : forall lib q q0 files recss M, merges lib files -> Forall file_ok files -> Forall2 database recss files ->
  q_aggregated q = true -> q_aggregated q0 = true -> narrows q q0 -> asks q (concat recss) M ->
  exists es es0, lists q (dnstable_reader_query lib (dnstable_reader_init_setfile files) q) es /\
    lists q0 (dnstable_reader_query lib (dnstable_reader_init_setfile files) q0) es0 /\ (forall n, in_order (skipn n es) (skipn n es0)).
Proof.
  intros lib q q0 files recss M HL HO HD HG HG0 N HA. destruct (narrow_asks q q0 _ M N HA) as (M0 & HA0 & HS).
  destruct (fileset_query lib q files recss M HL HO HD HG HA) as (recs & out & es & D & S & W & L & _).
  destruct (fileset_query lib q0 files recss M0 HL HO HD HG0 HA0) as (recs0 & out0 & es0 & D0 & S0 & W0 & L0 & _).
  assert (SH : forall r, M0 r -> shown r) by (intro r; apply (asks_shown q0 _ M0 r HA0)).
  pose proof (nearly_records _ _ _ _ (alike_refl _) (proj1 D) (proj1 D0)) as HN.
  exists es, es0. split; [exact L|]. split; [exact L0|]. apply part_skipn. apply (part_shows out out0); [exact (sub_selects_nearly _ _ _ _ _ _ HN HS SH S S0)| |exact W|exact W0].
  intros r Hr. apply SH. apply (selects_in _ _ _ _ S0 r Hr).
Qed.
Print Assumptions restriction_adds_nothing_files.

(** The same through an index. *)
Theorem restriction_adds_nothing_files_grouped : forall lib q q0 files recss I B M, merges lib files -> Forall file_ok files -> Forall2 database recss files ->
  q_aggregated q = true -> q_aggregated q0 = true -> Forall indexed recss -> parts_index_safe lib q files -> narrows q q0 -> asks_grouped q (concat recss) I B M ->
  exists es es0, lists q (dnstable_reader_query lib (dnstable_reader_init_setfile files) q) es /\
    lists q0 (dnstable_reader_query lib (dnstable_reader_init_setfile files) q0) es0 /\ (forall n, in_order (skipn n es) (skipn n es0)).
Proof.
  intros lib q q0 files recss I B M HL HO HD HG HG0 HX HS N HA. destruct (narrow_grouped q q0 _ I B M N HA) as (M0 & HA0 & HM).
  assert (HS0 : parts_index_safe lib q0 files).
  { intro E. destruct (nar_type _ _ N) as [X|[X Y]]; [congruence|]. rewrite <- Y. exact (HS X). }
  destruct (fileset_query_grouped lib q files recss I B M HL HO HD HG HX HS HA) as (recs & heads & outs & all & es & D & S & G & A & P & W & L & _).
  destruct (fileset_query_grouped lib q0 files recss I B M0 HL HO HD HG0 HX HS0 HA0) as (recs0 & heads0 & outs0 & all0 & es0 & D0 & S0 & G0 & A0 & P0 & W0 & L0 & _).
  destruct (grouped_unbounded q0 _ I B M0 HA0) as (Mu & HAu & HFn). destruct (grouped_same _ _ _ _ _ (fence_unbounded q0) HAu) as (SI & SB & _ & SSh).
  assert (SH : forall r, M0 r -> shown r) by (intros r Mr; apply SSh; apply (HFn r); exact Mr).
  pose proof (nearly_records _ _ _ _ (alike_refl _) (proj1 D) (proj1 D0)) as HN.
  pose proof (nearly_heads I recs recs0 heads heads0 SI HN S S0) as HH.
  exists es, es0. split; [exact L|]. split; [exact L0|]. apply part_skipn. apply (part_shows (concat outs) (concat outs0)); [| |exact W|exact W0].
  - clear -G G0 HM HH HN SB SH. revert outs outs0 G G0. induction HH as [|h h0 heads heads0 SF HH IH]; intros outs outs0 G G0; inversion G as [|? out ? outs1 X G1]; subst; inversion G0 as [|? out0 ? outs2 X0 G2]; subst; cbn [concat]; [constructor|].
    apply part_app; [|apply IH; assumption]. refine (sub_selects_nearly _ _ _ _ _ _ HN _ _ X X0).
    + intros r [R1 R2]. split; [|auto]. exact (SB h h0 r r SF (same_refl r) R1).
    + intros r [_ R2]. exact (SH r R2).
  - intros r Hr. apply SH. apply (Permutation_in _ P0) in Hr. apply (selects_in _ _ _ _ A0 r Hr).
Qed.
Print Assumptions restriction_adds_nothing_files_grouped.

Lemma part_rest : forall (A : Type) (a l : list A), in_order a l -> exists rest, Permutation l (a ++ rest).
Proof.
  intros A a l H. induction H as [l|x a l H (r & IH)|x a l H (r & IH)].
  - exists l. apply Permutation_refl.
  - exists r. cbn [app]. constructor. exact IH.
  - exists (x :: r). apply Permutation_cons_app. exact IH.
Qed.
Lemma shown_rest : forall sel sel0 out out0 es es0, in_order sel sel0 -> Permutation sel out -> Permutation sel0 out0 -> (forall r, In r sel0 -> shown r) ->
  Forall2 shows out es -> Forall2 shows out0 es0 -> exists rest, Permutation (es ++ rest) es0.
Proof.
  intros sel sel0 out out0 es es0 HI P P0 SH W W0. destruct (part_rest _ _ _ HI) as (c & PC).
  assert (PO : Permutation out0 (out ++ c)) by (eapply perm_trans; [apply Permutation_sym; exact P0|]; eapply perm_trans; [exact PC|apply Permutation_app_tail; exact P]).
  destruct (Permutation_Forall2 PO W0) as (e2 & PE & W2). apply Forall2_app_inv_l in W2. destruct W2 as (ea & eb & Wa & Wb & ->).
  assert (SO : Forall shown out).
  { apply Forall_forall. intros r Hr. apply SH. apply (part_in _ _ _ _ HI). apply (Permutation_in _ (Permutation_sym P) Hr). }
  pose proof (shows_det out es ea SO W Wa) as ->. exists eb. apply Permutation_sym. exact PE.
Qed.

(** Without aggregation, where records of several files with the same key and times may come in
    either order: the answers of the restricted query, and others. *)
Theorem restriction_adds_nothing_unaggregated : forall lib q q0 files recss M, lists_duplicates lib files -> Forall file_ok files -> Forall2 database recss files ->
  q_aggregated q = false -> q_aggregated q0 = false -> narrows q q0 -> asks q (concat recss) M ->
  exists es es0 rest, lists q (dnstable_reader_query lib (dnstable_reader_init_setfile files) q) es /\
    lists q0 (dnstable_reader_query lib (dnstable_reader_init_setfile files) q0) es0 /\ Permutation (es ++ rest) es0.
Proof.
  intros lib q q0 files recss M HL HO HD HG HG0 N HA. destruct (narrow_asks q q0 _ M N HA) as (M0 & HA0 & HS).
  destruct (fileset_query_unaggregated lib q files recss M HL HO HD HG HA) as (sel & out & kvs & es & S & P & _ & _ & W & L).
  destruct (fileset_query_unaggregated lib q0 files recss M0 HL HO HD HG0 HA0) as (sel0 & out0 & kvs0 & es0 & S0 & P0 & _ & _ & W0 & L0).
  destruct (shown_rest sel sel0 out out0 es es0) as (rest & PR); auto; [exact (sub_selects _ _ _ _ _ _ HS S S0)| |exists es, es0, rest; auto].
  intros r Hr. apply (asks_shown q0 _ M0 r HA0). apply (selects_in _ _ _ _ S0 r Hr).
Qed.
Print Assumptions restriction_adds_nothing_unaggregated.
(** The same through an index. *)
Theorem restriction_adds_nothing_unaggregated_grouped : forall lib q q0 files recss I B M, merges lib files -> lists_duplicates lib files -> Forall file_ok files -> Forall2 database recss files ->
  q_aggregated q = false -> q_aggregated q0 = false -> Forall indexed recss -> parts_index_safe lib q files -> narrows q q0 -> asks_grouped q (concat recss) I B M ->
  exists es es0 rest, lists q (dnstable_reader_query lib (dnstable_reader_init_setfile files) q) es /\
    lists q0 (dnstable_reader_query lib (dnstable_reader_init_setfile files) q0) es0 /\ Permutation (es ++ rest) es0.
Proof.
  intros lib q q0 files recss I B M HM HL HO HD HG HG0 HX HS N HA. destruct (narrow_grouped q q0 _ I B M N HA) as (M0 & HA0 & HSub).
  assert (HS0 : parts_index_safe lib q0 files).
  { intro E. destruct (nar_type _ _ N) as [X|[X Y]]; [congruence|]. rewrite <- Y. exact (HS X). }
  destruct (fileset_query_unaggregated_grouped lib q files recss I B M HM HL HO HD HG HX HS HA) as (heads & hkvs & outs & kvss & sel & es & _ & _ & _ & _ & S & P & _ & _ & W & L).
  destruct (fileset_query_unaggregated_grouped lib q0 files recss I B M0 HM HL HO HD HG0 HX HS0 HA0) as (heads0 & hkvs0 & outs0 & kvss0 & sel0 & es0 & _ & _ & _ & _ & S0 & P0 & _ & _ & W0 & L0).
  destruct (grouped_unbounded q0 _ I B M0 HA0) as (Mu & HAu & HFn). destruct (grouped_same _ _ _ _ _ (fence_unbounded q0) HAu) as (_ & _ & _ & SSh).
  destruct (shown_rest sel sel0 (concat outs) (concat outs0) es es0) as (rest & PR); auto; [exact (sub_selects _ _ _ _ _ _ HSub S S0)| |exists es, es0, rest; auto].
  intros r Hr. apply SSh. apply (HFn r). apply (selects_in _ _ _ _ S0 r Hr).
Qed.
Print Assumptions restriction_adds_nothing_unaggregated_grouped.

(** Type, bailiwick and two time bounds against one wider bound. *)
Definition Q90 := ask QRrset (Some 1) (Some (wire [[star_sign]; L_ex; L_com])) (Some (rwire [L_ex; L_com])) None [] [] 0 (Some 100) None None (Some 255).
Definition Q90w := ask QRrset None (Some (wire [[star_sign]; L_ex; L_com])) None None [] [] 0 (Some 50) None None None.
Definition Q90i := ask QRrset (Some 1) (Some (wire [L_www; [star_sign]])) None None [] [] 0 None None None None.
Example c90_case : database demo demo_table /\ narrows Q90 Q90w /\ asks Q90 demo (below_rrset Q90 star_sign [L_ex; L_com] (Some [L_ex; L_com])) /\
  seen_by 2 Q90 demo_table = [Some (0, Ok (wire [L_www; L_ex; L_com]), Ok 1); None] /\
  seen_by 5 Q90w demo_table = [Some (0, Ok (wire [L_ex; L_com]), Ok 15); Some (0, Ok (wire [L_mx; L_ex; L_com]), Ok 1); Some (0, Ok (wire [L_www; L_ex; L_com]), Ok 1); Some (0, Ok (wire [L_www; L_ex; L_com]), Ok 28); None].
Proof.
  split; [apply demo_database|]. split; [constructor; [reflexivity|reflexivity|auto|auto|left; reflexivity|intro H; discriminate H|left; reflexivity|
  intros o (A & B & C & D); split; [|split; [|split]]; intro H; try discriminate H; assert (E : 100 <= o_first o) by exact (A eq_refl); change (50 <= o_first o); lia]|]. split; [|split; vm_compute; reflexivity].
  apply asks_below_rrset; auto; split; try reflexivity; apply name_okb_ok; reflexivity.
Qed.
Example c90_grouped_case : database demo demo_table /\ strict demo_table /\ narrows Q90i Q89i /\
  asks_grouped Q90i demo (after_index star_sign [L_www]) same_owner (after_rrset Q90i star_sign [L_www] None) /\
  seen_by 2 Q90i demo_table = [Some (0, Ok (wire [L_www; L_ex; L_com]), Ok 1); None] /\
  seen_by 4 Q89i demo_table = [Some (0, Ok (wire [L_www; L_ex; L_com]), Ok 1); Some (0, Ok (wire [L_www; L_ex; L_com]), Ok 28); Some (0, Ok (wire [L_www; L_net]), Ok 5); None].
Proof.
  split; [apply demo_database|]. split; [apply demo_database|]. split; [constructor; [reflexivity|reflexivity|auto|auto|left; reflexivity|intro H; discriminate H|left; reflexivity|
  intros o (A & B & C & D); split; [|split; [|split]]; intro H; discriminate H]|]. split; [|split; vm_compute; reflexivity].
  apply c23_case.
Qed.

(** The query with time bounds of C30, which searches one of three files, against the one
    without. *)
Example c90_files_case : merges lib0 demo_files /\ Forall file_ok demo_files /\ Forall2 database demo_recss demo_files /\
  q_aggregated Q30 = true /\ q_aggregated (without_bounds Q30) = true /\ narrows Q30 (without_bounds Q30) /\
  asks Q30 (concat demo_recss) (below_rrset Q30 star_sign [L_ex; L_com] None) /\
  Forall indexed demo_recss /\ parts_index_safe lib0 Q30i demo_files /\ narrows Q30i (without_bounds Q30i) /\
  asks_grouped Q30i (concat demo_recss) (after_index star_sign [L_www]) same_owner (after_rrset Q30i star_sign [L_www] None) /\
  seen_in 2 Q30 demo_files = [Some (Ok (wire [L_www; L_ex; L_com]), Ok 60, Ok 400, Ok 8); None] /\
  seen_in 3 (without_bounds Q30) demo_files = [Some (Ok (wire [L_mx; L_ex; L_com]), Ok 10, Ok 400, Ok 8); Some (Ok (wire [L_www; L_ex; L_com]), Ok 60, Ok 400, Ok 8); None].
Proof.
  destruct c30_case as (A & B & C & D & E & F & G & _). split; [exact A|]. split; [exact B|]. split; [exact C|]. split; [reflexivity|]. split; [reflexivity|].
  assert (K : forall q, q_do_rrtype q = true -> narrows q (without_bounds q)).
  { intros q X. constructor; [reflexivity|reflexivity|auto|repeat (split; [reflexivity|]); reflexivity|right; auto|intros _; exact X|right; reflexivity|]. intros o _. apply fence_unbounded. }
  split; [apply K; reflexivity|]. split; [exact D|]. split; [exact E|]. split; [exact F|]. split; [apply K; reflexivity|]. split; [exact G|]. split; vm_compute; reflexivity.
Qed.

(** The addresses 10.0.0.2 to 10.0.0.9 within 10.0.0.0 to 10.0.0.255, and www.ex.com within
    *.ex.com. *)
Definition Q90r := ask QRdataIp (Some 1) None None None [10; 0; 0; 0] [10; 0; 0; 255] 0 None None None None.
Definition Q90n := ask QRrset None (Some (wire [L_www; L_ex; L_com])) None None [] [] 0 None None None None.
Example c90_within_case : asks_range Q26 4 1 [10; 0; 0; 2] [10; 0; 0; 9] /\ asks_range Q90r 4 1 [10; 0; 0; 0] [10; 0; 0; 255] /\
  ip_value [10; 0; 0; 0] <= ip_value [10; 0; 0; 2] /\ ip_value [10; 0; 0; 9] <= ip_value [10; 0; 0; 255] /\ addresses_canonical demo 4 1 /\ no_overread demo 4 1 /\
  seen_by 3 Q26 demo_table = [Some (2, Ok (wire [L_mx; L_ex; L_com]), Ok 1); Some (2, Ok (wire [L_www; L_ex; L_com]), Ok 1); None] /\
  seen_by 4 Q90r demo_table = [Some (2, Ok (wire [L_www; L_ex; L_com]), Ok 1); Some (2, Ok (wire [L_mx; L_ex; L_com]), Ok 1); Some (2, Ok (wire [L_www; L_ex; L_com]), Ok 1); None] /\
  asks_name Q90n ([L_www] ++ [L_ex; L_com]) /\ asks_name Q89 ([star_sign] :: [L_ex; L_com]) /\ not_left_wild ([L_www] ++ [L_ex; L_com]) /\ not_right_wild ([L_www] ++ [L_ex; L_com]) /\
  seen_by 3 Q90n demo_table = [Some (0, Ok (wire [L_www; L_ex; L_com]), Ok 1); Some (0, Ok (wire [L_www; L_ex; L_com]), Ok 28); None].
Proof.
  split. { split; [left; auto|]. repeat (split; [reflexivity|]). split; [apply bytes_okb_ok; reflexivity|]. right. repeat (split; [reflexivity|]). apply bytes_okb_ok; reflexivity. }
  split. { split; [left; auto|]. repeat (split; [reflexivity|]). split; [apply bytes_okb_ok; reflexivity|]. right. repeat (split; [reflexivity|]). apply bytes_okb_ok; reflexivity. }
  split; [vm_compute; discriminate|]. split; [vm_compute; discriminate|].
  split; [intros ow head tail o H; unfold demo in H; in_demo H; auto|]. split; [exact demo_no_overread|]. split; [vm_compute; reflexivity|]. split; [vm_compute; reflexivity|].
  split; [split; [reflexivity|apply name_okb_ok; reflexivity]|]. split; [split; [reflexivity|apply name_okb_ok; reflexivity]|].
  split; [no_wild_left|]. split; [apply (no_wild_right [L_www; L_ex] L_com); [intros [C|C]; discriminate C|discriminate]|vm_compute; reflexivity].
Qed.

Example c90_unaggregated_case : lists_duplicates lib0 demo_files /\ q_aggregated Q31f = false /\ q_aggregated Q31 = false /\ narrows Q31f Q31 /\
  asks Q31f (concat demo_recss) (below_rrset Q31f star_sign [L_ex; L_com] None) /\
  asks_grouped Q31i (concat demo_recss) (after_index star_sign [L_www]) same_owner (after_rrset Q31i star_sign [L_www] None) /\ narrows Q31i (without_bounds Q31i) /\
  seen_in 4 Q31f demo_files =
    [Some (Ok (wire [L_mx; L_ex; L_com]), Ok 100, Ok 400, Ok 5);
     Some (Ok (wire [L_www; L_ex; L_com]), Ok 60, Ok 250, Ok 7); Some (Ok (wire [L_www; L_ex; L_com]), Ok 200, Ok 400, Ok 1); None] /\
  seen_in 5 Q31 demo_files =
    [Some (Ok (wire [L_mx; L_ex; L_com]), Ok 10, Ok 20, Ok 3); Some (Ok (wire [L_mx; L_ex; L_com]), Ok 100, Ok 400, Ok 5);
     Some (Ok (wire [L_www; L_ex; L_com]), Ok 60, Ok 250, Ok 7); Some (Ok (wire [L_www; L_ex; L_com]), Ok 200, Ok 400, Ok 1); None].
Proof.
  destruct c31_case as (_ & A & _ & _ & B & _ & _ & C & _). split; [exact A|]. split; [reflexivity|]. split; [reflexivity|].
  assert (K : forall q, q_do_rrtype q = true -> narrows q (without_bounds q)).
  { intros q X. constructor; [reflexivity|reflexivity|auto|repeat (split; [reflexivity|]); reflexivity|right; auto|intros _; exact X|right; reflexivity|]. intros o _. apply fence_unbounded. }
  split; [exact (K Q31f eq_refl)|]. split; [exact B|]. split; [exact C|]. split; [exact (K Q31i eq_refl)|]. split; vm_compute; reflexivity.
Qed.
