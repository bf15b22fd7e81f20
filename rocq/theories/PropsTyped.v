(** Property C92: asking for a record type gives exactly the answers of that type. *)
From Coq Require Import Permutation.
From Verif Require Import Base BaseFacts SpecMerge SpecName ModelEntry SpecEntry ModelIter SpecIter ModelQuery SpecQuery PropsQuery SelectProofs.
From Verif Require Import ModelReader SpecReader PropsReader ModelSetters ModelFileset SpecFileset FilesetProofs FilesetDirect FilesetQueries FilesetGrouped CompactionProofs SpecOrder Demo FilesetDemo PropsIter PropsFileset PropsGrow PropsNarrow PropsSplit.

(** The query without its record type. *)
Definition without_type (q : query) : query :=
  {| q_type := q_type q; q_do_rrtype := false; q_rrtype := 0;
     q_do_timeout := q_do_timeout q; q_timeout := q_timeout q;
     q_do_deadline := q_do_deadline q; q_deadline := q_deadline q;
     q_aggregated := q_aggregated q; q_case_sensitive := q_case_sensitive q;
     q_do_tfb := q_do_tfb q; q_tfb := q_tfb q; q_do_tfa := q_do_tfa q; q_tfa := q_tfa q;
     q_do_tlb := q_do_tlb q; q_tlb := q_tlb q; q_do_tla := q_do_tla q; q_tla := q_tla q;
     q_name := q_name q; q_bailiwick := q_bailiwick q;
     q_len_ip1 := q_len_ip1 q; q_len_ip2 := q_len_ip2 q; q_ip1 := q_ip1 q; q_ip2 := q_ip2 q;
     q_len_rdata := q_len_rdata q; q_rdata := q_rdata q; q_offset := q_offset q;
     q_has_v_type := q_has_v_type q; q_v_type := q_v_type q |}.

(** dnstable_entry_get_rrtype returns [ty]. *)
Definition of_type (ty : N) (e : entry) : bool := match get_rrtype e with Ok ty' => ty' =? ty | _ => false end.

Definition typed (ty : N) (r : record) : bool := match r with RRset _ ty' _ _ _ | RData _ ty' _ _ _ => ty' =? ty | _ => false end.

Lemma shows_type : forall r e ty, shows r e -> shown r -> typed ty r = of_type ty e.
Proof. intros r e ty H S. unfold of_type. destruct H as [H _]; destruct r; try contradiction; cbn in H; decompose [and] H; cbn [typed]; match goal with X : get_rrtype e = _ |- _ => rewrite X end; reflexivity. Qed.
Lemma selects_typed : forall (M M0 : record -> Prop) ty l m m0, (forall r, M r <-> M0 r /\ typed ty r = true) -> selects M l m -> selects M0 l m0 -> m = filter (typed ty) m0.
Proof.
  intros M M0 ty l m m0 H S. revert m0. induction S as [|x l m X S IH|x l m X S IH]; intros m0 T; inversion T as [|? ? n Y T1|? ? n Y T1]; subst; cbn [filter].
  - reflexivity.
  - apply H in X. destruct X as [_ ->]. f_equal. auto.
  - exfalso. apply H in X. tauto.
  - destruct (typed ty x) eqn:E; [exfalso; apply X, H; auto|auto].
  - auto.
Qed.
Lemma shows_filtered : forall ty out0 es es0, (forall r, In r out0 -> shown r) -> Forall2 shows out0 es0 -> Forall2 shows (filter (typed ty) out0) es -> es = filter (of_type ty) es0.
Proof.
  intros ty out0 es es0 SH W. revert es. induction W as [|r e out0 es0 X W IH]; intros es V; cbn [filter] in *; [inversion V; reflexivity|].
  rewrite <- (shows_type r e ty X (SH r (or_introl eq_refl))). destruct (typed ty r) eqn:E; [|apply IH; [intros y Hy; apply SH; right; exact Hy|exact V]].
  inversion V as [|? e' ? es' Y V']; subst. f_equal; [|apply IH; [intros y Hy; apply SH; right; exact Hy|exact V']].
  assert (Z : [e'] = [e]) by (apply (shows_det [r]); [constructor; [apply SH; left; reflexivity|constructor]|constructor; [exact Y|constructor]|constructor; [exact X|constructor]]).
  congruence.
Qed.
Lemma type_iff : forall q ty, q_do_rrtype q = true -> (type_ok q ty <-> (ty =? q_rrtype q) = true).
Proof. intros q ty E. unfold type_ok. rewrite N.eqb_eq. tauto. Qed.
Lemma asks_typed : forall q recs M, q_do_rrtype q = true -> q_type q <> QRdataIp -> asks q recs M ->
  exists M0, asks (without_type q) recs M0 /\ forall r, M r <-> M0 r /\ typed (q_rrtype q) r = true.
Proof.
  intros q recs M E NI H. pose proof (fun ty => type_iff q ty E) as T.
  assert (T0 : forall ty, type_ok (without_type q) ty) by (intros ty X; discriminate X).
  destruct H as [name bw A1 A2 A3 A4 A5 A6|c x bw A1 A2 A3 A4|name A1 A2 A3 A4 A5 A6|c x A1 A2 A3 A4 A5|raw A1 A2 A3|n ty lo hi A1 A2 A3 A4].
  - exists (exact_rrset (without_type q) name bw). split; [apply asks_exact_rrset; auto; intro X; discriminate X|].
    intros [ow rt b rs o|ow rt hd tl o|ow mm|ow mm|kk vv]; cbn; try tauto; try (split; [intros []|intros [_ X]; discriminate X]). rewrite T. pose proof (T0 rt). change (in_fence (without_type q) o) with (in_fence q o). tauto.
  - exists (below_rrset (without_type q) c x bw). split; [apply asks_below_rrset; auto|].
    intros [ow rt b rs o|ow rt hd tl o|ow mm|ow mm|kk vv]; cbn; try tauto; try (split; [intros []|intros [_ X]; discriminate X]). rewrite T. pose proof (T0 rt). change (in_fence (without_type q) o) with (in_fence q o). tauto.
  - exists (named_rdata (without_type q) name). split; [apply asks_named_rdata; auto; intro X; discriminate X|].
    intros [ow rt b rs o|ow rt hd tl o|ow mm|ow mm|kk vv]; cbn; try tauto; try (split; [intros []|intros [_ X]; discriminate X]). rewrite T. pose proof (T0 rt). change (in_fence (without_type q) o) with (in_fence q o). tauto.
  - exists (name_after (without_type q) c x). split; [apply asks_name_after; auto; intro X; discriminate X|].
    intros [ow rt b rs o|ow rt hd tl o|ow mm|ow mm|kk vv]; cbn; try tauto; try (split; [intros []|intros [_ X]; discriminate X]). rewrite T. pose proof (T0 rt). change (in_fence (without_type q) o) with (in_fence q o). tauto.
  - exists (raw_rdata (without_type q) raw). split; [apply asks_raw_rdata; auto|].
    intros [ow rt b rs o|ow rt hd tl o|ow mm|ow mm|kk vv]; cbn; try tauto; try (split; [intros []|intros [_ X]; discriminate X]). rewrite T. pose proof (T0 rt). change (in_fence (without_type q) o) with (in_fence q o). tauto.
  - contradiction.
Qed.
Lemma grouped_typed : forall q recs I B M, q_do_rrtype q = true -> asks_grouped q recs I B M ->
  exists M0, asks_grouped (without_type q) recs I B M0 /\ forall r, M r <-> M0 r /\ typed (q_rrtype q) r = true.
Proof.
  intros q recs I B M E H. pose proof (fun ty => type_iff q ty E) as T.
  assert (T0 : forall ty, type_ok (without_type q) ty) by (intros ty X; discriminate X).
  destruct H as [c x bw A1 A2 A3 A4 A5 A6 A7 A8|c x A1 A2 A3 A4 A5 A6 A7 A8].
  - exists (after_rrset (without_type q) c x bw). split; [apply asks_after_rrset; auto; intro X; discriminate X|].
    intros [ow rt b rs o|ow rt hd tl o|ow mm|ow mm|kk vv]; cbn; try tauto; try (split; [intros []|intros [_ X]; discriminate X]). rewrite T. pose proof (T0 rt). change (in_fence (without_type q) o) with (in_fence q o). tauto.
  - exists (name_below (without_type q) c x). split; [apply asks_name_below; auto; intro X; discriminate X|].
    intros [ow rt b rs o|ow rt hd tl o|ow mm|ow mm|kk vv]; cbn; try tauto; try (split; [intros []|intros [_ X]; discriminate X]). rewrite T. pose proof (T0 rt). change (in_fence (without_type q) o) with (in_fence q o). tauto.
Qed.
Lemma filter_concat : forall (A : Type) (f : A -> bool) ls, filter f (concat ls) = concat (map (filter f) ls).
Proof. intros A f ls. induction ls as [|l ls IH]; cbn [concat map]; [reflexivity|]. rewrite filter_app, IH. reflexivity. Qed.

(** ** C92 *)
(** A query for a record type lists what the query without type lists, and of that only the
    entries of the type. *)
Theorem type_picks : forall q t recs M, database recs t -> q_do_rrtype q = true -> q_type q <> QRdataIp -> asks q recs M ->
  exists es0, lists (without_type q) (dnstable_query_iter (without_type q) t) es0 /\ lists q (dnstable_query_iter q t) (filter (of_type (q_rrtype q)) es0).
Proof.
  intros q t recs M HD E NI HA. destruct (asks_typed q recs M E NI HA) as (M0 & HA0 & HM).
  destruct (query_returns q t recs M HD HA) as (out & es & S & W & L). destruct (query_returns _ t recs M0 HD HA0) as (out0 & es0 & S0 & W0 & L0).
  pose proof (selects_typed M M0 _ recs out out0 HM S S0) as EO. subst out. exists es0. split; [exact L0|].
  rewrite <- (shows_filtered _ out0 es es0); auto. intros r Hr. apply (asks_shown _ _ _ r HA0). apply (selects_in _ _ _ _ S0 r Hr).
Qed.
Print Assumptions type_picks.

(** Through an index, whose bitmaps say which types there are. *)
Theorem type_picks_grouped : forall q t recs I B M, database recs t -> strict t -> q_do_rrtype q = true -> asks_grouped q recs I B M ->
  exists es0, lists (without_type q) (dnstable_query_iter (without_type q) t) es0 /\ lists q (dnstable_query_iter q t) (filter (of_type (q_rrtype q)) es0).
Proof.
  intros q t recs I B M HD HS E HA. destruct (grouped_typed q recs I B M E HA) as (M0 & HA0 & HM).
  destruct (query_returns_grouped q t recs I B M HD HS HA) as (heads & outs & es & all & S & G & Al & P & W & L).
  destruct (query_returns_grouped _ t recs I B M0 HD HS HA0) as (heads0 & outs0 & es0 & all0 & S0 & G0 & Al0 & P0 & W0 & L0).
  pose proof (selects_det _ _ _ _ _ S S0) as <-. exists es0. split; [exact L0|].
  assert (EO : outs = map (filter (typed (q_rrtype q))) outs0).
  { clear -G G0 HM. revert outs0 G0. induction G as [|h out heads outs X G IH]; intros outs0 G0; inversion G0 as [|? o0 ? os0 X0 G0']; subst; cbn [map]; [reflexivity|].
    rewrite (IH os0 G0'). f_equal. refine (selects_typed _ _ _ recs _ _ _ X X0). intro r. pose proof (HM r). tauto. }
  subst outs. rewrite <- filter_concat in W. rewrite <- (shows_filtered _ (concat outs0) es es0); auto.
  destruct (grouped_unbounded _ _ I B M0 HA0) as (Mu & HAu & HFn). destruct (grouped_same _ _ _ _ _ (fence_unbounded _) HAu) as (_ & _ & _ & SSh).
  intros r Hr. apply SSh. apply (HFn r). apply (Permutation_in _ P0) in Hr. apply (selects_in _ _ _ _ Al0 r Hr).
Qed.
Print Assumptions type_picks_grouped.

(** Over a set of files. *)
Theorem type_picks_files : forall lib q files recss M, merges lib files -> Forall file_ok files -> Forall2 database recss files ->
  q_aggregated q = true -> q_do_rrtype q = true -> q_type q <> QRdataIp -> asks q (concat recss) M ->
  exists es0, lists (without_type q) (dnstable_reader_query lib (dnstable_reader_init_setfile files) (without_type q)) es0 /\
    lists q (dnstable_reader_query lib (dnstable_reader_init_setfile files) q) (filter (of_type (q_rrtype q)) es0).
Proof.
  intros lib q files recss M HL HO HD HG E NI HA. destruct (asks_typed q _ M E NI HA) as (M0 & HA0 & HM).
  destruct (fileset_query lib q files recss M HL HO HD HG HA) as (recs & out & es & D & S & W & L & _).
  destruct (fileset_query lib (without_type q) files recss M0 HL HO HD HG HA0) as (recs0 & out0 & es0 & D0 & S0 & W0 & L0 & _).
  assert (SH : forall r, M0 r -> shown r) by (intro r; apply (asks_shown _ _ _ r HA0)).
  pose proof (nearly_records _ _ _ _ (alike_refl _) (proj1 D0) (proj1 D)) as HN.
  apply (nearly_select_back _ _ _ _ HN) in S; [|intros r Hr; apply SH; apply HM in Hr; tauto].
  pose proof (selects_typed M M0 _ recs0 out out0 HM S S0) as EO. subst out. exists es0. split; [exact L0|].
  rewrite <- (shows_filtered _ out0 es es0); auto. intros r Hr. apply SH. apply (selects_in _ _ _ _ S0 r Hr).
Qed.
Print Assumptions type_picks_files.

(** Through the index of a set of files. *)
Theorem type_picks_files_grouped : forall lib q files recss I B M, merges lib files -> Forall file_ok files -> Forall2 database recss files ->
  q_aggregated q = true -> Forall indexed recss -> parts_index_safe lib q files -> q_do_rrtype q = true -> asks_grouped q (concat recss) I B M ->
  exists es0, lists (without_type q) (dnstable_reader_query lib (dnstable_reader_init_setfile files) (without_type q)) es0 /\
    lists q (dnstable_reader_query lib (dnstable_reader_init_setfile files) q) (filter (of_type (q_rrtype q)) es0).
Proof.
  intros lib q files recss I B M HL HO HD HG HI HS E HA. destruct (grouped_typed q _ I B M E HA) as (M0 & HA0 & HM).
  destruct (fileset_query_grouped lib q files recss I B M HL HO HD HG HI HS HA) as (recs & heads & outs & all & es & D & S & G & _ & _ & W & L & _).
  assert (HS0 : parts_index_safe lib (without_type q) files) by (intro X; discriminate X).
  destruct (fileset_query_grouped lib (without_type q) files recss I B M0 HL HO HD HG HI HS0 HA0) as (recs0 & heads0 & outs0 & all0 & es0 & D0 & S0 & G0 & Al0 & P0 & W0 & L0 & _).
  destruct (grouped_unbounded (without_type q) _ I B M0 HA0) as (Mu & HAu & HFn). destruct (grouped_same _ _ _ _ _ (fence_unbounded _) HAu) as (SI & SB & _ & SSh).
  assert (SH : forall r, M0 r -> shown r) by (intros r Hr; apply SSh; apply (HFn r); exact Hr).
  pose proof (nearly_records _ _ _ _ (alike_refl _) (proj1 D0) (proj1 D)) as HN. pose proof (nearly_heads I recs0 recs heads0 heads SI HN S0 S) as HH.
  assert (EO : outs = map (filter (typed (q_rrtype q))) outs0).
  { clear -G G0 HM HH HN SH SB. revert heads outs G HH. induction G0 as [|h0 o0 heads0 outs0 X0 G0 IH]; intros heads outs G HH; inversion HH as [|? h ? hs F HH']; subst; inversion G as [|? o ? os X G']; subst; cbn [map]; [reflexivity|].
    rewrite (IH hs os G' HH'). f_equal.
    assert (X' : selects (fun r => B h0 r /\ M r) recs0 o).
    { apply (nearly_select_back _ _ _ _ HN); [intros r [_ Y]; apply SH; apply HM in Y; tauto|].
      clear -X SB F. induction X as [|x a m Y X IH|x a m Y X IH]; [constructor| |].
      - apply sel_yes; [|exact IH]. destruct Y as [Y1 Y2]. split; [exact (SB h h0 x x (same_sym _ _ F) (same_refl x) Y1)|exact Y2].
      - apply sel_no; [|exact IH]. intros [Y1 Y2]. apply Y. split; [exact (SB h0 h x x F (same_refl x) Y1)|exact Y2]. }
    refine (selects_typed _ _ _ recs0 _ _ _ X' X0). intro r. pose proof (HM r). tauto. }
  exists es0. split; [exact L0|]. subst outs. rewrite <- filter_concat in W. rewrite <- (shows_filtered _ (concat outs0) es es0); auto.
  intros r Hr. apply SH. apply (Permutation_in _ P0) in Hr. apply (selects_in _ _ _ _ Al0 r Hr).
Qed.
Print Assumptions type_picks_files_grouped.

(** The demonstration queries. *)
Definition Q92 := ask QRrset (Some 28) (Some (wire [[star_sign]; L_ex; L_com])) None None [] [] 0 None None None None.
Example c92_case : database demo demo_table /\ strict demo_table /\ q_do_rrtype Q92 = true /\ asks Q92 demo (below_rrset Q92 star_sign [L_ex; L_com] None) /\
  seen_by 2 Q92 demo_table = [Some (0, Ok (wire [L_www; L_ex; L_com]), Ok 28); None] /\
  seen_by 5 (without_type Q92) demo_table = [Some (0, Ok (wire [L_ex; L_com]), Ok 15); Some (0, Ok (wire [L_mx; L_ex; L_com]), Ok 1); Some (0, Ok (wire [L_www; L_ex; L_com]), Ok 1); Some (0, Ok (wire [L_www; L_ex; L_com]), Ok 28); None] /\
  asks_grouped Q90i demo (after_index star_sign [L_www]) same_owner (after_rrset Q90i star_sign [L_www] None) /\
  q_do_rrtype Q90i = true /\ q_aggregated Q92 = true /\ merges lib0 demo_files /\ Forall file_ok demo_files /\ Forall2 database demo_recss demo_files /\
  asks Q92 (concat demo_recss) (below_rrset Q92 star_sign [L_ex; L_com] None).
Proof.
  split; [apply demo_database|]. split; [apply demo_database|]. split; [reflexivity|].
  split; [apply asks_below_rrset; auto; split; try reflexivity; apply name_okb_ok; reflexivity|]. split; [vm_compute; reflexivity|]. split; [vm_compute; reflexivity|].
  split; [apply c90_grouped_case|]. split; [reflexivity|]. split; [reflexivity|]. split; [apply c90_files_case|]. split; [apply c90_files_case|]. split; [apply c90_files_case|].
  apply asks_below_rrset; auto; split; try reflexivity; apply name_okb_ok; reflexivity.
Qed.
Example c92_grouped_case : Forall indexed demo_recss /\ parts_index_safe lib0 Q90i demo_files /\ q_aggregated Q90i = true /\ q_do_rrtype Q90i = true /\
  asks_grouped Q90i (concat demo_recss) (after_index star_sign [L_www]) same_owner (after_rrset Q90i star_sign [L_www] None).
Proof. split; [apply demo_files_indexed|]. split; [apply demo_parts_safe; reflexivity|]. split; [reflexivity|]. split; [reflexivity|]. apply demo_grouped_ask; reflexivity. Qed.
