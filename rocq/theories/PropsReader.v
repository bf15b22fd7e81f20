(** C36: dnstable_query_filter.  C37: iterators of a reader.  C54, C55: queries that
    look up one prefix, undecodable entries.  C41: the counters of a query. *)
From Verif Require Import Base BaseFacts ModelVarint VarintProofs SpecMerge MergeProofs ModelWdns SpecName NameFacts.
From Verif Require Import ModelEntry SpecEntry EntryProofs PropsEntry ModelUnion ModelIter SpecIter IterProofs IterCount ModelQuery SpecQuery.
From Verif Require Import KeyProofs FilterProofs QueryProofs SelectProofs RRsetQueries RdataQueries Demo PropsIter PropsQuery.
From Verif Require Import SpecDeadline DeadlineProofs ModelReader SpecReader.

(** * C37 *)

Lemma listing_nil : forall n, listing [] n = repeat QEnd n.
Proof. intro n. unfold listing. cbn [map app]. rewrite firstn_all2; [reflexivity|]. rewrite repeat_length. lia. Qed.

Lemma listing_cons : forall e es n, listing (e :: es) (S n) = QEntry e :: listing es n.
Proof.
  intros e es n. unfold listing. cbn [map app firstn repeat]. f_equal.
  rewrite !firstn_app. f_equal. rewrite map_length.
  rewrite (repeat_cons n QEnd), firstn_app, repeat_length.
  replace (n - length es - n)%nat with 0%nat by lia. cbn [firstn]. apply app_nil_r.
Qed.

Lemma reader_next_ok : forall l es win fuel, decoded l es -> (length l < fuel)%nat ->
  match es with
  | [] => reader_next fuel {| b_win := win; b_rest := l |} = (QEnd, {| b_win := win; b_rest := [] |})
  | e :: es' => exists l', decoded l' es' /\ (length l' < length l)%nat /\
      reader_next fuel {| b_win := win; b_rest := l |} = (QEntry e, {| b_win := win; b_rest := l' |})
  end.
Proof.
  intros l es win fuel H. revert fuel. induction H as [|[k v] en t es HE H IH|[k v] t es HE H IH]; intros fuel Hf.
  - destruct fuel; [cbn in Hf; lia|]. reflexivity.
  - destruct fuel; [cbn in Hf; lia|]. cbn [fst snd] in HE. exists t. split; [exact H|]. split; [cbn; lia|]. cbn [reader_next base_next b_rest b_win]. rewrite HE. reflexivity.
  - destruct fuel; [cbn in Hf; lia|]. cbn [length] in Hf. cbn [fst snd] in HE. specialize (IH fuel ltac:(lia)).
    cbn [reader_next base_next b_rest b_win]. rewrite HE. destruct es as [|e es']; [exact IH|].
    destruct IH as (l' & A & B & C). exists l'. split; [exact A|]. split; [cbn; lia|exact C].
Qed.

Lemma reader_ended : forall n fuel win, (0 < fuel)%nat -> reader_calls fuel n {| b_win := win; b_rest := [] |} = repeat QEnd n.
Proof. intros n fuel win Hf. destruct fuel; [lia|]. induction n as [|n IH]; [reflexivity|]. cbn. rewrite <- IH. reflexivity. Qed.

Lemma reader_calls_ok : forall n l es win fuel, decoded l es -> (length l < fuel)%nat ->
  reader_calls fuel n {| b_win := win; b_rest := l |} = listing es n.
Proof.
  induction n as [|n IH]; intros l es win fuel H Hf; [reflexivity|].
  pose proof (reader_next_ok l es win fuel H Hf) as N. cbn [reader_calls]. destruct es as [|e es'].
  - rewrite N, reader_ended by lia. rewrite listing_nil. reflexivity.
  - destruct N as (l' & A & B & ->). rewrite listing_cons. f_equal. apply IH; [exact A|lia].
Qed.

Lemma reader_window_lists : forall h t es, decoded (window h t) es -> reader_lists (base_open h t) es.
Proof. intros h t es H n. exists (S (length (window h t))). intros fuel Hf. apply reader_calls_ok; [exact H|lia]. Qed.

Lemma selects_window : forall p t l, selects (key_starts p) t l -> window (HPrefix p) t = l.
Proof.
  intros p t l H. unfold window. cbn [in_window]. induction H as [|a t l Ha H IH|a t l Ha H IH]; [reflexivity| |]; cbn [filter].
  - apply is_prefix_spec in Ha. rewrite Ha, IH. reflexivity.
  - destruct (is_prefix p (fst a)) eqn:E; [|exact IH]. apply is_prefix_spec in E. contradiction.
Qed.

Lemma decoded_types : forall b l es, known_type b -> Forall (key_starts [b]) l -> decoded l es -> Forall (fun e => get_type e = b) es.
Proof.
  intros b l es Hb HF H. induction H as [|[k v] en t es HE H IH|e t es HE H IH]; inversion HF as [|? ? [rest E] HF']; subst; auto.
  constructor; [|auto]. cbn [fst snd] in *. subst k. cbn [app] in HE. eapply decoded_type_partial; eauto.
Qed.

(** The iterator over everything, and the one over each type of entry: of the stored
    entries (of that type) exactly those that can be decoded are returned, once each
    and in order; then the iterator is at its end. *)
Definition typed_iterators (t : table) : list (N * base_it) :=
  [(0, reader_iter_rrset t); (1, reader_iter_rrset_names t); (2, reader_iter_rdata t); (3, reader_iter_rdata_names t);
   (253, reader_iter_source_info t); (254, reader_iter_time_range t); (255, reader_iter_version t)].

Theorem reader_iterators : forall t,
  (forall es, decoded t es -> reader_lists (reader_iter t) es) /\
  (forall b it l es, In (b, it) (typed_iterators t) -> selects (key_starts [b]) t l -> decoded l es ->
     reader_lists it es /\ Forall (fun e => get_type e = b) es).
Proof.
  intro t. split.
  - intros es H. apply reader_window_lists. replace (window HIter t) with t; [exact H|].
    unfold window. cbn [in_window]. clear. induction t as [|e t IH]; [reflexivity|]. cbn [filter]. rewrite <- IH. reflexivity.
  - intros b it l es HI HS HD. split.
    + assert (it = reader_iter_prefix t b) as ->.
      { cbn in HI. repeat (destruct HI as [HI|HI]; [injection HI; intros; subst; reflexivity|]). destruct HI. }
      apply reader_window_lists. rewrite (selects_window _ _ _ HS). exact HD.
    + apply (decoded_types b l); [| |exact HD].
      * unfold known_type. cbn in HI. repeat (destruct HI as [HI|HI]; [injection HI; intros; subst; cbn; tauto|]). destruct HI.
      * clear -HS. induction HS; [constructor|constructor; auto|auto].
Qed.
Print Assumptions reader_iterators.

(** A table with an RRset, an undecodable RRset key, record data and a version. *)
Definition junk : kv := ([ENTRY_TYPE_RRSET; 3], [1; 1; 1]).
Definition version_entry : kv := ([ENTRY_TYPE_VERSION; ENTRY_TYPE_RRSET], [7]).
Definition mixed : table := junk :: demo_table ++ [version_entry].

Ltac decode_each := repeat (first [apply dec_nil|apply dec_yes; [vm_compute; reflexivity|]|apply dec_no; [vm_compute; reflexivity|]]).
Ltac select_each :=
  repeat first
    [ apply sel_nil
    | apply sel_yes; [eexists; vm_compute; reflexivity|]
    | apply sel_no; [intros [? X]; vm_compute in X; discriminate X|] ].

Example c37_case : exists l es, selects (key_starts [ENTRY_TYPE_RRSET]) mixed l /\ decoded l es /\
  length l = 6%nat /\ length es = 5%nat /\
  reader_calls 50 6 (reader_iter_rrset mixed) = listing es 6 /\
  map (fun r => match r with QEntry e => Some (get_version_type e, get_version e) | _ => None end)
    (reader_calls 50 2 (reader_iter_version mixed)) = [Some (Ok 0, Ok 7); None].
Proof.
  eexists _, _. split; [unfold mixed, demo_table; cbn [map demo app]; select_each|]. split; [decode_each|].
  vm_compute. auto.
Qed.

(** * C54, C55 *)

Lemma prefix_init : forall q p src idx, asks_prefix q p ->
  query_init q src idx = Ok {| p_key := p; p_key2 := None; p_source := src; p_index := None |}.
Proof.
  intros q p src idx H. unfold query_init. destruct H as [name HQ [HN Hn] HL HR HD HB|name x HQ [HN Hn] HL HR HD HT1 HT2 HX HB|name x bw HQ [HN Hn] HL HR HD HT1 HT2 HX HB|raw HQ HR HL HD|HQ|HQ HV|ty HQ HV HT]; rewrite HQ.
  - unfold init_rrset, name_data. rewrite HN, left_wild_none, right_wild_none by assumption. unfold blen. rewrite reverse_buf_wire by assumption. cbn [bind].
    rewrite HD. unfold opt_filter_bailiwick. rewrite HB. reflexivity.
  - assert (HU : q_rrtype q < u32) by (unfold u32; lia).
    rewrite (leb128_det _ _ _ HX (encode32_leb128 _ HU)).
    unfold init_rrset, name_data. rewrite HN, left_wild_none, right_wild_none by assumption. unfold blen. rewrite reverse_buf_wire by assumption. cbn [bind].
    rewrite HD. unfold add_rrtype_to_key, WDNS_TYPE_ANY. destruct (N.eqb_spec (q_rrtype q) 255); [contradiction|]. cbn [bind]. rewrite HB. reflexivity.
  - assert (HU : q_rrtype q < u32) by (unfold u32; lia).
    rewrite (leb128_det _ _ _ HX (encode32_leb128 _ HU)).
    unfold init_rrset, name_data. rewrite HN, left_wild_none, right_wild_none by assumption. unfold blen. rewrite reverse_buf_wire by assumption. cbn [bind].
    rewrite HD. unfold add_rrtype_to_key, WDNS_TYPE_ANY. destruct (N.eqb_spec (q_rrtype q) 255); [contradiction|]. cbn [bind]. rewrite HB.
    cbn [app]. rewrite <- app_assoc. reflexivity.
  - unfold init_rdata_raw. rewrite HR, HL, HD. rewrite N.ltb_irrefl. unfold blen. rewrite Nnat.Nat2N.id, firstn_all. reflexivity.
  - reflexivity.
  - unfold init_version. rewrite HV. reflexivity.
  - unfold init_version. rewrite HV, HT. reflexivity.
Qed.

(** A query that looks up one key prefix lists, over any sorted table whatsoever, what
    can be decoded among the entries stored under it: an entry that cannot be decoded
    is passed over and neither ends the iteration nor hides others. *)
Theorem undecodable_entries_hide_nothing : forall q p t l es, sorted t -> asks_prefix q p -> no_bounds q ->
  selects (key_starts p) t l -> decoded l es -> lists_decodable q (dnstable_query_iter q t) l.
Proof.
  intros q p t l es HS HA (B1 & B2 & B3 & B4) HSel HD.
  unfold dnstable_query_iter, query_iter_common. rewrite (prefix_init q p _ _ HA). cbn [bind p_key p_key2 p_source p_index].
  rewrite stack_no_fence.
  assert (E0 : forall s, stack0 q s = s).
  { intro s. unfold stack0, has_time_bound. rewrite B1, B2, B3, B4. reflexivity. }
  rewrite E0. eapply (direct_lists_decodable q (HPrefix p) _ l es); try reflexivity; [|rewrite base_timeout; auto|exact HD].
  rewrite <- (selects_window _ _ _ HSel). apply picks_base_t. exact HS.
Qed.
Print Assumptions undecodable_entries_hide_nothing.

Definition Q54 := ask QRrset None (Some (wire [])) None None [] [] 1 None None None None.
(** The name "." has the RRset key prefix 0 0; junk under it and a real RRset. *)
Definition rootset : kv := put (RRset [] 2 [] [[1; 97; 0]] (ob 10 20 3)).
Definition rootset2 : kv := put (RRset [] 6 [] [[1; 97; 0]] (ob 10 20 3)).
Definition holed : table := [([0; 0; 1; 63; 1], [1; 1; 1]); rootset; ([0; 0; 2; 63; 1], [1; 1; 1]); rootset2; version_entry].
Example c54_case : sorted holed /\ asks_prefix Q54 [0; 0] /\ no_bounds Q54 /\
  (exists l es, selects (key_starts [0; 0]) holed l /\ decoded l es /\ length l = 4%nat /\ length es = 2%nat) /\
  seen_by 3 Q54 holed = [Some (0, Ok [0], Ok 2); Some (0, Ok [0], Ok 6); None].
Proof.
  split; [repeat constructor|]. split.
  - apply (ap_rrset _ []); try reflexivity.
    + split; [reflexivity|apply name_okb_ok; reflexivity].
    + intros ? ? E. discriminate E.
    + intros ls x E. destruct ls; discriminate E.
  - split; [repeat split|]. split; [|vm_compute; reflexivity].
    eexists _, _. split; [unfold holed; select_each|]. split; [decode_each|]. vm_compute. auto.
Qed.

(** The metadata queries: the time ranges stored, the versions stored, or the version
    stored for the type asked for; each entry reports what is stored. *)
Inductive asks_metadata (q : query) : (kv -> Prop) -> Prop :=
| am_time_range : q_type q = QTimeRange -> asks_metadata q (key_starts [254])
| am_versions : q_type q = QVersion -> q_has_v_type q = false -> asks_metadata q (key_starts [255])
| am_version : q_type q = QVersion -> q_has_v_type q = true -> asks_metadata q (key_starts [255; q_v_type q]).

(** What the entry for a well-formed stored time range or version reports. *)
Inductive metadata : kv -> entry -> Prop :=
| md_time_range : forall f l v e, pair_value (f, l) v -> f < u64 -> l < u64 ->
    get_type e = 254 -> get_time_first e = Ok f -> get_time_last e = Ok l -> metadata ([254], v) e
| md_version : forall ty n v e, leb128 n v -> n < u32 ->
    get_type e = 255 -> get_version_type e = Ok ty -> get_version e = Ok n -> metadata ([255; ty], v) e.
Inductive stored_metadata : kv -> Prop :=
| sm_time_range : forall f l v, pair_value (f, l) v -> f < u64 -> l < u64 -> stored_metadata ([254], v)
| sm_version : forall ty n v, leb128 n v -> n < u32 -> stored_metadata ([255; ty], v).

Lemma stored_decode : forall e, stored_metadata e -> exists en, entry_decode (fst e) (snd e) = Ok en /\ metadata e en.
Proof.
  intros e [f l v HV Hf Hl|ty n v HV Hn]; cbn [fst snd].
  - destruct (decode_time_range_entry f l v Hf Hl HV) as (en & A & B & C & D). exists en. split; [exact A|]. econstructor; eauto.
  - destruct (decode_version_entry ty n v Hn HV) as (en & A & B & C & D). exists en. split; [exact A|]. econstructor; eauto.
Qed.

Lemma stored_decode_all : forall l, Forall stored_metadata l -> exists es, decodes l es /\ Forall2 metadata l es.
Proof.
  intros l H. induction H as [|e l H HF (es & A & B)]; [exists []; split; constructor|].
  destruct (stored_decode e H) as (en & C & D). exists (en :: es). split; constructor; auto.
Qed.

Theorem metadata_queries : forall q P t l, sorted t -> asks_metadata q P -> no_bounds q ->
  selects P t l -> Forall stored_metadata l ->
  exists es, Forall2 metadata l es /\ lists q (dnstable_query_iter q t) es.
Proof.
  intros q P t l HS HA (B1 & B2 & B3 & B4) HSel HM. destruct (stored_decode_all l HM) as (es & HD & HE). exists es. split; [exact HE|].
  assert (HP : exists p, asks_prefix q p /\ P = key_starts p).
  { destruct HA as [HQ|HQ HV|HQ HV]; eexists; (split; [|reflexivity]); [apply ap_time_range|apply ap_version|apply ap_version_type]; auto. }
  destruct HP as (p & HAp & ->).
  unfold dnstable_query_iter, query_iter_common. rewrite (prefix_init q p _ _ HAp). cbn [bind p_key p_key2 p_source p_index].
  rewrite stack_no_fence.
  assert (E0 : forall s, stack0 q s = s).
  { intro s. unfold stack0, has_time_bound. rewrite B1, B2, B3, B4. reflexivity. }
  rewrite E0. eapply (direct_lists q (HPrefix p) _ l es); try reflexivity; [|rewrite base_timeout; auto|exact HD].
  rewrite <- (selects_window _ _ _ HSel). apply picks_base_t. exact HS.
Qed.
Print Assumptions metadata_queries.

Definition Q55 := ask QTimeRange None None None None [] [] 0 None None None None.
Example c55_case : sorted demo_table /\ asks_metadata Q55 (key_starts [254]) /\ no_bounds Q55 /\
  (exists l, selects (key_starts [254]) demo_table l /\ length l = 1%nat /\ Forall stored_metadata l) /\
  (exists qi e, dnstable_query_iter Q55 demo_table = Ok qi /\ calls 50 2 qi world0 = [QEntry e; QEnd] /\
     get_time_first e = Ok 90 /\ get_time_last e = Ok 260).
Proof.
  split; [apply demo_database|]. split; [apply am_time_range; reflexivity|]. split; [repeat split|]. split.
  - eexists. split; [unfold demo_table; cbn [map demo]; select_each|]. split; [reflexivity|]. repeat constructor.
    apply (sm_time_range 90 260); [|vm_compute; reflexivity..].
    exists [90], [132; 2]. split; [apply (leb_last 90); cbn; lia|]. split; [|reflexivity].
    apply (leb_more 260 [2]); [cbn; lia|]. apply (leb_last 2). lia.
  - eexists _, _. split; [reflexivity|]. split; [vm_compute; reflexivity|]. split; reflexivity.
Qed.

(** With a time bound a metadata query reads behind the two numbers of a stored time
    range for a third one, outside the value. *)
Theorem metadata_bounds_refuted : exists q t qi, sorted t /\ asks_metadata q (key_starts [254]) /\
  (exists l, selects (key_starts [254]) t l /\ l <> [] /\ Forall stored_metadata l) /\
  q_do_tfa q = true /\ q_tfa q = 0 /\ q_do_tfb q = false /\ q_do_tla q = false /\ q_do_tlb q = false /\
  dnstable_query_iter q t = Ok qi /\ calls 50 1 qi world0 = [QUB].
Proof.
  exists (ask QTimeRange None None None None [] [] 0 (Some 0) None None None), demo_table. eexists.
  split; [apply demo_database|]. split; [apply am_time_range; reflexivity|]. split.
  - eexists. split; [unfold demo_table; cbn [map demo]; select_each|]. split; [discriminate|]. repeat constructor.
    apply (sm_time_range 90 260); [|vm_compute; reflexivity..].
    exists [90], [132; 2]. split; [apply (leb_last 90); cbn; lia|]. split; [|reflexivity].
    apply (leb_more 260 [2]); [cbn; lia|]. apply (leb_last 2). lia.
  - do 5 (split; [reflexivity|]). split; [reflexivity|]. vm_compute. reflexivity.
Qed.

Lemma decode64_leb128 : forall n a rest, leb128 n a -> n < u64 -> varint_decode64 (a ++ rest) = Ok (length a, n).
Proof. intros n a rest H HN. rewrite (leb128_det _ _ _ H (leb128_encode64 n HN)). apply varint64_roundtrip. exact HN. Qed.
Lemma metadata_no_triplet : forall e, stored_metadata e -> triplet_unpack (snd e) = UB.
Proof.
  intros e [f l v (a & b & HA & HB & ->) Hf Hl|ty n v HV Hn]; cbn [fst snd] in *; unfold triplet_unpack.
  - rewrite (decode64_leb128 f a b HA Hf). cbn [bind fst snd]. rewrite skipn_app, skipn_all, Nat.sub_diag. cbn [skipn app].
    rewrite <- (app_nil_r b) at 1. rewrite (decode64_leb128 l b [] HB Hl). cbn [bind fst snd].
    rewrite skipn_all2 by (rewrite app_length; lia). reflexivity.
  - assert (HU : n < u64) by (unfold u64, u32 in *; lia).
    rewrite <- (app_nil_r v) at 1. rewrite (decode64_leb128 n v [] HV HU). cbn [bind fst snd]. rewrite skipn_all. reflexivity.
Qed.
Lemma metadata_no_time : forall q b e, stored_metadata e -> time_res q b (snd e) = FUB.
Proof. intros q b e H. unfold time_res. rewrite (metadata_no_triplet e H). reflexivity. Qed.
Lemma timed_bounds : forall q, ~ no_bounds q -> has_time_bound q = true.
Proof.
  intros q H. unfold has_time_bound. destruct (q_do_tfa q) eqn:A; [reflexivity|]. destruct (q_do_tlb q) eqn:B; [reflexivity|].
  destruct (q_do_tfb q) eqn:C; [reflexivity|]. destruct (q_do_tla q) eqn:D; [reflexivity|]. exfalso. apply H. repeat split; assumption.
Qed.

Lemma filter_passes : forall f s ff u w o u1 w1, next f u w = (o, u1, w1) -> (forall e, o <> OOk e) ->
  next (S f) (IFilter s ff u) w = (o, IFilter s ff u1, w1).
Proof. intros f s ff u w o u1 w1 E H. cbn [next]. rewrite E. destruct o; [contradiction (H e eq_refl)|reflexivity..]. Qed.
Lemma base_first : forall t p e l w f, window (HPrefix p) t = e :: l ->
  next (S f) (open (HPrefix p) (SBase t)) w = (OOk e, IBase {| b_win := e :: l; b_rest := l |}, w).
Proof. intros t p e l w f H. cbn [open next base_open base_next b_rest b_win]. unfold base_open, base_next. cbn [b_rest b_win]. rewrite H. reflexivity. Qed.
Lemma filter_crashes : forall f s q u w k v u1 w1, next f u w = (OOk (k, v), u1, w1) -> time_res q true v = FUB ->
  next (S f) (IFilter s (filter_time_prefilter q) u) w = (OUB, IFilter s (filter_time_prefilter q) u1, w1).
Proof. intros f s q u w k v u1 w1 E H. cbn [next]. rewrite E. unfold filter_time_prefilter at 1. rewrite H. reflexivity. Qed.

(** The first step of such a query. *)
Lemma bounded_next : forall q t p k v l fuel w, has_time_bound q = true -> window (HPrefix p) t = (k, v) :: l ->
  stored_metadata (k, v) -> (6 <= fuel)%nat ->
  let it := open (HPrefix p) (with_offset q (stack0 q (if is_timed q then STimeout (SBase t) else SBase t))) in
  exists w' it', next (S (S fuel)) it w = (OUB, it', w') \/ (is_timed q = true /\ next (S (S fuel)) it w = (OExpired, it, w')).
Proof.
  intros q t p k v l fuel w HB HW HM HF it.
  assert (L : forall f w, (4 <= f)%nat -> let it0 := open (HPrefix p) (stack0 q (if is_timed q then STimeout (SBase t) else SBase t)) in
    exists w' it', next (S f) it0 w = (OUB, it', w') \/ (is_timed q = true /\ next (S f) it0 w = (OExpired, it0, w'))).
  { clear w. intros f w Hf. do 4 (destruct f as [|f]; [lia|]). cbv zeta. unfold stack0. rewrite HB. cbn [open].
    pose proof (metadata_no_time q true (k, v) HM) as HT. cbn [snd] in HT.
    destruct (is_timed q).
    - cbn [open].
      destruct (next (S (S (S f))) (ITimeout (IBase (base_open (HPrefix p) t))) w) as [[o u1] w1] eqn:EN.
      pose proof EN as EN'. cbn [next] in EN'. destruct (gettime w) as [now w2] eqn:EG. destruct (ts_cmp now (w_deadline w2)).
      + injection EN' as <- <- <-. exists w2, (IBase (base_open HIter t)). right. split; [reflexivity|].
        rewrite (filter_passes _ _ _ _ _ _ _ _ (filter_passes _ StTimePrefilter (filter_time_prefilter q) _ _ _ _ _ EN ltac:(discriminate)) ltac:(discriminate)). reflexivity.
      + pose proof (base_first t p (k, v) l w2 (S f) HW) as BF. cbn [open] in BF. cbn [next] in BF. rewrite BF in EN'. injection EN' as <- <- <-.
        exists w2. eexists. left. apply (filter_passes _ _ _ _ _ _ _ _ (filter_crashes _ StTimePrefilter q _ _ _ _ _ _ EN HT)). discriminate.
      + injection EN' as <- <- <-. exists w2, (IBase (base_open HIter t)). right. split; [reflexivity|].
        rewrite (filter_passes _ _ _ _ _ _ _ _ (filter_passes _ StTimePrefilter (filter_time_prefilter q) _ _ _ _ _ EN ltac:(discriminate)) ltac:(discriminate)). reflexivity.
    - exists w. eexists. left. pose proof (base_first t p (k, v) l w (S (S f)) HW) as BF.
      apply (filter_passes _ _ _ _ _ _ _ _ (filter_crashes _ StTimePrefilter q _ _ _ _ _ _ BF HT)). discriminate. }
  unfold it, with_offset, filter_set_cond. destruct (0 <? q_offset q).
  - cbn [open]. destruct (L fuel w ltac:(lia)) as (w' & it' & [E|[T E]]); exists w'.
    + eexists. left. apply (filter_passes _ _ _ _ _ _ _ _ E). discriminate.
    + exists it'. right. split; [exact T|]. apply (filter_passes _ _ _ _ _ _ _ _ E). discriminate.
  - apply (L (S fuel)). lia.
Qed.

(** With a time bound a metadata query ends at once if there is nothing to return.
    Otherwise the first call that does not time out reads outside a stored value. *)
Theorem metadata_bounds : forall q P t l, sorted t -> asks_metadata q P -> ~ no_bounds q ->
  selects P t l -> Forall stored_metadata l ->
  match l with
  | [] => lists q (dnstable_query_iter q t) []
  | _ :: _ => exists qi, dnstable_query_iter q t = Ok qi /\ forall w n, eventually (fun fuel =>
      let rs := calls fuel n qi w in
      exists k, (q_do_timeout q = false -> q_do_deadline q = false -> k = 0%nat) /\
        ((k = n /\ rs = repeat QTimeout n) \/ exists rest, rs = repeat QTimeout k ++ QUB :: rest))
  end.
Proof.
  intros q P t l HS HA HB HSel HM. apply timed_bounds in HB.
  assert (HP : exists p, asks_prefix q p /\ P = key_starts p).
  { destruct HA as [HQ|HQ HV|HQ HV]; eexists; (split; [|reflexivity]); [apply ap_time_range|apply ap_version|apply ap_version_type]; auto. }
  destruct HP as (p & HAp & ->). apply selects_window in HSel.
  unfold dnstable_query_iter, query_iter_common. rewrite (prefix_init q p _ _ HAp). cbn [bind p_key p_key2 p_source p_index].
  rewrite stack_no_fence. destruct l as [|[k v] l].
  - eapply (direct_lists q (HPrefix p) (stack0 q _) [] []); try reflexivity; [|rewrite stack0_timeout, base_timeout; auto|constructor].
    replace (@nil kv) with (filter (fun e => in_window (HPrefix p) (fst e) && timep q e) t).
    + apply (picks_stack (HPrefix p) _ (fun e => in_window (HPrefix p) (fst e))); [apply picks_base_t; exact HS|].
      intros e He Pe. exfalso. assert (X : In e (window (HPrefix p) t)) by (apply filter_In; auto). rewrite HSel in X. destruct X.
    + unfold window in HSel. transitivity (filter (timep q) (filter (fun e => in_window (HPrefix p) (fst e)) t)); [|rewrite HSel; reflexivity].
      clear. induction t as [|e t IH]; [reflexivity|]. cbn [filter]. destruct (in_window (HPrefix p) (fst e)); cbn [filter andb]; rewrite IH; reflexivity.
  - eexists. split; [reflexivity|]. intros w n. exists 10%nat. intros fuel HF.
    inversion HM as [|x y HM1 HM2]; subst. 
    assert (ST : forall w, exists w' it', let qi := {| qi_query := q; qi_source := with_offset q (stack0 q (if is_timed q then STimeout (SBase t) else SBase t));
        qi_kind := Direct (open (HPrefix p) (with_offset q (stack0 q (if is_timed q then STimeout (SBase t) else SBase t)))) |} in
      (qnext fuel qi w = (QUB, it', w')) \/ (is_timed q = true /\ qnext fuel qi w = (QTimeout, qi, w'))).
    { clear w. intro w. do 10 (destruct fuel as [|fuel]; [lia|]). unfold qnext. cbn [qi_query qi_kind qi_source].
      destruct (bounded_next q t p k v l (S (S (S (S (S (S (S (S fuel)))))))) (if is_timed q then iter_set_deadline q w else w) HB HSel HM1 ltac:(lia))
        as (w' & it' & E). exists w'. cbn [direct_loop]. cbv zeta.
      destruct E as [E|[T E]]; rewrite E; eexists; [left; reflexivity|right; split; [exact T|reflexivity]].
      Unshelve. exact {| qi_query := q; qi_source := SBase t; qi_kind := Direct (IBase (base_open HIter t)) |}. }
    cbv zeta in ST. set (qi := {| qi_query := _ |}) in *. clearbody qi. cbv zeta.
    revert w. induction n as [|n IH]; intro w; [exists 0%nat; auto|]. cbn [calls].
    destruct (ST w) as (w' & it' & [E|[T E]]); rewrite E.
    + exists 0%nat. split; [auto|]. right. eexists. reflexivity.
    + destruct (IH w') as (j & J & H). exists (S j). split; [intros T1 T2; unfold is_timed in T; rewrite T1, T2 in T; discriminate T|].
      destruct H as [[-> ->]|(rest & ->)]; [left; split; reflexivity|right; exists rest; reflexivity].
Qed.
Print Assumptions metadata_bounds.
Example metadata_bounds_case : exists q l, sorted demo_table /\ asks_metadata q (key_starts [254]) /\ ~ no_bounds q /\
  selects (key_starts [254]) demo_table l /\ length l = 1%nat /\ Forall stored_metadata l.
Proof.
  exists (ask QTimeRange None None None None [] [] 0 None None None (Some 7)). eexists.
  split; [apply demo_database|]. split; [apply am_time_range; reflexivity|]. split; [intros (A & B & C & D); discriminate|].
  split; [unfold demo_table; cbn [map demo]; select_each|]. split; [reflexivity|]. repeat constructor.
  apply (sm_time_range 90 260); [|vm_compute; reflexivity..].
  exists [90], [132; 2]. split; [apply (leb_last 90); cbn; lia|]. split; [|reflexivity].
  apply (leb_more 260 [2]); [cbn; lia|]. apply (leb_last 2). lia.
Qed.

(** * C36 *)

Lemma lt_guard : forall (d : bool) a b, d && (a <? b) = false <-> (d = true -> b <= a).
Proof.
  intros d a b. destruct d; cbn [andb]; [|split; [discriminate|reflexivity]].
  destruct (N.ltb_spec a b) as [L|L]; split; try discriminate; auto. intro X. specialize (X eq_refl). lia.
Qed.

(** dnstable_query_filter accepts the entry of a record exactly when the type, the
    reported times and, for RRset queries, the bailiwick are those asked for. *)
Theorem query_filter_exact : forall q bw r en, reports r en ->
  (q_type q = QRrset -> asks_bailiwick q bw) -> comparable q r ->
  exists b, query_filter q en = Ok b /\ (b = true <-> accepts q bw r).
Proof.
  intros q bw r en HSh HB HC.
  assert (F : exists ty o, get_rrtype en = Ok ty /\ reports_obs en o /\
    (accepts q bw r <-> type_asked q ty /\ reported_in_fence q o /\
       match r with RRset _ _ b _ _ => q_type q = QRrset -> bailiwick_ok bw b | _ => True end)).
  { destruct r as [ow ty b rs o|ow ty hd tl o| | |]; cbn [reports] in HSh; try contradiction; exists ty, o; cbn [accepts]; intuition. }
  destruct F as (ty & o & GT & (G1 & G2 & _) & EA). 
  match type of EA with _ <-> ?X => enough (G : exists b, query_filter q en = Ok b /\ (b = true <-> X))
    by (destruct G as (b & A & B); exists b; split; [exact A|rewrite B; symmetry; exact EA]) end.
  clear EA. unfold query_filter.
  set (need := q_do_rrtype q || _). assert (ET : exists x, (if need then get_rrtype en else Ok 0) = Ok x /\ (need = true -> x = ty)).
  { destruct need; [exists ty|exists 0]; split; auto; discriminate. }
  destruct ET as (x & -> & Ex). cbn [bind].
  set (wrong := (if q_do_rrtype q then negb (x =? q_rrtype q) else _)).
  assert (TA : wrong = false <-> type_asked q ty).
  { unfold wrong, type_asked, type_ok, need in *. destruct (q_do_rrtype q) eqn:ED; cbn [orb] in *.
    - rewrite (Ex eq_refl), negb_false_iff, N.eqb_eq. split; [intros ->; split; intros; congruence|intros [H _]; auto].
    - destruct (q_type q) eqn:EQ; try (split; [intros _; split; intros; congruence|reflexivity]).
      rewrite (Ex eq_refl), negb_false_iff, name_type_all_spec. split; [split; [discriminate|auto]|intros [_ H]; auto]. }
  destruct wrong eqn:EW.
  { exists false. split; [reflexivity|]. split; [discriminate|]. intros (H & _). apply TA in H. discriminate. }
  assert (TT : type_asked q ty) by (apply TA; reflexivity). clear TA.
  assert (ET : exists tf, (if q_do_tfb q || q_do_tfa q then get_time_first en else Ok 0) = Ok tf /\ (q_do_tfb q || q_do_tfa q = true -> tf = o_first o)).
  { rewrite G1. destruct (q_do_tfb q || q_do_tfa q); eexists; split; auto; discriminate. }
  destruct ET as (tf & -> & Etf). cbn [bind].
  assert (A1 : q_do_tfb q && (q_tfb q <? tf) = false <-> (q_do_tfb q = true -> o_first o <= q_tfb q)).
  { rewrite lt_guard. destruct (q_do_tfb q); [|split; discriminate]. rewrite Etf by reflexivity. tauto. }
  assert (A2 : q_do_tfa q && (tf <? q_tfa q) = false <-> (q_do_tfa q = true -> q_tfa q <= o_first o)).
  { rewrite lt_guard. destruct (q_do_tfa q); [|split; discriminate]. rewrite Etf by apply orb_true_r. tauto. }
  destruct (q_do_tfb q && (q_tfb q <? tf)).
  { exists false. split; [reflexivity|]. split; [discriminate|]. intros (_ & (_ & H & _) & _). apply A1 in H. discriminate. }
  destruct (q_do_tfa q && (tf <? q_tfa q)).
  { exists false. split; [reflexivity|]. split; [discriminate|]. intros (_ & (H & _) & _). apply A2 in H. discriminate. }
  assert (ET : exists tl, (if q_do_tlb q || q_do_tla q then get_time_last en else Ok 0) = Ok tl /\ (q_do_tlb q || q_do_tla q = true -> tl = seen_last o)).
  { rewrite G2. destruct (q_do_tlb q || q_do_tla q); eexists; split; auto; discriminate. }
  destruct ET as (tl & -> & Etl). cbn [bind].
  assert (A3 : q_do_tlb q && (q_tlb q <? tl) = false <-> (q_do_tlb q = true -> seen_last o <= q_tlb q)).
  { rewrite lt_guard. destruct (q_do_tlb q); [|split; discriminate]. rewrite Etl by reflexivity. tauto. }
  assert (A4 : q_do_tla q && (tl <? q_tla q) = false <-> (q_do_tla q = true -> q_tla q <= seen_last o)).
  { rewrite lt_guard. destruct (q_do_tla q); [|split; discriminate]. rewrite Etl by apply orb_true_r. tauto. }
  destruct (q_do_tlb q && (q_tlb q <? tl)).
  { exists false. split; [reflexivity|]. split; [discriminate|]. intros (_ & (_ & _ & _ & H) & _). apply A3 in H. discriminate. }
  destruct (q_do_tla q && (tl <? q_tla q)).
  { exists false. split; [reflexivity|]. split; [discriminate|]. intros (_ & (_ & _ & H & _) & _). apply A4 in H. discriminate. }
  assert (RF : reported_in_fence q o).
  { split; [apply A2; reflexivity|]. split; [apply A1; reflexivity|]. split; [apply A4; reflexivity|apply A3; reflexivity]. }
  assert (YES : (q_type q = QRrset -> q_bailiwick q = None) ->
    match r with RRset _ _ b _ _ => q_type q = QRrset -> bailiwick_ok bw b | _ => True end).
  { intro HN. destruct r; auto. intro HQ. destruct (HB HQ) as [HB1 _]. rewrite (HN HQ) in HB1. destruct bw; [discriminate|exact I]. }
  destruct (q_type q) eqn:EQ; try (exists true; split; [reflexivity|]; split; [|reflexivity]; intros _; split; [exact TT|]; split; [exact RF|]; apply YES; discriminate).
  destruct (q_bailiwick q) as [qb|] eqn:EB; [|exists true; split; [reflexivity|]; split; [|reflexivity]; intros _; split; [exact TT|]; split; [exact RF|]; apply YES; auto].
  destruct (HB eq_refl) as [HB1 HB2]. rewrite EB in HB1. destruct bw as [b0|]; [|discriminate HB1]. cbn [option_map] in HB1. injection HB1 as HB1.
  destruct r as [ow ty' b rs o'|ow ty' hd tl' o'| | |]; cbn [reports comparable] in *; try contradiction; [|specialize (HC EQ); congruence].
  destruct HSh as (_ & _ & _ & -> & _). cbn [bind bailiwick_ok].
  assert (HR : wdns_reverse_name (wire b) (blen (wire b)) = Ok (rwire b)).
  { unfold blen. rewrite <- (app_nil_r (wire b)) at 1. apply reverse_wire. apply HC. }
  rewrite HR. destruct (N.eqb_spec (blen qb) (blen (wire b))) as [EL|NL]; cbn [negb].
  - exists (beq qb (rwire b)). split; [reflexivity|]. rewrite beq_true, HB1. split.
    + intro E. split; [exact TT|]. split; [exact RF|]. intros _.
      assert (E' : rwire b ++ [] = rwire b0 ++ []) by (rewrite !app_nil_r; congruence).
      apply rwire_prefix_inj in E'; [|apply HC|apply HB2]. apply E'.
    + intros (_ & _ & H). rewrite (H eq_refl). reflexivity.
  - exists false. split; [reflexivity|]. split; [discriminate|]. intros (_ & _ & H). exfalso. apply NL.
    rewrite HB1, (H eq_refl). unfold blen. rewrite length_rwire. reflexivity.
Qed.
Print Assumptions query_filter_exact.

(** Record data is never accepted by an RRset query with a bailiwick. *)
Theorem query_filter_no_bailiwick : forall q ow ty hd tl o en, reports (RData ow ty hd tl o) en ->
  q_type q = QRrset -> q_bailiwick q <> None ->
  query_filter q en = Ok false \/ query_filter q en = Fail.
Proof.
  intros q ow ty hd tl o en (GE & _ & GT & _ & G1 & G2 & _) HQ HB.
  assert (GB : get_bailiwick en = Fail) by (unfold get_type in GE; unfold get_bailiwick, is_type; rewrite GE; reflexivity).
  unfold query_filter. rewrite HQ, GB, GT, G1, G2.
  destruct (q_bailiwick q); [|congruence].
  repeat match goal with |- context [if ?b then _ else _] => destruct b; cbn [bind]; auto end.
Qed.

Definition Q36 := ask QRrset (Some 1) (Some (wire [L_www; L_ex; L_com])) (Some (rwire [L_ex; L_com])) None [] [] 0 (Some 50) (Some 110) None (Some 200).
Example c36_case : exists r en, In r demo /\ reports r en /\ asks_bailiwick Q36 (Some [L_ex; L_com]) /\ comparable Q36 r /\
  accepts Q36 (Some [L_ex; L_com]) r /\ query_filter Q36 en = Ok true.
Proof.
  destruct (decode_shows (RRset [L_www; L_ex; L_com] 1 [L_ex; L_com] [[10; 0; 0; 1]; [10; 0; 0; 3]] (ob 100 200 7)) (put (RRset [L_www; L_ex; L_com] 1 [L_ex; L_com] [[10; 0; 0; 1]; [10; 0; 0; 3]] (ob 100 200 7)))) as (en & HD & HS).
  { apply put_ok. reflexivity. } { exact I. }
  eexists _, en. split; [right; right; left; reflexivity|]. split; [apply HS|]. split.
  - split; [reflexivity|]. apply name_okb_ok. reflexivity.
  - split; [apply name_okb_ok; reflexivity|]. split.
    + repeat split; vm_compute; try congruence; intros; congruence.
    + vm_compute in HD. injection HD as <-. reflexivity.
Qed.

Lemma in_fence_reported : forall q o, o_last o <> 0 \/ (q_do_tla q = false /\ q_do_tlb q = false) ->
  in_fence q o -> reported_in_fence q o.
Proof.
  intros q o HL (A & B & C & D). split; [exact A|]. split; [exact B|]. destruct HL as [HL|[H1 H2]]; [|rewrite H1, H2; split; discriminate].
  unfold seen_last. destruct (N.eqb_spec (o_last o) 0); [contradiction|]. auto.
Qed.

Lemma asked_accepted : forall q recs M, asks q recs M -> exists bw, (q_type q = QRrset -> asks_bailiwick q bw) /\
  forall r, M r -> last_settled q r -> accepts q bw r /\
    match r with RData _ _ _ _ _ => q_type q <> QRrset | _ => True end.
Proof.
  intros q recs M H. destruct H as [name bw A1 A2 A3 A4 A5 A6|c x bw A1 A2 A3 A4|name A1 A2 A3 A4 A5 A6|c x A1 A2 A3 A4 A5|raw A1 A2 A3|n ty lo hi A1 A2 A3 A4].
  - exists bw. split; [auto|]. intros r HM HL. destruct r; cbn in HM, HL; try contradiction. destruct HM as (B1 & B2 & B3 & B4).
    cbn [accepts]. unfold type_asked. rewrite A1. repeat split; auto; try discriminate; try (apply in_fence_reported; auto).
  - exists bw. split; [auto|]. intros r HM HL. destruct r; cbn in HM, HL; try contradiction. destruct HM as (B1 & B2 & B3 & B4).
    cbn [accepts]. unfold type_asked. rewrite A1. repeat split; auto; try discriminate; try (apply in_fence_reported; auto).
  - exists None. split; [rewrite A1; discriminate|]. intros r HM HL. destruct r; cbn in HM, HL; try contradiction. destruct HM as (B1 & B2 & B3 & B4).
    cbn [accepts]. unfold type_asked. rewrite A1. repeat split; auto; try discriminate; try (apply in_fence_reported; auto).
  - exists None. split; [rewrite A1; discriminate|]. intros r HM HL. destruct r; cbn in HM, HL; try contradiction. destruct HM as (B1 & B2 & B3 & B4).
    cbn [accepts]. unfold type_asked. rewrite A1. repeat split; auto; try discriminate; try (apply in_fence_reported; auto).
  - exists None. split; [rewrite A1; discriminate|]. intros r HM HL. destruct r; cbn in HM, HL; try contradiction. destruct HM as (B1 & B2 & B3).
    cbn [accepts]. unfold type_asked. rewrite A1. repeat split; auto; try discriminate; try (apply in_fence_reported; auto).
  - exists None. split; [rewrite A1; discriminate|]. intros r HM HL. destruct r; cbn in HM, HL; try contradiction. destruct HM as (B1 & B2 & B3).
    cbn [accepts]. unfold type_asked, type_ok. rewrite A1. destruct A2 as (_ & _ & E & _).
    repeat split; auto; try discriminate; try (apply in_fence_reported; auto); intros; congruence.
Qed.

Lemma asked_grouped_accepted : forall q recs I B M, asks_grouped q recs I B M -> exists bw, (q_type q = QRrset -> asks_bailiwick q bw) /\
  forall r, M r -> last_settled q r -> accepts q bw r /\ match r with RData _ _ _ _ _ => q_type q <> QRrset | _ => True end.
Proof.
  intros q recs I B M H. destruct H as [c x bw A1 A2 A3 A4 A5 A6 A7 A8|c x A1 A2 A3 A4 A5 A6 A7 A8].
  - exists bw. split; [auto|]. intros r HM HL. destruct r; cbn in HM, HL; try contradiction. destruct HM as (B1 & B2 & B3 & B4).
    cbn [accepts]. unfold type_asked. rewrite A1. repeat split; auto; try discriminate; try (apply in_fence_reported; auto).
  - exists None. split; [rewrite A1; discriminate|]. intros r HM HL. destruct r; cbn in HM, HL; try contradiction. destruct HM as (B1 & B2 & B3 & B4).
    cbn [accepts]. unfold type_asked. rewrite A1. repeat split; auto; try discriminate; try (apply in_fence_reported; auto).
Qed.

Lemma accepted_all : forall q bw (M : record -> Prop) recs t, database recs t ->
  (q_type q = QRrset -> asks_bailiwick q bw) ->
  (forall r, M r -> last_settled q r -> accepts q bw r /\ match r with RData _ _ _ _ _ => q_type q <> QRrset | _ => True end) ->
  forall out es, (forall r, In r out -> In r recs /\ M r) -> Forall2 shows out es ->
  Forall2 (fun r e => last_settled q r -> query_filter q e = Ok true) out es.
Proof.
  intros q bw M recs t [HF _] HB HM out es HO H. induction H as [|r e out es H HR IH]; constructor; [|apply IH; intros; apply HO; right; auto].
  intro HL. destruct (HO r (or_introl eq_refl)) as [HI Hr]. destruct (HM r Hr HL) as [HA HT].
  assert (HC : comparable q r).
  { destruct r as [ow ty b rs o|ow ty hd tl o| | |]; try contradiction; [|cbn; intro; contradiction].
    cbn [comparable]. clear -HF HI. induction HF as [|r0 e0 recs t HE HF IH]; [contradiction|]. destruct HI as [->|HI]; [|auto]. apply HE. }
  destruct (query_filter_exact q bw r e (proj1 H) HB HC) as (b & E & EB). rewrite E. f_equal. apply EB. exact HA.
Qed.

(** Every entry a query returns is accepted by dnstable_query_filter with that query,
    provided that its record has a last-seen time or the query does not bound it. *)
Theorem returned_accepted_partial : forall q recs t, answerable q recs t ->
  exists out es, Forall2 shows out es /\ lists q (dnstable_query_iter q t) es /\
    Forall2 (fun r e => last_settled q r -> query_filter q e = Ok true) out es.
Proof.
  intros q recs t (HD & [(M & HA)|(HS & I & B & M & HA)]).
  - destruct (asked_accepted q recs M HA) as (bw & HB & HM). destruct (query_returns q t recs M HD HA) as (out & es & HO & HE & HL).
    exists out, es. split; [exact HE|]. split; [exact HL|]. apply (accepted_all q bw M recs t HD HB HM); [|exact HE].
    intros r Hr. destruct (selects_in _ _ _ _ HO r Hr). auto.
  - destruct (asked_grouped_accepted q recs I B M HA) as (bw & HB & HM).
    destruct (query_returns_grouped q t recs I B M HD HS HA) as (heads & outs & es & all & _ & HO & _ & _ & HE & HL).
    exists (concat outs), es. split; [exact HE|]. split; [exact HL|]. apply (accepted_all q bw M recs t HD HB HM); [|exact HE].
    intros r Hr. apply in_concat in Hr. destruct Hr as (o & Ho & Hr).
    assert (X : exists h, selects (fun r => B h r /\ M r) recs o).
    { clear -HO Ho. induction HO as [|h o' heads outs HX HO IH]; [contradiction|]. destruct Ho as [->|Ho]; eauto. }
    destruct X as (h & X). destruct (selects_in _ _ _ _ X r Hr) as [Y Z]. split; [exact Y|apply Z].
Qed.
Print Assumptions returned_accepted_partial.

(** C53 for records with a last-seen time, or queries that do not bound it: the entries
    returned are exactly those of the query without time bounds that report times within
    the bounds. *)
Lemma shown_within : forall q r e, shows r e -> last_settled q r -> (fenced_in q r <-> reports_within q e).
Proof.
  intros q r e [R _] L. destruct r as [? ? ? ? o|? ? ? ? o|? ?|? ?|? ?]; cbn [reports] in R; try contradiction.
  all: assert (X : reports_obs e o) by (apply R); clear R; destruct X as (R1 & R2 & _); unfold seen_last in R2; cbn [fenced_in last_settled] in *.
  all: unfold in_fence, reports_within; split; [intros (F1 & F2 & F3 & F4); do 2 eexists; split; [exact R1|]; split; [exact R2|]|intros (f & l & E1 & E2 & F1 & F2 & F3 & F4); rewrite R1 in E1; rewrite R2 in E2; inversion E1; inversion E2; subst].
  all: destruct L as [L|[L1 L2]]; [destruct (N.eqb_spec (o_last o) 0); [contradiction|]; cbv iota in *; auto|rewrite ?L1, ?L2 in *; repeat split; auto; discriminate].
Qed.
Theorem time_bounds_reported_partial : forall q recs t, answerable q recs t ->
  exists all es0 within es, Forall2 shows all es0 /\ lists (without_bounds q) (dnstable_query_iter (without_bounds q) t) es0 /\
    Forall2 shows within es /\ lists q (dnstable_query_iter q t) es /\
    (Forall (last_settled q) all ->
       Forall (reports_within q) es /\ exists kept, selects (fun p => reports_within q (snd p)) (combine all es0) kept /\ map fst kept = within).
Proof.
  intros q recs t H. destruct (time_bounds_select q recs t H) as (all & within & (es0 & S0 & L0) & SEL & (es & S1 & L1)).
  exists all, es0, within, es. do 4 (split; [assumption|]). clear - S0 SEL S1. intro L. split.
  - assert (W : Forall (fun r => last_settled q r /\ fenced_in q r) within).
    { clear - SEL L. induction SEL as [|a l m P SEL IH|a l m P SEL IH]; [constructor| |]; inversion L; subst; auto. }
    clear - W S1. induction S1 as [|r e rs es X S1 IH]; [constructor|]. inversion W as [|? ? [A B] W']; subst. constructor; [apply (shown_within q r e X A); exact B|auto].
  - clear S1 es. revert es0 S0. induction SEL as [|a l m P SEL IH|a l m P SEL IH]; intros es0 S0; inversion S0 as [|? e ? es0' X S0']; subst; cbn [combine].
    + exists []. split; [constructor|reflexivity].
    + inversion L; subst. destruct (IH ltac:(assumption) es0' S0') as (k & K1 & K2). exists ((a, e) :: k). split; [apply sel_yes; [apply (shown_within q a e X); assumption|exact K1]|cbn; congruence].
    + inversion L; subst. destruct (IH ltac:(assumption) es0' S0') as (k & K1 & K2). exists k. split; [|exact K2]. apply sel_no; [|exact K1]. cbn [snd]. intro K. apply P. apply (shown_within q a e X); assumption.
Qed.
Print Assumptions time_bounds_reported_partial.
Definition Q53 := ask QRrset (Some 1) (Some (wire [[star_sign]; L_com])) None None [] [] 0 (Some 100) (Some 125) (Some 200) (Some 255).
Example c53_case : answerable Q53 demo demo_table /\ Forall (fun r => match r with RRset _ 1 _ _ o => last_settled Q53 r | _ => True end) demo /\
  seen_by 3 (without_bounds Q53) demo_table = [Some (0, Ok (wire [L_mx; L_ex; L_com]), Ok 1); Some (0, Ok (wire [L_www; L_ex; L_com]), Ok 1); None] /\
  seen_by 2 Q53 demo_table = [Some (0, Ok (wire [L_www; L_ex; L_com]), Ok 1); None].
Proof.
  split; [|split; [|vm_compute; auto]].
  - split; [apply demo_database|]. left. exists (below_rrset Q53 star_sign [L_com] None).
    apply asks_below_rrset; auto; split; try reflexivity; try (apply name_okb_ok; reflexivity); vm_compute; congruence.
  - apply Forall_forall. intros r Hr. unfold demo in Hr. cbn [In] in Hr. repeat (destruct Hr as [<-|Hr]; [first [exact I|left; discriminate]|]). destruct Hr.
Qed.

(** Without that proviso it is false: an entry stored with last-seen time 0 is
    returned by a query for last-seen times up to 50, and rejected by the filter,
    which sees its first-seen time 100. *)
Theorem returned_accepted_refuted : exists q recs t qi e, answerable q recs t /\
  dnstable_query_iter q t = Ok qi /\ calls 100 1 qi world0 = [QEntry e] /\ query_filter q e = Ok false.
Proof.
  exists (ask QRrset (Some 28) (Some (wire [L_www; L_ex; L_com])) None None [] [] 0 None None None (Some 50)), demo, demo_table. do 2 eexists.
  split; [|split; [reflexivity|split; [vm_compute; reflexivity|reflexivity]]].
  split; [apply demo_database|]. left. eexists. apply (asks_exact_rrset _ _ [L_www; L_ex; L_com] None); try reflexivity.
  - split; [reflexivity|apply name_okb_ok; reflexivity].
  - no_wild_left.
  - apply (no_wild_right [L_www; L_ex] L_com); [intros [C|C]; discriminate C|discriminate].
  - split; [reflexivity|exact I].
  - intros _. vm_compute. split; congruence.
Qed.

(** * C41: counters of a query *)

Lemma fresh_matches : forall w, fresh w -> counters_match w.
Proof. intros w [HL HC] s c. rewrite HL, HC. reflexivity. Qed.

Lemma deadline_cm : forall q w, counters_match w -> counters_match (iter_set_deadline q w).
Proof.
  intros q w H s c. specialize (H s c). unfold iter_set_deadline.
  destruct (q_do_timeout q); cbn [gettime]; repeat match goal with |- context [match ?x with _ => _ end] => destruct x end; exact H.
Qed.

Lemma direct_cm : forall n fuel it w r it' w', counters_match w -> quiet it -> direct_loop n fuel it w = (r, it', w') -> counters_match w'.
Proof.
  induction n as [|n IH]; intros fuel it w r it' w' HC HQ H; cbn [direct_loop] in H; [inversion H; subst; exact HC|].
  destruct (next fuel it w) as [[o it1] w1] eqn:E. destruct (next_cm _ _ _ _ _ _ HC HQ E) as [C1 Q1].
  destruct o as [[k v]| | | | |]; try (inversion H; subst; exact C1).
  destruct (entry_decode k v); try (inversion H; subst; exact C1). eapply IH; eauto.
Qed.

Lemma indirect_cm : forall n fuel q src tb idx cur w r idx' cur' w', scalm src -> counters_match w -> quiet idx ->
  match cur with Some it => quiet it | None => True end ->
  indirect_loop n fuel q src tb idx cur w = (r, idx', cur', w') -> counters_match w'.
Proof.
  induction n as [|n IH]; intros fuel q src tb idx cur w r idx' cur' w' HS HC HQ HU H; cbn [indirect_loop] in H; [inversion H; subst; exact HC|].
  destruct cur as [it|].
  - destruct (next fuel it w) as [[o it1] w1] eqn:E. destruct (next_cm _ _ _ _ _ _ HC HU E) as [C1 Q1].
    destruct o as [[k v]| | | | |]; try (inversion H; subst; exact C1).
    + destruct (entry_decode k v); try (inversion H; subst; exact C1).
      exact (IH _ _ _ _ idx (Some it1) w1 _ _ _ _ HS C1 HQ Q1 H).
    + exact (IH _ _ _ _ idx None w1 _ _ _ _ HS C1 HQ I H).
  - destruct (next fuel idx w) as [[o idx1] w1] eqn:E. destruct (next_cm _ _ _ _ _ _ HC HQ E) as [C1 Q1].
    destruct o as [[k v]| | | | |]; try (inversion H; subst; exact C1).
    destruct (index_lookup_key q tb k v) as [[fk|]| | | |]; try (inversion H; subst; exact C1).
    + refine (IH _ _ _ _ idx1 (Some _) w1 _ _ _ _ HS C1 Q1 _ H). apply calm_quiet, open_calm, HS.
    + exact (IH _ _ _ _ idx1 None w1 _ _ _ _ HS C1 Q1 I H).
Qed.

Lemma qnext_cm : forall q fuel qi w r qi' w', timed_calm q qi -> counters_match w -> qnext fuel qi w = (r, qi', w') -> counters_match w'.
Proof.
  intros q fuel qi w r qi' w' (EQ & SC & ST & HK) HC H. unfold qnext in H. rewrite EQ in H.
  assert (HC0 : counters_match (if is_timed q then iter_set_deadline q w else w)) by (destruct (is_timed q); [apply deadline_cm|]; exact HC).
  destruct (qi_kind qi) as [it|tb idx cur].
  - destruct HK as [HI _]. destruct (direct_loop fuel fuel it _) as [[r1 it1] w1] eqn:ED. inversion H; subst.
    eapply direct_cm; [exact HC0|apply calm_quiet; exact HI|exact ED].
  - destruct HK as [[HI _] HU]. destruct (indirect_loop fuel fuel q (qi_source qi) tb idx cur _) as [[[r1 idx1] cur1] w1] eqn:ED. inversion H; subst.
    refine (indirect_cm _ _ _ _ _ _ _ _ _ _ _ _ SC HC0 (calm_quiet _ HI) _ ED). destruct cur as [it|]; [apply calm_quiet; apply HU|exact I].
Qed.

(** Numbers of one query; what they are in general is in PropsCounters. *)
Definition Q41 := ask QRrset (Some 1) (Some (wire [[star_sign]; L_com])) None None [] [] 1 None (Some 110) None None.
Example c41_query_case : exists qi, dnstable_query_iter Q41 demo_table = Ok qi /\
  let w := after_calls 100 3 qi (load_offset Q41 world0) in
  map (fun st => map (iter_get_count qi w st) [CFiltered; CSeek; CFiles]) [StRrtype; StTimePrefilter; StTime; StOffset; StBailiwick] =
    [[(true, true, 2); (true, true, 0); (true, false, 0)]; [(true, true, 1); (true, false, 0); (true, false, 0)];
     [(true, true, 0); (true, false, 0); (true, false, 0)]; [(true, true, 1); (true, false, 0); (true, false, 0)];
     [(false, false, 0); (false, false, 0); (false, false, 0)]].
Proof. eexists. split; [reflexivity|]. vm_compute. reflexivity. Qed.
