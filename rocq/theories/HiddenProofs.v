(** Over any sorted table: a well-formed entry that every filter lets through stays
    ahead of the iterator until it is delivered. *)
From Verif Require Import Base BaseFacts ModelVarint VarintProofs MergeProofs ModelWdns SpecName SpecMerge ModelMerge ModelEntry SpecEntry EntryProofs PropsEntry ModelUnion ModelIter SpecIter IterProofs.
From Verif Require Import ModelQuery SpecQuery KeyProofs FilterProofs QueryProofs SelectProofs IpProofs IpQueries SoundProofs FilesetQueries.

Section Ahead.
Variables (h : how) (t : table) (k v : bytes).

(** The filter lets (k, v) through and never goes past it from an entry before it. *)
Definition gentle (ff : filter_fn) : Prop :=
  (forall w, ff w k v = (FMatch, w)) /\
  forall w k' v', In (k', v') (window h t) -> ble k' k = true ->
    match fst (ff w k' v') with FSeek k2 => ble k2 k = true | FStop => False | _ => True end.

Fixpoint lets (s : source) : Prop :=
  match s with
  | SBase t' => t' = t
  | SFilter _ ff u => gentle ff /\ lets u
  | STimeout u => lets u
  | _ => False
  end.

Fixpoint stands (s : source) (it : iter) : Prop :=
  match s, it with
  | SBase _, IBase b => b_win b = window h t /\ (exists pre, window h t = pre ++ b_rest b) /\ In (k, v) (b_rest b)
  | SFilter _ ff u, IFilter _ ff' i => ff' = ff /\ stands u i
  | STimeout u, ITimeout i => stands u i
  | _, _ => False
  end.

Lemma open_stands : forall s, lets s -> In (k, v) (window h t) -> stands s (open h s).
Proof.
  intros s. induction s as [t0|st ff u IH|u IH|rms u IH|mf rt u IH]; intros HL HI; cbn [lets stands open] in *; try contradiction.
  - subst t0. cbn [base_open b_win b_rest]. split; [reflexivity|]. split; [exists []; reflexivity|exact HI].
  - split; [reflexivity|]. apply IH; tauto.
  - auto.
Qed.

Lemma drop_split : forall k2 l, exists pre, l = pre ++ drop_before k2 l.
Proof.
  intros k2 l. induction l as [|e l [pre IH]]; [exists []; reflexivity|]. cbn [drop_before]. destruct (blt (fst e) k2); [|exists []; reflexivity].
  exists (e :: pre). cbn [app]. f_equal. exact IH.
Qed.
Lemma not_blt : forall a b, ble a b = true -> blt b a = false.
Proof. intros a b H. unfold ble, blt in *. rewrite bytes_compare_antisym. destruct (bytes_compare a b); cbn; congruence. Qed.
Lemma drop_keeps : forall k2 l, ble k2 k = true -> In (k, v) l -> In (k, v) (drop_before k2 l).
Proof.
  intros k2 l HB. induction l as [|e l IH]; intro HI; [contradiction|]. destruct HI as [->|HI]; cbn [drop_before].
  - cbn [fst]. rewrite (not_blt _ _ HB). left. reflexivity.
  - destruct (blt (fst e) k2); [auto|right; exact HI].
Qed.

Lemma stands_seek : forall k2 s it w ok it' w', stands s it -> ble k2 k = true -> seek k2 it w = (ok, it', w') -> ok = true /\ stands s it'.
Proof.
  intros k2 s. induction s as [t0|st ff u IH|u IH|rms u IH|mf rt u IH]; intros it w ok it' w' HS HB E;
    destruct it as [b|st' ff' i|i|h' rms' i|mf' rb rk fin i]; cbn [stands] in HS; try contradiction; cbn [seek] in E.
  - unfold base_seek in E. cbn in E. injection E as <- <- <-. destruct HS as (HW & (pre & HP) & HI).
    assert (HK : In (k, v) (drop_before k2 (b_win b))).
    { apply drop_keeps; [exact HB|]. rewrite HW, HP. apply in_or_app. right. exact HI. }
    split.
    + destruct (drop_before k2 (b_win b)); [contradiction|reflexivity].
    + cbn [stands b_win b_rest]. split; [exact HW|]. split; [|exact HK]. rewrite <- HW. apply drop_split.
  - destruct HS as [-> HS]. destruct (seek k2 i w) as [[ok1 i1] w1] eqn:E1. injection E as <- <- <-.
    destruct (IH _ _ _ _ _ HS HB E1) as [A B]. split; [exact A|]. cbn [stands]. auto.
  - destruct (seek k2 i w) as [[ok1 i1] w1] eqn:E1. injection E as <- <- <-. cbn [stands]. eapply IH; eauto.
Qed.

Lemma sorted_app_r : forall a b, sorted (a ++ b) -> sorted b.
Proof. induction a as [|x a IH]; intros b H; [exact H|]. inversion H; subst. auto. Qed.

Lemma stands_next : sorted t -> forall fuel s it w o it' w', lets s -> stands s it -> next fuel it w = (o, it', w') ->
  match o with
  | OOk (k0, v0) => In (k0, v0) (window h t) /\ ble k0 k = true /\ ((k0, v0) = (k, v) \/ stands s it')
  | OFail => False
  | OExpired => stands s it'
  | _ => True
  end.
Proof.
  intros HSo. induction fuel as [|f IH]; intros s it w o it' w' HL HS E; cbn [next] in E.
  { injection E as <- <- <-. exact I. }
  destruct s as [t0|st ff u|u|rms u|mf rt u]; destruct it as [b|st' ff' i|i|h' rms' i|mf' rb rk fin i]; cbn [stands] in HS; try contradiction.
  - destruct HS as (HW & (pre & HP) & HI). unfold base_next in E. destruct (b_rest b) as [|[k0 v0] r] eqn:ER; [contradiction|].
    injection E as <- <- <-. split; [rewrite HP; apply in_or_app; right; left; reflexivity|].
    assert (S2 : sorted ((k0, v0) :: r)).
    { assert (X : sorted (window h t)) by (unfold window; apply sorted_filter; exact HSo). rewrite HP in X. exact (sorted_app_r _ _ X). }
    destruct HI as [HI|HI].
    + injection HI as -> ->. split; [unfold ble; rewrite bytes_compare_refl; reflexivity|left; reflexivity].
    + split.
      * inversion S2 as [|? ? _ HF]; subst. rewrite Forall_forall in HF. exact (HF _ HI).
      * right. cbn [stands b_win b_rest]. split; [exact HW|]. split; [|exact HI]. exists (pre ++ [(k0, v0)]). rewrite HP, <- app_assoc. reflexivity.
  - destruct HS as [-> HS]. pose proof HL as HL0. cbn [lets] in HL. destruct HL as [[G1 G2] HL].
    destruct (next f i w) as [[o1 u1] w1] eqn:E1. pose proof (IH _ _ _ _ _ _ HL HS E1) as HN.
    destruct o1 as [[k0 v0]| | | | |]; try (injection E as <- <- <-; cbn [stands]; auto; fail).
    destruct HN as (HIn & HB & HN). destruct (ff w1 k0 v0) as [fr w2] eqn:EF. pose proof (G2 w1 k0 v0 HIn HB) as G. rewrite EF in G. cbn [fst] in G.
    assert (HNE : fr = FMatch \/ stands u u1).
    { destruct HN as [HE|HN]; [|auto]. injection HE as -> ->. rewrite G1 in EF. injection EF as <- _. auto. }
    destruct fr as [| |k2| | |].
    + injection E as <- <- <-. split; [exact HIn|]. split; [exact HB|]. destruct HN as [HN|HN]; [left; exact HN|right; cbn [stands]; auto].
    + destruct HNE as [C|HNE]; [discriminate|]. eapply (IH (SFilter st ff u)); [exact HL0| |exact E]. cbn [stands]. auto.
    + destruct HNE as [C|HNE]; [discriminate|].
      destruct (seek k2 u1 (note (EvSeek st' k2) (bump st' CSeek w2))) as [[ok u2] w3] eqn:ES.
      destruct (stands_seek _ _ _ _ _ _ _ HNE G ES) as [-> HS2]. eapply (IH (SFilter st ff u)); [exact HL0| |exact E]. cbn [stands]. auto.
    + contradiction.
    + injection E as <- <- <-. exact I.
    + injection E as <- <- <-. exact I.
  - destruct (gettime w) as [now w1]. cbn [lets] in HL. destruct (ts_cmp now (w_deadline w1)).
    + injection E as <- <- <-. exact HS.
    + destruct (next f i w1) as [[o1 u1] w2] eqn:E1. injection E as <- <- <-. exact (IH _ _ _ _ _ _ HL HS E1).
    + injection E as <- <- <-. exact HS.
Qed.

Lemma stands_direct : sorted t -> forall e, entry_decode k v = Ok e -> forall n fuel s it w r it' w', lets s -> stands s it ->
  direct_loop n fuel it w = (r, it', w') ->
  match r with QEntry e' => e' = e \/ stands s it' | QEnd => False | QTimeout => stands s it' | _ => True end.
Proof.
  intros HSo e HE. induction n as [|n IH]; intros fuel s it w r it' w' HL HS E; cbn [direct_loop] in E.
  { injection E as <- <- <-. exact I. }
  destruct (next fuel it w) as [[o u1] w1] eqn:E1. pose proof (stands_next HSo _ _ _ _ _ _ _ HL HS E1) as HN.
  destruct o as [[k0 v0]| | | | |]; try (injection E as <- <- <-; exact I || exact HN).
  destruct HN as (_ & _ & HN). destruct (entry_decode k0 v0) as [e0| | | |] eqn:ED; try (injection E as <- <- <-; exact I).
  - injection E as <- <- <-. destruct HN as [HN|HN]; [left; injection HN as -> ->; congruence|right; exact HN].
  - destruct HN as [HN|HN]; [injection HN as -> ->; congruence|]. eapply IH; eauto.
Qed.

Lemma stands_calls : sorted t -> forall e, entry_decode k v = Ok e -> forall s, lets s -> forall fuel ts qi w n,
  (exists it, qi_kind qi = Direct it /\ stands s it) ->
  nth_error (timed_calls fuel ts qi w) n = Some QEnd ->
  Forall (fun r => match r with QEntry _ | QTimeout => True | _ => False end) (firstn n (timed_calls fuel ts qi w)) ->
  In (QEntry e) (firstn n (timed_calls fuel ts qi w)).
Proof.
  intros HSo e HE s HL fuel. induction ts as [|tm ts IH]; intros qi w n (it & HK & HS) HN HF; cbn [timed_calls] in *.
  { destruct n; discriminate. }
  destruct (qnext fuel (set_timing tm qi) w) as [[r qi'] w'] eqn:EQ. unfold qnext in EQ.
  replace (qi_kind (set_timing tm qi)) with (Direct it) in EQ by (symmetry; destruct tm; exact HK).
  destruct (direct_loop fuel fuel it (if is_timed (qi_query (set_timing tm qi)) then iter_set_deadline (qi_query (set_timing tm qi)) w else w)) as [[r1 it1] w1] eqn:ED.
  injection EQ as <- <- <-. pose proof (stands_direct HSo e HE _ _ _ _ _ _ _ _ HL HS ED) as HD.
  destruct n as [|n]; cbn [nth_error firstn] in *.
  { injection HN as ->. contradiction. }
  inversion HF as [|? ? HF1 HF2]; subst. destruct r1 as [e'| | | | |]; try contradiction.
  - destruct HD as [->|HD]; [left; reflexivity|]. right. eapply IH; eauto. cbn [qi_kind]. eauto.
  - right. eapply IH; eauto. cbn [qi_kind]. eauto.
Qed.

End Ahead.

(** ** What lets the entry through when it is alone in the file *)

Fixpoint passes (h : how) (k v : bytes) (s : source) : Prop :=
  match s with
  | SFilter _ ff u => passes h k v u /\ forall w, ff w k v = (FMatch, w)
  | STimeout u | SRemove _ u | SLjoin _ _ u => passes h k v u
  | SBase _ => in_window h k = true
  end.
Fixpoint filters_only (s : source) : Prop :=
  match s with SFilter _ _ u | STimeout u => filters_only u | SBase _ => True | _ => False end.

Lemma den_passes : forall h k v s full, filters_only s -> den h s full -> In (k, v) full -> passes h k v s.
Proof.
  intros h k v s. induction s as [t0|st ff u IH|u IH|rms u IH|mf rt u IH]; intros full HO HD HI; cbn [filters_only den passes] in *; try contradiction.
  - destruct HD as [_ ->]. apply filter_In in HI. exact (proj2 HI).
  - destruct HD as (uf & p & HD & G & ->). apply filter_In in HI. destruct HI as [HI HP]. split; [eapply IH; eauto|].
    intro w. destruct (G w k v HI) as [G1 G2]. destruct (ff w k v) as [fr w']. cbn [fst snd] in *. subst w'.
    assert (BR : ble k k = true) by (unfold ble; rewrite bytes_compare_refl; reflexivity).
    destruct fr as [| |k2| | |]; [reflexivity|congruence| | |contradiction|contradiction].
    + destruct G2 as [G2 G3]. specialize (G3 (k, v) HI BR G2). congruence.
    + specialize (G2 (k, v) HI BR). congruence.
  - eauto.
Qed.

(** ** The filters of a query *)

Definition wrap (fs : list (stage * filter_fn)) (s : source) : source := fold_right (fun f u => SFilter (fst f) (snd f) u) s fs.

(** Those that never seek, the single-label filter and the address filter. *)
Inductive known_filter (q : query) (p : plan) : filter_fn -> Prop :=
| kf_still : forall ff, (forall w k v, match fst (ff w k v) with FSeek _ | FStop => False | _ => True end) -> known_filter q p ff
| kf_label : p_key2 p = None -> p_key p <> [] -> hd 0 (p_key p) < 255 -> known_filter q p (filter_single_label (length (p_key p)))
| kf_ip : q_type q = QRdataIp -> known_filter q p (filter_rrtype_ip q (length (p_key p))).

Lemma still_fres : forall r : res fres, (forall f, r = Ok f -> match f with FSeek _ | FStop => False | _ => True end) ->
  match fres_of r with FSeek _ | FStop => False | _ => True end.
Proof. intros [f| | | |] H; cbn [fres_of]; try exact I. exact (H f eq_refl). Qed.

Ltac still := match goal with
  | |- match fres_of _ with _ => _ end => apply still_fres; intros ?f ?E
  end; repeat (match goal with
  | E : bind ?a _ = Ok _ |- _ => destruct a; cbn [bind] in E; try discriminate E
  | E : (if ?b then _ else _) = Ok _ |- _ => destruct b; try discriminate E
  | E : (let '(_, _) := ?a in _) = Ok _ |- _ => destruct a
  end); try (match goal with E : Ok _ = Ok _ |- _ => injection E as <-; exact I end).

Lemma still_rrtype : forall ty k, match rrtype_res ty k with FSeek _ | FStop => False | _ => True end.
Proof. intros ty k. unfold rrtype_res. still. Qed.
Lemma still_rdata_name : forall k, match rdata_name_res k with FSeek _ | FStop => False | _ => True end.
Proof. intros k. unfold rdata_name_res. still. Qed.
Lemma still_bailiwick : forall b k, match bailiwick_res b k with FSeek _ | FStop => False | _ => True end.
Proof. intros b k. unfold bailiwick_res. cbv zeta. still. Qed.
Lemma still_time : forall q b val, match time_res q b val with FSeek _ | FStop => False | _ => True end.
Proof. intros q b val. unfold time_res. still. Qed.

Lemma kf_rrtype : forall q p, known_filter q p (filter_rrtype q).
Proof. intros. apply kf_still. intros. apply still_rrtype. Qed.
Lemma kf_rdata_name : forall q p, known_filter q p filter_rrtype_rdata_name.
Proof. intros. apply kf_still. intros. apply still_rdata_name. Qed.
Lemma kf_bailiwick : forall q p b, known_filter q p (filter_bailiwick b).
Proof. intros. apply kf_still. intros. apply still_bailiwick. Qed.
Lemma kf_time : forall q p, known_filter q p (filter_time q).
Proof. intros. apply kf_still. intros. apply still_time. Qed.
Lemma kf_pretime : forall q p, known_filter q p (filter_time_prefilter q).
Proof. intros. apply kf_still. intros. apply still_time. Qed.

Definition with_source (s : source) (p : plan) : plan := {| p_key := p_key p; p_key2 := p_key2 p; p_source := s; p_index := p_index p |}.

Definition shaped (q : query) (r : source -> source -> res plan) (p : plan) : Prop :=
  exists fs, Forall (fun f => known_filter q p (snd f)) fs /\ forall src idx, r src idx = Ok (with_source (wrap fs src) p).

Ltac known := first [apply kf_rrtype | apply kf_rdata_name | apply kf_bailiwick | apply kf_time | apply kf_pretime
  | apply kf_ip; assumption | apply kf_label; [reflexivity | discriminate | cbn [p_key hd]; vm_compute; reflexivity]].
Ltac shape l := exists l; split; [repeat (first [apply Forall_nil | apply Forall_cons; [cbn [snd]; known|]]) | intros; reflexivity].

Lemma init_shape : forall q src0 idx0 p, query_init q src0 idx0 = Ok p -> p_index p = None -> shaped q (query_init q) p.
Proof.
  intros q src0 idx0 p E HI. unfold shaped, query_init in *. destruct (q_type q) eqn:EQ.
  - unfold init_rrset in *. destruct (is_left_wildcard (name_data q)) as [wp|].
    + unfold init_rrset_left_wildcard in *. destruct (reverse_buf _ _) as [nm| | | |]; cbn [bind] in *; try discriminate E. injection E as <-.
      unfold opt_filter_bailiwick, filter_set_cond. destruct (q_bailiwick q) as [b|], (q_do_rrtype q), wp; cbn [length];
      first [ shape [(StBailiwick, filter_bailiwick b); (StRrtype, filter_rrtype q); (StSingleLabel, filter_single_label (length (ENTRY_TYPE_RRSET :: firstn (length (name_data q) - 2 - 1) nm)))]
      | shape [(StBailiwick, filter_bailiwick b); (StRrtype, filter_rrtype q)]
      | shape [(StBailiwick, filter_bailiwick b); (StSingleLabel, filter_single_label (length (ENTRY_TYPE_RRSET :: firstn (length (name_data q) - 2 - 1) nm)))]
      | shape [(StBailiwick, filter_bailiwick b)]
      | shape [(StRrtype, filter_rrtype q); (StSingleLabel, filter_single_label (length (ENTRY_TYPE_RRSET :: firstn (length (name_data q) - 2 - 1) nm)))]
      | shape [(StRrtype, filter_rrtype q)]
      | shape [(StSingleLabel, filter_single_label (length (ENTRY_TYPE_RRSET :: firstn (length (name_data q) - 2 - 1) nm)))]
      | shape (@nil (stage * filter_fn)) ].
    + destruct (is_right_wildcard (name_data q)) as [wp|]; [injection E as <-; discriminate HI|].
      destruct (reverse_buf _ _) as [nm| | | |]; cbn [bind] in *; try discriminate E. destruct (q_do_rrtype q).
      * destruct (add_rrtype_to_key _ _); cbn [bind] in *; try discriminate E. injection E as <-. shape (@nil (stage * filter_fn)).
      * injection E as <-. unfold opt_filter_bailiwick. destruct (q_bailiwick q) as [b|]; [shape [(StBailiwick, filter_bailiwick b)]|shape (@nil (stage * filter_fn))].
  - unfold init_rdata_name in *. set (ff := if q_do_rrtype q then filter_rrtype q else filter_rrtype_rdata_name) in *.
    assert (K : forall p, known_filter q p ff) by (intro p'; unfold ff; destruct (q_do_rrtype q); known).
    destruct (is_right_wildcard (name_data q)) as [wp|].
    + injection E as <-. unfold init_rdata_right_wildcard, filter_set_cond. destruct wp.
      * exists [(StSingleLabel, filter_single_label (length (ENTRY_TYPE_RDATA :: firstn (length (name_data q) - 3) (name_data q)))); (StRrtype, ff)].
        split; [constructor; [known|constructor; [apply K|constructor]]|intros; reflexivity].
      * exists [(StRrtype, ff)]. split; [constructor; [apply K|constructor]|intros; reflexivity].
    + destruct (is_left_wildcard (name_data q)) as [wp|].
      * unfold init_rdata_left_wildcard in E. destruct (reverse_buf _ _) as [nm| | | |]; cbn [bind] in *; try discriminate E. injection E as <-. discriminate HI.
      * destruct (if q_do_rrtype q && name_type_standalone (q_rrtype q) then _ else _) as [key1| | | |]; cbn [bind] in *; try discriminate E. injection E as <-.
        exists [(StRrtype, ff)]. split; [constructor; [apply K|constructor]|intros; reflexivity].
  - unfold init_rdata_ip in *. destruct (negb (q_do_rrtype q)); [discriminate|]. destruct (q_len_ip1 q =? 0); [discriminate|].
    destruct (add_rrtype_to_key _ _) as [key| | | |]; cbn [bind] in *; try discriminate E.
    destruct (if 0 <? q_len_ip2 q then _ else _) as [key2| | | |]; cbn [bind] in *; try discriminate E. injection E as <-.
    shape [(StRrtype, filter_rrtype_ip q (length key))].
  - unfold init_rdata_raw in *. destruct (_ <? q_len_rdata q); [discriminate|]. injection E as <-. unfold filter_set_cond.
    destruct (q_do_rrtype q); [shape [(StRrtype, filter_rrtype q)]|shape (@nil (stage * filter_fn))].
  - injection E as <-. shape (@nil (stage * filter_fn)).
  - injection E as <-. shape (@nil (stage * filter_fn)).
  - injection E as <-. shape (@nil (stage * filter_fn)).
Qed.

(** ** Keys on which the address filter reads too far *)

Lemma labels_overread : forall ty ls fuel sk, Forall label_ok ls -> (length ls < fuel)%nat ->
  ip_labels fuel ty (sk ++ enc_labels ls) sk = FUB.
Proof.
  intros ty ls. induction ls as [|l ls IH]; intros fuel sk HF HL; (destruct fuel as [|fuel]; [cbn [length] in HL; lia|]); cbn [ip_labels].
  - change (enc_labels []) with (@nil N). rewrite app_nil_r. unfold rd. rewrite (proj2 (nth_error_None sk (length sk)) (le_n _)). reflexivity.
  - inversion HF as [|? ? [HB _] HF']; subst. change (enc_labels (l :: ls)) with (blen l :: l ++ enc_labels ls).
    rewrite rd_app_at. unfold blen. destruct (N.ltb_spec 63 (N.of_nat (length l))); [lia|]. destruct (N.eqb_spec (N.of_nat (length l)) 0); [lia|].
    rewrite Nat2N.id. destruct (Nat.ltb_spec (length (sk ++ N.of_nat (length l) :: l ++ enc_labels ls)) (length l + 1 + length sk)) as [C|_].
    { rewrite app_length in C. cbn [length] in C. rewrite app_length in C. lia. }
    replace (skipn (length sk + 1) (sk ++ N.of_nat (length l) :: l ++ enc_labels ls)) with (l ++ enc_labels ls).
    2: { replace (length sk + 1)%nat with (length (sk ++ [N.of_nat (length l)])) by (rewrite app_length; reflexivity).
         replace (sk ++ N.of_nat (length l) :: l ++ enc_labels ls) with ((sk ++ [N.of_nat (length l)]) ++ l ++ enc_labels ls) by (rewrite <- app_assoc; reflexivity).
         rewrite skipn_app, skipn_all, Nat.sub_diag. reflexivity. }
    rewrite firstn_app_len.
    replace (sk ++ N.of_nat (length l) :: l ++ enc_labels ls) with ((sk ++ [N.of_nat (length l)] ++ l) ++ enc_labels ls) by (rewrite <- !app_assoc; reflexivity).
    apply IH; [exact HF'|cbn [length] in HL; lia].
Qed.

Lemma overread_ub : forall n ty k, ip_kind n ty -> ip_overread n ty k -> ip_seek (S (S n)) ty k = FUB.
Proof.
  intros n ty k HK HO. destruct (kind_encode n ty HK) as (EV & EVL & _ & T1 & _). unfold ip_seek. rewrite EVL. change (N.to_nat 1) with 1%nat.
  replace (S (S n) - 1)%nat with (S n) by lia.
  assert (EA : forall x, add_rrtype_to_key x ty = Ok (x ++ [ty])).
  { intro x. unfold add_rrtype_to_key, WDNS_TYPE_ANY. rewrite EV. destruct (N.eqb_spec ty 255); [lia|reflexivity]. }
  rewrite !EA. destruct HO as [HL|(a & ls & La & Hne & HF & Ek)].
  - destruct (Nat.ltb_spec (length k) (S n)); [lia|]. rewrite firstn_all2 by lia. rewrite app_length. cbn [length].
    destruct (Nat.ltb_spec (length k) (length k + 1)); [reflexivity|lia].
  - assert (Ep : firstn (S n) k = ENTRY_TYPE_RDATA :: a).
    { rewrite Ek. cbn [firstn]. f_equal. rewrite <- La. apply firstn_app_len. }
    assert (Es : k = (ENTRY_TYPE_RDATA :: a ++ [ty]) ++ enc_labels ls) by (rewrite Ek; cbn [app]; rewrite <- app_assoc; reflexivity).
    rewrite Ep. change ((ENTRY_TYPE_RDATA :: a) ++ [ty]) with (ENTRY_TYPE_RDATA :: a ++ [ty]). set (sk := ENTRY_TYPE_RDATA :: a ++ [ty]) in *.
    assert (HP : exists b r, enc_labels ls = b :: r /\ b <= 63).
    { destruct ls as [|l ls]; [congruence|]. inversion HF as [|? ? [HB _] _]; subst. exists (blen l), (l ++ enc_labels ls). split; [reflexivity|unfold blen; lia]. }
    destruct HP as (b & r & Eb & Hb). assert (Lk : length k = (length sk + length (enc_labels ls))%nat) by (rewrite Es; apply app_length).
    assert (Lsk : length sk = S (S n)) by (unfold sk; cbn [length]; rewrite app_length; cbn [length]; lia).
    rewrite Eb in Lk. cbn [length] in Lk.
    destruct (Nat.ltb_spec (length k) (S n)); [lia|]. destruct (Nat.ltb_spec (length k) (length sk)); [lia|].
    rewrite Es, firstn_app_len, bytes_compare_refl. rewrite <- Es. destruct (Nat.leb_spec (length k) (length sk)); [lia|].
    rewrite Es. rewrite Eb at 1. rewrite rd_app_at. destruct (N.ltb_spec 63 b); [lia|]. cbn [andb]. rewrite <- Es.
    replace (ip_labels (S (length k)) ty k sk) with (ip_labels (S (length k)) ty (sk ++ enc_labels ls) sk) by (rewrite <- Es; reflexivity).
    apply labels_overread; [exact HF|]. rewrite Es, app_length.
    assert (X : (length ls <= length (enc_labels ls))%nat).
    { clear. induction ls as [|l ls IH]; [cbn; lia|]. change (enc_labels (l :: ls)) with (blen l :: l ++ enc_labels ls). cbn [length]. rewrite app_length. lia. }
    lia.
Qed.

Lemma ip_init : forall q n ty lo hi src idx, q_type q = QRdataIp -> asks_range q n ty lo hi ->
  query_init q src idx =
    Ok {| p_key := ENTRY_TYPE_RDATA :: lo ++ [ty]; p_key2 := if q_len_ip2 q =? 0 then None else Some (ENTRY_TYPE_RDATA :: hi ++ [ty + 1]);
          p_source := SFilter StRrtype (filter_rrtype_ip q (S (S n))) src; p_index := None |}.
Proof.
  intros q n ty lo hi src idx HQ (HK & ED & ET & EL1 & E1 & L1 & B1 & H2). destruct (kind_encode n ty HK) as (EV & EVL & EVB & T1 & T2).
  assert (Hn : (0 < n)%nat) by (apply (kind_pos n ty HK)).
  unfold query_init, init_rdata_ip. rewrite HQ, ED, EL1. cbn [negb].
  destruct (N.eqb_spec (N.of_nat n) 0); [lia|]. rewrite Nat2N.id, E1, ET.
  unfold add_rrtype_to_key, WDNS_TYPE_ANY. destruct (N.eqb_spec ty 255); [lia|]. rewrite EV. cbn [bind].
  assert (EL : length ((ENTRY_TYPE_RDATA :: lo) ++ [ty]) = S (S n)) by (rewrite app_length; cbn [length]; lia).
  rewrite EL. destruct H2 as [[-> ->]|(-> & E2 & L2 & B2)].
  - reflexivity.
  - destruct (N.ltb_spec 0 (N.of_nat n)); [|lia]. destruct (N.eqb_spec (N.of_nat n) 0); [lia|].
    rewrite Nat2N.id, E2. rewrite (incr_last (ENTRY_TYPE_RDATA :: hi) ty) by lia. reflexivity.
Qed.

(** ** Each filter is gentle *)

Definition plan_how (p : plan) : how := match p_key2 p with Some k2 => HRange (p_key p) k2 | None => HPrefix (p_key p) end.
Definition byte_keys (t : table) : Prop := forall k v, In (k, v) t -> bytes_ok k.

Lemma ble_or_blt : forall a b, ble a b = true \/ blt b a = true.
Proof. intros a b. unfold ble, blt. rewrite (bytes_compare_antisym a b). destruct (bytes_compare a b); cbn; auto. Qed.

Lemma label_gentle : forall K t k v, K <> [] -> hd 0 K < 255 -> byte_keys t -> In (k, v) (window (HPrefix K) t) ->
  (forall w, filter_single_label (length K) w k v = (FMatch, w)) -> gentle (HPrefix K) t k v (filter_single_label (length K)).
Proof.
  intros K t k v HK Hh HB HI HM. split; [exact HM|]. intros w k' v' HI' HL.
  assert (G : good_filter (filter_single_label (length K)) (fun e => matched (single_label_res (length K) (fst e))) (window (HPrefix K) t)).
  { apply single_label_good; [exact HK|exact Hh|]. intros [k0 v0] H0. apply filter_In in H0. destruct H0 as [H0 H1]. split; [exact H1|exact (HB _ _ H0)]. }
  assert (HT : matched (single_label_res (length K) k) = true).
  { specialize (HM w). unfold filter_single_label in HM. injection HM as ->. reflexivity. }
  destruct (G w k' v' HI') as [_ G2]. destruct (fst (filter_single_label (length K) w k' v')) as [| |k2| | |]; try exact I.
  - destruct G2 as [_ G2]. destruct (ble_or_blt k2 k) as [C|C]; [exact C|]. specialize (G2 (k, v) HI HL C). cbn [fst] in G2. congruence.
  - specialize (G2 (k, v) HI HL). cbn [fst] in G2. congruence.
Qed.

Lemma ip_gentle : forall q n ty lo hi h t k v, q_type q = QRdataIp -> asks_range q n ty lo hi ->
  h = (if q_len_ip2 q =? 0 then HPrefix (ENTRY_TYPE_RDATA :: lo ++ [ty]) else HRange (ENTRY_TYPE_RDATA :: lo ++ [ty]) (ENTRY_TYPE_RDATA :: hi ++ [ty + 1])) ->
  byte_keys t -> In (k, v) (window h t) -> ip_form n ty k -> rrtype_res ty k = FMatch ->
  (forall w, filter_rrtype_ip q (S (S n)) w k v = (FMatch, w)) -> gentle h t k v (filter_rrtype_ip q (S (S n))).
Proof.
  intros q n ty lo hi h t k v HQ HA Eh HB HI HF HR HM. split; [exact HM|]. intros w k' v' HI' HL. unfold filter_rrtype_ip. cbn [fst].
  assert (Hfb : first_byte (k', v') = 2).
  { apply filter_In in HI'. destruct HI' as [_ Hw]. subst h. destruct (q_len_ip2 q =? 0); apply (window_first _ (lo ++ [ty]) (hi ++ [ty + 1]) _) in Hw; auto. }
  assert (ET : q_rrtype q = ty) by apply HA. assert (HK : ip_kind n ty) by apply HA.
  assert (Hok : bytes_ok k') by (apply filter_In in HI'; destruct HI' as [H0 _]; exact (HB _ _ H0)).
  assert (NE : k' = k -> rrtype_res ty k' <> FSkip) by (intros ->; rewrite HR; discriminate).
  unfold rrtype_ip_res. rewrite ET. pose proof (still_rrtype ty k') as ST.
  destruct (rrtype_res ty k') as [| |k2| | |] eqn:ER; try exact I; try contradiction.
  assert (HLt : blt k' k = true).
  { apply ble_split in HL. destruct HL as [HL|HL]; [exact HL|]. exfalso. exact (NE HL eq_refl). }
  assert (Hne : k' <> []) by (intros ->; cbn in Hfb; discriminate).
  assert (Hh : hd 0 k' = ENTRY_TYPE_RDATA) by (unfold first_byte in Hfb; destruct k'; [congruence|exact Hfb]).
  assert (DN : forall b : bool, (b = false -> False) -> b = true) by (intros [|] H; [reflexivity|exfalso; auto]).
  destruct (ip_seek (S (S n)) ty k') as [| |k2| | |] eqn:ES; try exact I.
  - apply DN. intro C. assert (NO : ~ ip_overread n ty k') by (intro O; rewrite (overread_ub n ty k' HK O) in ES; discriminate).
    pose proof (ip_seek_sound n ty HK k' Hok Hh Hne NO) as SS. rewrite ES in SS. destruct SS as [_ SS]. rewrite (SS k HF HLt) in C. discriminate.
  - assert (NO : ~ ip_overread n ty k') by (intro O; rewrite (overread_ub n ty k' HK O) in ES; discriminate).
    pose proof (ip_seek_sound n ty HK k' Hok Hh Hne NO) as SS. rewrite ES in SS. cbn [sound] in SS. rewrite (SS k HF) in HLt. discriminate.
Qed.

(** ** Assembly *)

Definition base_of (q : query) (t : table) : source := if is_timed q then STimeout (SBase t) else SBase t.
Definition time_filters (q : query) : list (stage * filter_fn) :=
  if has_time_bound q then [(StTime, filter_time q); (StTimePrefilter, filter_time_prefilter q)] else [].

Lemma stack0_wrap : forall q fs s, stack0 q (wrap fs s) = wrap (time_filters q ++ fs) s.
Proof. intros q fs s. unfold stack0, time_filters. destruct (has_time_bound q); reflexivity. Qed.

Lemma wrap_filters_only : forall fs s, filters_only s -> filters_only (wrap fs s).
Proof. intros fs s H. induction fs as [|f fs IH]; [exact H|exact IH]. Qed.
Lemma base_filters_only : forall q t, filters_only (base_of q t).
Proof. intros q t. unfold base_of. destruct (is_timed q); exact I. Qed.

Lemma wrap_passes : forall h k v fs s, passes h k v (wrap fs s) -> passes h k v s /\ Forall (fun f => forall w, snd f w k v = (FMatch, w)) fs.
Proof.
  intros h k v fs s. induction fs as [|f fs IH]; cbn [wrap fold_right passes]; [auto|]. intros [H1 H2]. destruct (IH H1) as [A B]. auto.
Qed.
Lemma wrap_lets : forall h t k v fs s, lets h t k v s -> Forall (fun f => gentle h t k v (snd f)) fs -> lets h t k v (wrap fs s).
Proof. intros h t k v fs s HS HF. induction HF as [|f fs HG HF IH]; [exact HS|]. cbn [wrap fold_right lets]. auto. Qed.
Lemma base_lets : forall h q t k v, lets h t k v (base_of q t).
Proof. intros h q t k v. unfold base_of. destruct (is_timed q); reflexivity. Qed.

Lemma asks_gentle : forall q r k v M p t ff, asks q [r] M -> M r -> encodes r (k, v) ->
  (exists src idx s, query_init q src idx = Ok s /\ p_key s = p_key p /\ p_key2 s = p_key2 p) ->
  known_filter q p ff -> byte_keys t -> In (k, v) (window (plan_how p) t) ->
  (forall w, ff w k v = (FMatch, w)) -> gentle (plan_how p) t k v ff.
Proof.
  intros q r k v M p t ff HA Mr HE (src & idx & s & EI & EK & EK2) KF HB HI HM. destruct KF as [ff ST|HN HK Hh|HQ].
  - split; [exact HM|]. intros w k' v' _ _. specialize (ST w k' v'). destruct (fst (ff w k' v')); auto.
  - unfold plan_how in *. rewrite HN in *. apply label_gentle; assumption.
  - destruct HA as [? ? H|? ? ? H|? H|? ? H|? H|n ty lo hi _ HR HC _]; try congruence.
    rewrite (ip_init q n ty lo hi src idx HQ HR) in EI. injection EI as <-. cbn [p_key p_key2] in EK, EK2.
    assert (L : length (p_key p) = S (S n)).
    { rewrite <- EK. cbn [length]. rewrite app_length. cbn [length]. destruct HR as (_ & _ & _ & _ & _ & L & _). lia. }
    rewrite L in *. destruct r as [|ow ty' hd tl o| | |]; cbn [ip_rdata] in Mr; try contradiction.
    destruct Mr as (-> & _). destruct (HC ow hd tl o (or_introl eq_refl)) as [-> Lt].
    pose proof HE as (Hok & Ho & Hty & _ & Hlen & HKy & _). cbn [fst] in *.
    assert (HK : ip_kind n ty) by apply HR.
    apply (ip_gentle q n ty lo hi); try assumption.
    + unfold plan_how. rewrite <- EK, <- EK2. destruct (q_len_ip2 q =? 0); reflexivity.
    + destruct HKy as (t' & Ht' & Ek). destruct (kind_encode n ty HK) as (_ & _ & EVB & _). rewrite (leb128_det _ _ _ Ht' EVB) in Ek.
      exists tl, (rev ow). split; [exact Lt|]. split; [apply Forall_rev; apply Ho|]. split; [exact Hok|]. rewrite Ek. cbn [app].
      unfold rwire. f_equal. f_equal. f_equal. f_equal. unfold enc_le16, blen. rewrite Lt. destruct HK as [[-> _]|[-> _]]; reflexivity.
    + rewrite (rrtype_res_rdata ty ow ty [] tl) by (assumption || lia). rewrite N.eqb_refl. reflexivity.
Qed.

Lemma unhidden : forall t q r k v M, sorted t -> byte_keys t -> In (k, v) t -> encodes r (k, v) -> asks q [r] M -> M r -> q_offset q = 0 ->
  exists qi e, (forall idx, query_iter_common q no_fence (SBase t) idx = Ok qi) /\ shows r e /\ entry_decode k v = Ok e /\ forall fuel ts w n,
    nth_error (timed_calls fuel ts qi w) n = Some QEnd ->
    Forall (fun x => match x with QEntry _ | QTimeout => True | _ => False end) (firstn n (timed_calls fuel ts qi w)) ->
    In (QEntry e) (firstn n (timed_calls fuel ts qi w)).
Proof.
  intros t q r k v M HS HB HI HE HA Mr HO.
  assert (HDb : database [r] [(k, v)]) by (split; [constructor; [exact HE|constructor]|repeat constructor]).
  destruct (asks_parts q [(k, v)] [r] M HDb HA) as (P & src & K & h & EI & Hh & HT & HP & HTE & HM & HSh).
  assert (HPT : P (k, v) && timep q (k, v) = true) by (apply (HM r); [left; reflexivity|exact HE|exact Mr]).
  assert (DN : den h (stack0 q src) [(k, v)]).
  { pose proof (picks_stack h src P q [(k, v)] HP HTE) as D. unfold picks in D. cbn [filter] in D. rewrite HPT in D. exact D. }
  destruct (init_shape q _ _ _ EI eq_refl) as (fs & KF & EI2). fold (base_of q [(k, v)]) in EI.
  set (p := {| p_key := fst K; p_key2 := snd K; p_source := src; p_index := None |}) in *.
  assert (Es : src = wrap fs (base_of q [(k, v)])).
  { rewrite EI2 in EI. apply (f_equal (fun r => match r with Ok a => p_source a | _ => src end)) in EI. symmetry. exact EI. }
  assert (Eh : h = plan_how p) by exact Hh.
  rewrite Es, stack0_wrap in DN.
  assert (PS : passes h k v (wrap (time_filters q ++ fs) (base_of q [(k, v)]))).
  { eapply den_passes; [|exact DN|left; reflexivity]. apply wrap_filters_only, base_filters_only. }
  apply wrap_passes in PS. destruct PS as [PB PF].
  assert (HW : in_window h k = true) by (unfold base_of in PB; destruct (is_timed q); exact PB).
  assert (HIW : In (k, v) (window h t)) by (apply filter_In; auto).
  set (top := wrap (time_filters q ++ fs) (base_of q t)).
  assert (HL : lets h t k v top).
  { apply wrap_lets; [apply base_lets|]. apply Forall_forall. intros f Hf. rewrite Forall_forall in PF. specialize (PF f Hf). rewrite Eh.
    apply (asks_gentle q r k v M p); try assumption.
    - exists (base_of q t), (base_of q t), (with_source (wrap fs (base_of q t)) p). split; [apply EI2|split; reflexivity].
    - apply in_app_or in Hf. destruct Hf as [Hf|Hf].
      + unfold time_filters in Hf. destruct (has_time_bound q); [|contradiction]. destruct Hf as [<-|[<-|[]]]; [apply kf_time|apply kf_pretime].
      + rewrite Forall_forall in KF. exact (KF f Hf).
    - rewrite <- Eh. exact HIW. }
  destruct (decode_all [r] [(k, v)]) as (es & HD & HSw).
  { constructor; [exact HE|constructor]. }
  { constructor; [apply HSh; [left; reflexivity|exact Mr]|constructor]. }
  inversion HSw as [|? e ? es' HSw1 HSw2]; subst. inversion HSw2; subst.
  assert (ED : entry_decode k v = Ok e).
  { inversion HD; subst; assumption. }
  eexists. exists e. split.
  { intro idx. unfold query_iter_common. fold (base_of q t). rewrite EI2. cbn [bind with_source p_source p_key p_key2 p_index]. reflexivity. }
  split; [exact HSw1|]. split; [exact ED|]. intros fuel ts w n HN HF.
  apply (stands_calls (plan_how p) t k v HS e ED top HL fuel ts _ w n); [|exact HN|exact HF]. cbn [qi_kind].
  assert (Et : stack_filters q no_fence (wrap fs (base_of q t)) = top).
  { rewrite stack_no_fence, stack0_wrap. unfold with_offset, filter_set_cond. rewrite HO. reflexivity. }
  rewrite Et. exists (open (plan_how p) top). split; [unfold plan_how; destruct (p_key2 p); reflexivity|]. apply open_stands; assumption.
Qed.
