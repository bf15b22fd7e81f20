(** Whatever the tables hold: what a stack of sources delivers has passed its filters. *)
From Verif Require Import Base BaseFacts ModelMerge ModelEntry ModelIter ModelQuery SpecQuery.

(** [sat h s k v]: an iterator over [s] may deliver (k, v). *)
Fixpoint sat (h : how) (s : source) (k v : bytes) : Prop :=
  match s with
  | SBase t => In (k, v) t /\ in_window h k = true
  | SFilter _ ff u => sat h u k v /\ exists w w', ff w k v = (FMatch, w')
  | STimeout u | SRemove _ u => sat h u k v
  | SLjoin mf t u => exists v0, sat h u k v0 /\ (v = v0 \/ exists v1, In (k, v1) t /\ mf k v0 v1 = Ok v)
  end.

(** The iterator is one over [s]. *)
Fixpoint over (h : how) (s : source) (it : iter) : Prop :=
  match s, it with
  | SBase t, IBase b => incl (b_win b) (window h t) /\ incl (b_rest b) (window h t)
  | SFilter st ff u, IFilter st' ff' i => (st' = st /\ ff' = ff) /\ over h u i
  | STimeout u, ITimeout i => over h u i
  | SRemove _ u, IRemove _ _ i => over h u i
  | SLjoin mf t u, ILjoin mf' rb rk _ i =>
      mf' = mf /\ incl (b_win rb) t /\ incl (b_rest rb) t /\ (forall e, rk = Some e -> In e t) /\ over h u i
  | _, _ => False
  end.

Lemma open_over : forall h s, over h s (open h s).
Proof.
  intros h s. induction s; cbn [over open]; auto.
  - cbn. split; apply incl_refl.
  - split; [reflexivity|]. cbn [b_win b_rest]. repeat split; try discriminate; try assumption; intros x Hx; apply filter_In in Hx; apply Hx.
Qed.

Lemma drop_incl : forall k t, incl (drop_before k t) t.
Proof. intros k t. induction t as [|e t IH]; [apply incl_refl|]. cbn [drop_before]. destruct (blt (fst e) k); [apply incl_tl; exact IH|apply incl_refl]. Qed.

Lemma seek_over : forall k h s it w ok it' w', over h s it -> seek k it w = (ok, it', w') -> over h s it'.
Proof.
  intros k h s. induction s as [t|st ff u IH|u IH|rms u IH|mf rt u IH]; intros it w ok it' w' HO E; destruct it as [b|st' ff' i|i|h' rms' i|mf' rb rk fin i]; cbn [over] in HO; try contradiction; cbn [seek] in E.
  - unfold base_seek in E. cbn in E. injection E as <- <- <-. cbn [over b_win b_rest]. split; [apply HO|]. intros x Hx. apply (proj1 HO). eapply drop_incl. exact Hx.
  - destruct HO as [[-> ->] HO]. destruct (seek k i w) as [[ok1 i1] w1] eqn:E1. injection E as <- <- <-. cbn [over]. split; [split; reflexivity|]. eapply IH; eauto.
  - destruct (seek k i w) as [[ok1 i1] w1] eqn:E1. injection E as <- <- <-. cbn [over]. eapply IH; eauto.
  - destruct (remove_entries_seek k rms' w) as [r1 w0]. destruct (seek k i w0) as [[ok1 i1] w1] eqn:E1. injection E as <- <- <-. cbn [over]. eapply IH; eauto.
  - destruct (seek k i w) as [[ok1 i1] w1] eqn:E1. destruct HO as (-> & HW & HR & HE & HO).
    destruct ok1; [destruct (base_seek k rb w1) as [rok rb'] eqn:EB|]; injection E as <- <- <-; cbn [over].
    + unfold base_seek in EB. cbn in EB. injection EB as <- <-. cbn [b_win b_rest].
      split; [reflexivity|]. split; [exact HW|]. split; [intros x Hx; apply HW; eapply drop_incl; exact Hx|]. split; [try discriminate; exact HE|eapply IH; eauto].
    + split; [reflexivity|]. split; [exact HW|]. split; [exact HR|]. split; [try discriminate; exact HE|eapply IH; eauto].
Qed.

Lemma join_key : forall fuel mf t rb rkv fin lk lv w o rb' rkv' fin' w',
  incl (b_win rb) t -> incl (b_rest rb) t -> (forall e, rkv = Some e -> In e t) ->
  join_right fuel mf rb rkv fin lk lv w = (o, rb', rkv', fin', w') ->
  (incl (b_win rb') t /\ incl (b_rest rb') t /\ (forall e, rkv' = Some e -> In e t)) /\
  forall k v, o = OOk (k, v) -> k = lk /\ (v = lv \/ exists v1, In (lk, v1) t /\ mf lk lv v1 = Ok v).
Proof.
  induction fuel as [|f IH]; intros mf t rb rkv fin lk lv w o rb' rkv' fin' w' HW HR HE E; cbn [join_right] in E.
  { injection E as <- <- <- <- <-. split; [auto|discriminate]. }
  destruct fin; [injection E as <- <- <- <- <-; split; [auto|intros k v Eo; injection Eo as <- <-; auto]|].
  destruct (match rkv with Some e => (Some e, rb) | None => base_next rb end) as [x rb1] eqn:EN.
  assert (H1 : incl (b_win rb1) t /\ incl (b_rest rb1) t /\ forall e, x = Some e -> In e t).
  { destruct rkv as [e|]; [injection EN as <- <-; auto|]. unfold base_next in EN. destruct (b_rest rb) as [|e r] eqn:ER; injection EN as <- <-.
    - rewrite ER. split; [exact HW|]. split; [exact HR|discriminate].
    - cbn [b_win b_rest]. repeat split; [exact HW|intros y Hy; apply HR; right; exact Hy|intros e0 Ee; injection Ee as <-; apply HR; left; reflexivity]. }
  destruct H1 as (HW1 & HR1 & HE1). destruct x as [[rk rv]|]; [|injection E as <- <- <- <- <-; split; [repeat split; [assumption|assumption|discriminate]|intros k v Eo; injection Eo as <- <-; auto]].
  assert (HE2 : forall e, Some (rk, rv) = Some e -> In e t) by exact HE1.
  destruct (bytes_compare rk lk) eqn:EC.
  - apply BaseFacts.bytes_compare_eq in EC. subst rk.
    destruct (mf lk lv rv) eqn:EM; injection E as <- <- <- <- <-; (split; [auto|intros k v Eo; try discriminate Eo]).
    injection Eo as <- <-. split; [reflexivity|]. right. exists rv. auto.
  - destruct (base_seek lk rb1 w) as [ok rb2] eqn:ES.
    assert (H2 : incl (b_win rb2) t /\ incl (b_rest rb2) t).
    { unfold base_seek in ES. cbn in ES. injection ES as <- <-. cbn [b_win b_rest]. split; [exact HW1|]. intros y Hy. apply HW1. eapply drop_incl. exact Hy. }
    destruct H2 as [HW2 HR2]. destruct ok.
    + eapply (IH mf t); [| | |exact E]; [exact HW2|exact HR2|discriminate].
    + injection E as <- <- <- <- <-. split; [auto|intros k v Eo; injection Eo as <- <-; auto].
  - injection E as <- <- <- <- <-. split; [auto|intros k v Eo; injection Eo as <- <-; auto].
Qed.

Lemma next_over : forall fuel h s it w o it' w', over h s it -> next fuel it w = (o, it', w') ->
  over h s it' /\ forall k v, o = OOk (k, v) -> sat h s k v.
Proof.
  induction fuel as [|f IH]; intros h s it w o it' w' HO E; cbn [next] in E.
  { injection E as <- <- <-. split; [exact HO|discriminate]. }
  destruct s as [t|st ff u|u|rms u|mf rt u]; destruct it as [b|st' ff' i|i|h' rms' i|mf' rb rk fin i]; cbn [over] in HO; try contradiction.
  - unfold base_next in E. destruct (b_rest b) as [|[k v] r] eqn:ER; injection E as <- <- <-; cbn [over sat b_win b_rest].
    + split; [rewrite ER; exact HO|discriminate].
    + destruct HO as [HW HR]. split; [split; [exact HW|intros x Hx; apply HR; right; exact Hx]|].
      intros k0 v0 Eo. injection Eo as <- <-. specialize (HR (k, v) (or_introl eq_refl)). apply filter_In in HR. exact HR.
  - destruct HO as [[-> ->] HO]. destruct (next f i w) as [[o1 u1] w1] eqn:E1. destruct (IH _ _ _ _ _ _ _ HO E1) as [HO1 HS1].
    destruct o1 as [[k v]| | | | |]; try (injection E as <- <- <-; cbn [over]; split; [split; [split; reflexivity|exact HO1]|discriminate]).
    specialize (HS1 k v eq_refl). destruct (ff w1 k v) as [fr w2] eqn:EF. destruct fr.
    + injection E as <- <- <-. cbn [over sat]. split; [split; [split; reflexivity|exact HO1]|]. intros k0 v0 Eo. injection Eo as <- <-. split; [exact HS1|eauto].
    + eapply (IH h (SFilter st ff u)); [|exact E]. cbn [over]. auto.
    + destruct (seek k0 u1 (note (EvSeek st k0) (bump st CSeek w2))) as [[ok u2] w3] eqn:ES.
      pose proof (seek_over _ _ _ _ _ _ _ _ HO1 ES) as HO2. destruct ok.
      * eapply (IH h (SFilter st ff u)); [|exact E]. cbn [over]. auto.
      * injection E as <- <- <-. cbn [over]. split; [auto|discriminate].
    + injection E as <- <- <-. cbn [over]. split; [auto|discriminate].
    + injection E as <- <- <-. cbn [over]. split; [auto|discriminate].
    + injection E as <- <- <-. cbn [over]. split; [auto|discriminate].
  - destruct (gettime w) as [now w1]. destruct (ts_cmp now (w_deadline w1)).
    + injection E as <- <- <-. cbn [over]. split; [exact HO|discriminate].
    + destruct (next f i w1) as [[o1 u1] w2] eqn:E1. injection E as <- <- <-. cbn [over sat]. eapply IH; eauto.
    + injection E as <- <- <-. cbn [over]. split; [exact HO|discriminate].
  - destruct (next f i w) as [[o1 u1] w1] eqn:E1. destruct (IH _ _ _ _ _ _ _ HO E1) as [HO1 HS1].
    destruct o1 as [[k v]| | | | |]; try (injection E as <- <- <-; cbn [over]; split; [exact HO1|discriminate]).
    destruct (match_key f h' k v rms' w1) as [[[[|] rms1] w2]|].
    + eapply (IH h (SRemove rms u)); [|exact E]. cbn [over]. exact HO1.
    + injection E as <- <- <-. cbn [over sat]. split; [exact HO1|]. intros k0 v0 Eo. injection Eo as <- <-. auto.
    + injection E as <- <- <-. cbn [over]. split; [exact HO|discriminate].
  - destruct HO as (-> & HW & HR & HE & HO). destruct (next f i w) as [[o1 u1] w1] eqn:E1. destruct (IH _ _ _ _ _ _ _ HO E1) as [HO1 HS1].
    destruct o1 as [[k v]| | | | |]; try (injection E as <- <- <-; cbn [over]; split; [auto 6|discriminate]).
    destruct (join_right f mf rb rk fin k v w1) as [[[[o2 rb'] rkv'] fin'] w2] eqn:EJ. injection E as <- <- <-. cbn [over sat].
    destruct (join_key _ _ _ _ _ _ _ _ _ _ _ _ _ _ HW HR HE EJ) as [(HW' & HR' & HE') HJ].
    split; [auto 6|]. intros k0 v0 ->. destruct (HJ k0 v0 eq_refl) as [-> HV]. exists v. auto.
Qed.

(** ** Queries *)

Definition delivered (hi : how) (si : source) (q : query) (top : source) (p : plan) (k v : bytes) : Prop :=
  match p_index p with
  | None => sat (match p_key2 p with Some k2 => HRange (p_key p) k2 | None => HPrefix (p_key p) end) top k v
  | Some (tb, idx) => exists ki vi fk, sat hi si ki vi /\ index_lookup_key q tb ki vi = Ok (Some fk) /\ sat (HPrefix fk) top k v
  end.
Definition alike (q q' : query) : Prop := forall tb k v, index_lookup_key q' tb k v = index_lookup_key q tb k v.
Definition running (q : query) (top : source) (p : plan) (qi : qiter) : Prop :=
  alike q (qi_query qi) /\ qi_source qi = top /\
  match p_index p, qi_kind qi with
  | None, Direct it => over (match p_key2 p with Some k2 => HRange (p_key p) k2 | None => HPrefix (p_key p) end) top it
  | Some (tb, idx0), Indirect tb' idx cur => tb' = tb /\ forall hi si, over hi si idx0 ->
      over hi si idx /\ (forall it, cur = Some it -> exists ki vi fk, sat hi si ki vi /\ index_lookup_key q tb ki vi = Ok (Some fk) /\ over (HPrefix fk) top it)
  | _, _ => False
  end.

Lemma direct_over : forall n fuel h s it w r it' w', over h s it -> direct_loop n fuel it w = (r, it', w') ->
  over h s it' /\ forall e, r = QEntry e -> exists k v, sat h s k v /\ entry_decode k v = Ok e.
Proof.
  induction n as [|n IH]; intros fuel h s it w r it' w' HO E; cbn [direct_loop] in E.
  { injection E as <- <- <-. split; [exact HO|discriminate]. }
  destruct (next fuel it w) as [[o u1] w1] eqn:E1. destruct (next_over _ _ _ _ _ _ _ _ HO E1) as [HO1 HS1].
  destruct o as [[k v]| | | | |]; try (injection E as <- <- <-; split; [exact HO1|discriminate]).
  destruct (entry_decode k v) eqn:ED; try (injection E as <- <- <-; split; [exact HO1|discriminate]).
  - injection E as <- <- <-. split; [exact HO1|]. intros e0 Ee. injection Ee as <-. exists k, v. auto.
  - eapply IH; eauto.
Qed.

Lemma indirect_over : forall n fuel q q' top tb hi si idx cur w r idx' cur' w',
  alike q q' -> over hi si idx ->
  (forall it, cur = Some it -> exists ki vi fk, sat hi si ki vi /\ index_lookup_key q tb ki vi = Ok (Some fk) /\ over (HPrefix fk) top it) ->
  indirect_loop n fuel q' top tb idx cur w = (r, idx', cur', w') ->
  over hi si idx' /\
  (forall it, cur' = Some it -> exists ki vi fk, sat hi si ki vi /\ index_lookup_key q tb ki vi = Ok (Some fk) /\ over (HPrefix fk) top it) /\
  forall e, r = QEntry e -> exists k v, (exists ki vi fk, sat hi si ki vi /\ index_lookup_key q tb ki vi = Ok (Some fk) /\ sat (HPrefix fk) top k v) /\ entry_decode k v = Ok e.
Proof.
  induction n as [|n IH]; intros fuel q q' top tb hi si idx cur w r idx' cur' w' HA HO HC E; cbn [indirect_loop] in E.
  { injection E as <- <- <- <-. split; [exact HO|]. split; [exact HC|discriminate]. }
  destruct cur as [it|].
  - destruct (next fuel it w) as [[o u1] w1] eqn:E1. destruct (HC it eq_refl) as (ki & vi & fk & S1 & S2 & S3). destruct (next_over _ _ _ _ _ _ _ _ S3 E1) as [HO1 HS1].
    assert (HC1 : forall it, Some u1 = Some it -> exists ki vi fk, sat hi si ki vi /\ index_lookup_key q tb ki vi = Ok (Some fk) /\ over (HPrefix fk) top it).
    { intros it0 Eo. injection Eo as <-. eauto 6. }
    destruct o as [[k v]| | | | |]; try (injection E as <- <- <- <-; split; [exact HO|split; [exact HC1|discriminate]]).
    + destruct (entry_decode k v) eqn:ED; try (injection E as <- <- <- <-; split; [exact HO|split; [exact HC1|discriminate]]).
      * injection E as <- <- <- <-. split; [exact HO|]. split; [exact HC1|]. intros e Ee. injection Ee as <-. exists k, v. split; [|exact ED]. eauto 8.
      * eapply IH; eauto.
    + refine (IH _ q q' top tb hi si idx None w1 _ _ _ _ HA HO _ E). discriminate.
  - destruct (next fuel idx w) as [[o u1] w1] eqn:E1. destruct (next_over _ _ _ _ _ _ _ _ HO E1) as [HO1 HS1].
    destruct o as [[k v]| | | | |]; try (injection E as <- <- <- <-; split; [exact HO1|split; discriminate]).
    rewrite (HA tb k v) in E.
    destruct (index_lookup_key q tb k v) as [[fk|]| | | |] eqn:EK; try (injection E as <- <- <- <-; split; [exact HO1|split; discriminate]).
    + eapply IH; [exact HA|exact HO1| |exact E]. intros it Eo. injection Eo as <-. exists k, v, fk. split; [auto|]. split; [exact EK|apply open_over].
    + refine (IH _ q q' top tb hi si u1 None w1 _ _ _ _ HA HO1 _ E). discriminate.
Qed.

Lemma retime_alike : forall t q q', alike q q' -> alike q (retime t q').
Proof. intros t q q' H tb k v. rewrite <- (H tb k v). destruct t; reflexivity. Qed.

Lemma qnext_running : forall hi si fuel q top p qi w r qi' w', running q top p qi ->
  (forall tb idx, p_index p = Some (tb, idx) -> over hi si idx) ->
  qnext fuel qi w = (r, qi', w') ->
  running q top p qi' /\ forall e, r = QEntry e -> exists k v, delivered hi si q top p k v /\ entry_decode k v = Ok e.
Proof.
  intros hi si fuel q top p qi w r qi' w' (HA & HT & HK) HX E. unfold qnext in E. unfold running, delivered.
  destruct (p_index p) as [[tb idx0]|]; destruct (qi_kind qi) as [it|tb' idx cur]; try contradiction HK.
  - destruct HK as [-> HK]. destruct (indirect_loop fuel fuel (qi_query qi) (qi_source qi) tb idx cur _) as [[[r1 idx1] cur1] w1] eqn:EI.
    injection E as <- <- <-. cbn [qi_query qi_source qi_kind]. rewrite HT in EI. split.
    + split; [exact HA|]. split; [exact HT|]. split; [reflexivity|]. intros hi' si' HO. destruct (HK hi' si' HO) as [H1 H2].
      destruct (indirect_over _ _ _ _ _ _ _ _ _ _ _ _ _ _ _ HA H1 H2 EI) as (A & B & C). auto.
    + intros e Ee. pose proof (HX tb idx0 eq_refl) as HO. destruct (HK hi si HO) as [H1 H2].
      destruct (indirect_over _ _ _ _ _ _ _ _ _ _ _ _ _ _ _ HA H1 H2 EI) as (A & B & C). destruct (C e Ee) as (k & v & (ki & vi & fk & D) & F). exists k, v. split; [|exact F].
      exists ki, vi, fk. exact D.
  - destruct (direct_loop fuel fuel it _) as [[r1 it1] w1] eqn:ED. injection E as <- <- <-. cbn [qi_query qi_source qi_kind].
    destruct (direct_over _ _ _ _ _ _ _ _ _ HK ED) as [H1 H2]. split; [|exact H2]. auto.
Qed.

Lemma calls_running : forall hi si fuel q top p ts qi w e, running q top p qi ->
  (forall tb idx, p_index p = Some (tb, idx) -> over hi si idx) ->
  In (QEntry e) (timed_calls fuel ts qi w) -> exists k v, delivered hi si q top p k v /\ entry_decode k v = Ok e.
Proof.
  intros hi si fuel q top p ts. induction ts as [|t ts IH]; intros qi w e HR HX H; [destruct H|]. cbn [timed_calls] in H.
  destruct (qnext fuel (set_timing t qi) w) as [[r qi'] w'] eqn:E.
  assert (HR' : running q top p (set_timing t qi)).
  { destruct HR as (A & B & C). split; [apply retime_alike; exact A|]. split; [exact B|exact C]. }
  destruct (qnext_running _ _ _ _ _ _ _ _ _ _ _ HR' HX E) as [H1 H2]. destruct H as [H|H]; [apply H2; exact H|eapply IH; eauto].
Qed.

Lemma start_running : forall q fc src idx qi, query_iter_common q fc src idx = Ok qi ->
  exists p, query_init q (if is_timed q then STimeout src else src) (if is_timed q then STimeout idx else idx) = Ok p /\
    running q (stack_filters q fc (p_source p)) p qi.
Proof.
  intros q fc src idx qi E. unfold query_iter_common in E.
  destruct (query_init q (if is_timed q then STimeout src else src) (if is_timed q then STimeout idx else idx)) as [p| | | |]; cbn [bind] in E; try discriminate.
  exists p. split; [reflexivity|]. injection E as <-. unfold running. cbn [qi_query qi_source qi_kind]. split; [intros tb k v; reflexivity|]. split; [reflexivity|].
  destruct (p_index p) as [[tb ix]|]; [|destruct (p_key2 p); apply open_over].
  split; [reflexivity|]. intros hi si HO. split; [exact HO|discriminate].
Qed.

(** The stages on top. *)
Lemma stack_sat : forall q fc h src k v, sat h (stack_filters q fc src) k v ->
  (has_time_bound q = true -> time_res q false v = FMatch) /\
  exists v0, sat h src k v0 /\ (v = v0 \/ exists t v1, f_fill fc = Some t /\ In (k, v1) t /\ merge_func k v0 v1 = Ok v).
Proof.
  intros q fc h src k v H. unfold stack_filters in H.
  assert (H0 : sat h (if has_time_bound q then SFilter StTime (filter_time q) (match f_fill fc with
      | Some t => SLjoin merge_func t (if has_time_bound q then match f_remove fc with
           | Some l => SRemove l (SFilter StTimePrefilter (filter_time_prefilter q) src) | None => SFilter StTimePrefilter (filter_time_prefilter q) src end else src)
      | None => if has_time_bound q then match f_remove fc with
           | Some l => SRemove l (SFilter StTimePrefilter (filter_time_prefilter q) src) | None => SFilter StTimePrefilter (filter_time_prefilter q) src end else src end)
    else match f_fill fc with Some t => SLjoin merge_func t (if has_time_bound q then match f_remove fc with
           | Some l => SRemove l (SFilter StTimePrefilter (filter_time_prefilter q) src) | None => SFilter StTimePrefilter (filter_time_prefilter q) src end else src)
      | None => if has_time_bound q then match f_remove fc with
           | Some l => SRemove l (SFilter StTimePrefilter (filter_time_prefilter q) src) | None => SFilter StTimePrefilter (filter_time_prefilter q) src end else src end) k v).
  { destruct (0 <? q_offset q); [cbn [sat] in H; apply H|exact H]. }
  clear H. destruct (has_time_bound q).
  - cbn [sat] in H0. destruct H0 as [H (w & w' & EM)]. unfold filter_time in EM. injection EM as EM _. split; [intros _; exact EM|].
    destruct (f_fill fc) as [t|]; [cbn [sat] in H; destruct H as (v0 & H & HV); exists v0; split; [|destruct HV as [->|(v1 & HV)]; [left; reflexivity|right; exists t, v1; split; [reflexivity|exact HV]]]|exists v; split; [|left; reflexivity]];
      destruct (f_remove fc); cbn [sat] in H; apply H.
  - split; [discriminate|]. destruct (f_fill fc) as [t|]; [cbn [sat] in H0; destruct H0 as (v0 & H & HV); exists v0; split; [exact H|destruct HV as [->|(v1 & HV)]; [left; reflexivity|right; exists t, v1; split; [reflexivity|exact HV]]]|exists v; auto].
Qed.
