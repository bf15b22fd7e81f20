(** C38-C41: the left-join, remove and filter sources and their counters. *)
From Verif Require Import Base BaseFacts ModelVarint ModelIter SpecIter ModelMerge SpecMerge IterProofs IterCount.

(** A state to run examples in: the clock stands still before the deadline. *)
Definition world0 : world :=
  {| w_now := fun _ => {| tv_sec := 0; tv_nsec := 0 |}; w_tick := 0;
     w_deadline := {| tv_sec := 1; tv_nsec := 0 |}; w_seek_end := fun _ _ => false; w_offset := 0;
     w_cnt := fun _ _ => 0; w_log := [] |}.

(** * C38 *)

Lemma key_in_window : forall h k t, in_window h k = true -> key_in k (window h t) = key_in k t.
Proof.
  intros h k t H. apply eq_true_iff_eq. rewrite !key_in_true. unfold has_key.
  split; intros (v & Hv); exists v; [apply in_window_filter in Hv; tauto|apply in_window_filter; auto].
Qed.

Lemma has_key_window : forall h k t, in_window h k = true -> (has_key k (window h t) <-> has_key k t).
Proof. intros. rewrite <- !key_in_true, key_in_window by auto. tauto. Qed.

Lemma mergeable_window : forall mf h r l, mergeable mf r l -> mergeable mf (window h r) (window h l).
Proof.
  intros mf h r l M k v rv Hl Hr. apply in_window_filter in Hl. apply in_window_filter in Hr.
  apply (M k v rv); tauto.
Qed.

Lemma join_fn_left_join : forall mf h r l, strict r -> mergeable mf r l ->
  left_join mf r (window h l) (map (join_fn mf (window h r)) (window h l)).
Proof.
  intros mf h r l SR M. unfold left_join.
  assert (HI : forall e, In e (window h l) -> In e l /\ in_window h (fst e) = true) by (intros; apply in_window_filter; auto).
  induction (window h l) as [|[k v] w IH]; cbn [map]; constructor.
  - rewrite fst_join_fn. cbn [fst snd]. split; auto. destruct (HI (k, v)) as [Hin Hw]; [left; auto|]. cbn in Hw.
    unfold join_fn. cbn [fst snd]. destruct (key_in k (window h r)) eqn:EK.
    + apply key_in_true in EK. destruct EK as [rv Hrv]. right. exists rv.
      rewrite (lookup_some _ _ _ (strict_window h r SR) Hrv). apply in_window_filter in Hrv. destruct Hrv as [Hrv _].
      destruct (M _ _ _ Hin Hrv) as [m Em]. rewrite Em. auto.
    + left. apply key_in_false in EK. rewrite (lookup_none _ _ EK). split; auto. rewrite <- (has_key_window h) by auto. auto.
  - apply IH. intros; apply HI; right; auto.
Qed.

(** Any two sorted tables, any merge function defined on the common keys, any
    kind of lookup, any sequence of next and seek calls. *)
Theorem ljoin_source_behaves : forall mf left right h, sorted left -> strict right -> 
  (forall k v rv, In (k, v) left -> In (k, rv) right -> exists m, mf k v rv = Ok m) ->
  exists joined, left_join mf right (window h left) joined /\
    behaves_as (open h (SLjoin mf right (SBase left))) joined.
Proof.
  intros mf l r h SL SR M. exists (map (join_fn mf (window h r)) (window h l)). split; [apply join_fn_left_join; auto|].
  apply den_behaves; [|reflexivity]. exists (window h l). cbn [den]. split; auto. split; auto. split; auto.
  apply mergeable_window. exact M.
Qed.

(** The join is determined by the tables. *)
Theorem left_join_unique : forall mf right l j1 j2, strict right ->
  left_join mf right l j1 -> left_join mf right l j2 -> j1 = j2.
Proof.
  intros mf r l j1 j2 SR H. revert j2. induction H as [|[k v] [k1 v1] l j1 (E1 & D1) H IH]; intros j2 H2.
  - inversion H2; auto.
  - inversion H2 as [|? [k2 v2] ? j2' (E2 & D2) H2']; subst. cbn [fst snd] in *. subst k1 k2. f_equal; [|auto]. f_equal.
    destruct D1 as [(N1 & ->)|(rv1 & I1 & M1)], D2 as [(N2 & ->)|(rv2 & I2 & M2)]; auto.
    + exfalso. apply N1. exists rv2. exact I2.
    + exfalso. apply N2. exists rv1. exact I1.
    + pose proof (lookup_some _ _ _ SR I1) as A. pose proof (lookup_some _ _ _ SR I2) as B. congruence.
Qed.

(** dnstable's own merge function joins two tables of observations. *)
Definition c38_left : table :=
  [([0; 1], triplet_pack 5 9 2);
   ([0; 2], triplet_pack 300 400 1);
   ([0; 2; 7], triplet_pack 1 1 1)].
Definition c38_right : table :=
  [([0; 0], triplet_pack 5 9 2);
   ([0; 2], triplet_pack 200 210 5);
   ([0; 3], triplet_pack 1 1 1)].

Ltac sorted_tac := repeat (constructor; [|repeat (constructor; try reflexivity)]); try constructor.

Example c38_case :
  sorted c38_left /\ strict c38_right /\
  (forall k v rv, In (k, v) c38_left -> In (k, rv) c38_right -> exists m, merge_func k v rv = Ok m) /\
  run 50 (open HIter (SLjoin merge_func c38_right (SBase c38_left))) world0 [Next; Seek [0; 2]; Next; Seek [0; 0]; Next; Next; Next; Next] =
  [OOk ([0; 1], triplet_pack 5 9 2);
   OOk ([0; 2], triplet_pack 200 400 6);
   OOk ([0; 1], triplet_pack 5 9 2);
   OOk ([0; 2], triplet_pack 200 400 6);
   OOk ([0; 2; 7], triplet_pack 1 1 1);
   OFail].
Proof.
  split; [unfold c38_left; sorted_tac|]. split; [unfold c38_right; sorted_tac|]. split; [|vm_compute; reflexivity].
  intros k v rv Hl Hr. cbn [c38_left c38_right In] in Hl, Hr.
  destruct Hl as [E|[E|[E|[]]]]; inversion E; subst; destruct Hr as [E2|[E2|[E2|[]]]]; inversion E2; subst;
    eexists; vm_compute; reflexivity.
Qed.

(** * C39 *)

Theorem remove_source_behaves : forall rms t h, sorted t -> Forall strict rms ->
  exists keep : kv -> bool,
    (forall e, keep e = true <-> forall r, In r rms -> ~ has_key (fst e) r) /\
    behaves_as (open h (SRemove rms (SBase t))) (filter keep (window h t)).
Proof.
  intros rms t h ST SR. exists (fun e => negb (existsb (fun r => key_in (fst e) r) rms)). split.
  - intros e. rewrite negb_true_iff, <- not_true_iff_false, existsb_exists. split.
    + intros H r Hr HK. apply H. exists r. split; auto. apply key_in_true; auto.
    + intros H (r & Hr & HK). apply (H r Hr). apply key_in_true; auto.
  - apply den_behaves; [|reflexivity]. cbn [den]. exists (window h t). split; auto. split; auto.
    assert (HI : forall e, In e (window h t) -> in_window h (fst e) = true) by (intros e He; apply in_window_filter in He; tauto).
    induction (window h t) as [|e w IH]; [reflexivity|]. cbn [filter].
    replace (removed_by h rms e) with (existsb (fun r => key_in (fst e) r) rms).
    + rewrite IH by (intros; apply HI; right; auto). reflexivity.
    + unfold removed_by. specialize (HI e (or_introl eq_refl)). clear -HI. induction rms as [|r rms IH]; [reflexivity|].
      cbn [existsb]. rewrite IH, key_in_window by auto. reflexivity.
Qed.

Definition c39_table : table := [([0; 1], [1]); ([0; 1; 5], [2]); ([0; 2], [3]); ([0; 3], [4])].
Definition c39_rms : list table := [[([0; 0], []); ([0; 2], [])]; []; [([0; 1], []); ([0; 2], []); ([0; 4], [])]].
Example c39_case :
  sorted c39_table /\ Forall strict c39_rms /\
  run 50 (open (HPrefix [0]) (SRemove c39_rms (SBase c39_table))) world0 [Next; Next; Next; Seek [0; 1]; Next; Seek [0; 2]; Next] =
  [OOk ([0; 1; 5], [2]); OOk ([0; 3], [4]); OFail; OOk ([0; 1; 5], [2]); OOk ([0; 3], [4])].
Proof.
  split; [unfold c39_table; sorted_tac|]. split; [|vm_compute; reflexivity].
  unfold c39_rms. constructor; [sorted_tac|constructor; [constructor|constructor; [sorted_tac|constructor]]].
Qed.

(** * C40 *)

Theorem filter_source_behaves : forall s f p t h, sorted t -> good_filter f p (window h t) ->
  behaves_as (open h (SFilter s f (SBase t))) (filter p (window h t)).
Proof.
  intros s f p t h ST G. apply den_behaves; [|reflexivity]. cbn [den]. exists (window h t), p. auto.
Qed.

(** Filters stacked on filters, removes and joins behave as the composition. *)
Theorem stacked_sources_behave : forall s1 f1 p1 s2 f2 p2 rms mf right t h,
  sorted t -> Forall strict rms -> strict right ->
  good_filter f1 p1 (window h t) ->
  (forall k v rv, In (k, v) t -> In (k, rv) right -> exists m, mf k v rv = Ok m) ->
  exists (keep : kv -> bool) joined,
    (forall e, in_window h (fst e) = true -> (keep e = true <-> forall r, In r rms -> ~ has_key (fst e) r)) /\
    left_join mf right (filter keep (filter p1 (window h t))) joined /\
    (good_filter f2 p2 joined ->
     behaves_as (open h (SFilter s2 f2 (SLjoin mf right (SRemove rms (SFilter s1 f1 (SBase t)))))) (filter p2 joined)).
Proof.
  intros s1 f1 p1 s2 f2 p2 rms mf r t h ST SRM SR G1 M.
  set (keep := fun e => negb (removed_by h rms e)).
  set (base := filter keep (filter p1 (window h t))).
  assert (HI : forall e, In e base -> In e t /\ in_window h (fst e) = true).
  { intros e He. unfold base in He. apply filter_In in He. destruct He as [He _]. apply filter_In in He.
    destruct He as [He _]. apply in_window_filter in He. exact He. }
  exists keep, (map (join_fn mf (window h r)) base). split; [|split].
  - intros e He. unfold keep, removed_by. rewrite negb_true_iff, <- not_true_iff_false, existsb_exists. split.
    + intros H x Hx HK. apply H. exists x. split; auto. rewrite key_in_window by auto. apply key_in_true; auto.
    + intros H (x & Hx & HK). apply (H x Hx). rewrite key_in_window in HK by auto. apply key_in_true; auto.
  - fold base. assert (W : window h base = base).
    { clear -HI. induction base as [|e l IH]; [reflexivity|]. unfold window in *. cbn [filter].
      destruct (HI e (or_introl eq_refl)) as [_ ->]. rewrite IH; [reflexivity|]. intros; apply HI; right; auto. }
    pose proof (join_fn_left_join mf h r base SR) as J. rewrite W in J. apply J.
    intros k v rv Hb Hr. apply (M k v rv); auto. apply HI in Hb. tauto.
  - intros G2. apply den_behaves; [|reflexivity]. cbn [den]. exists (map (join_fn mf (window h r)) base), p2.
    split; [|split; auto]. exists base. split; [|split; [auto|split; [|reflexivity]]].
    + exists (filter p1 (window h t)). split; [|split; auto]. exists (window h t), p1. auto.
    + intros k v rv Hb Hr. apply in_window_filter in Hr. apply (M k v rv); [apply HI in Hb; tauto|tauto].
Qed.

(** A filter that keeps the two-byte keys and seeks over their extensions. *)
Definition c40_filter : filter_fn := fun w k v =>
  match k with
  | [_; _] => (FMatch, w)
  | a :: b :: _ => (FSeek [a; b + 1], w)
  | _ => (FSkip, w)
  end.
Definition c40_pred (e : kv) : bool := match fst e with [_; _] => true | _ => false end.
Example c40_case :
  sorted c39_table /\ good_filter c40_filter c40_pred (window HIter c39_table) /\
  run 50 (open HIter (SFilter StRrtype c40_filter (SBase c39_table))) world0 [Next; Next; Next; Next; Seek [0; 1; 3]; Next] =
  [OOk ([0; 1], [1]); OOk ([0; 2], [3]); OOk ([0; 3], [4]); OFail; OOk ([0; 2], [3])].
Proof.
  split; [unfold c39_table; sorted_tac|]. split; [|vm_compute; reflexivity].
  intros w k v Hin. cbn [window filter c39_table in_window fst] in Hin.
  destruct Hin as [E|[E|[E|[E|[]]]]]; inversion E; subst; (split; [reflexivity|]); try reflexivity.
  split; [reflexivity|]. intros e He. cbn [window filter c39_table in_window fst] in He.
  destruct He as [<-|[<-|[<-|[<-|[]]]]]; vm_compute; congruence.
Qed.

(** * C41 *)

(** From a fresh query on, whatever is called on whatever stack of stages, each
    counter is the number of recorded events of its stage and kind. *)
Theorem counters_count_events : forall fuel h s w ops,
  (forall st c, w_cnt w st c = 0) -> w_log w = [] -> quiet (open h s) ->
  counters_match (state_after fuel (open h s) w ops).
Proof.
  intros fuel h s w ops HC HL Q. apply state_after_cm; auto.
  intros st c. rewrite HC, HL. reflexivity.
Qed.

(** Draining a stage: the counters are the numbers of entries of the table it
    rejected, removed and joined. *)
Theorem filter_counter_exact : forall s (f : filter_fn) (p : kv -> bool) t h w,
  (forall w (k v : bytes), In (k, v) (window h t) -> f w k v = (if p (k, v) then FMatch else FSkip, w)) ->
  eventually (fun fuel => exists w', forall n, (length (window h t) < n)%nat ->
    drain fuel n (open h (SFilter s f (SBase t))) w = Some (filter p (window h t), w') /\
    filter_counter s w' CFiltered =
      (true, w_cnt w s CFiltered + N.of_nat (length (filter (fun e => negb (p e)) (window h t)))) /\
    filter_counter s w' CSeek = (true, w_cnt w s CSeek)).
Proof.
  intros s f p t h w HF.
  destruct (filter_drain s f p (window h t) (window h t) w HF (fun e H => H)) as [F H].
  exists F. intros fuel Hf. destruct (H fuel Hf) as [w' Hw]. exists w'. intros n Hn. destruct (Hw n Hn) as (A & B & C).
  split; [exact A|]. cbn [filter_counter]. rewrite B, C. auto.
Qed.

Theorem remove_counter_exact : forall rms t h w, sorted t -> Forall strict rms ->
  exists gone : kv -> bool,
    (forall e, gone e = true <-> in_window h (fst e) = true /\ exists r, In r rms /\ has_key (fst e) r) /\
    eventually (fun fuel => exists w', forall n, (length (window h t) < n)%nat ->
      drain fuel n (open h (SRemove rms (SBase t))) w = Some (filter (fun e => negb (gone e)) (window h t), w') /\
      remove_counter (N.of_nat (length rms)) w' CFiltered =
        (true, w_cnt w StRemoveStrict CFiltered + N.of_nat (length (filter gone (window h t))))).
Proof.
  intros rms t h w ST SR.
  exists (removed_by h rms). split.
  - intros e. unfold removed_by. rewrite existsb_exists. split.
    + intros (r & Hr & HK). apply key_in_true in HK. destruct HK as [v Hv]. apply in_window_filter in Hv. cbn in Hv.
      split; [tauto|]. exists r. split; auto. exists v. tauto.
    + intros (HW & r & Hr & HK). exists r. split; auto. rewrite key_in_window by auto. apply key_in_true; auto.
  - set (res := map (fun t => {| re_table := t; re_it := None; re_key := []; re_finished := false |}) rms).
    assert (E : map re_table res = rms) by (unfold res; rewrite map_map; apply map_id).
    destruct (remove_drain h (window h t) (window h t) w res) as [F H].
    + apply sorted_filter; auto.
    + apply suffix_refl.
    + unfold res. apply Forall_map. eapply Forall_impl; [|exact SR]. intros r Hr. split; [exact Hr|reflexivity].
    + exists F. intros fuel Hf. destruct (H fuel Hf) as [w' Hw]. exists w'. intros n Hn.
      destruct (Hw n Hn) as (A & B). rewrite E in A, B. split; [exact A|]. cbn [remove_counter].
      unfold cnt_rm in B. rewrite B. reflexivity.
Qed.

Theorem ljoin_counter_exact : forall mf left right h w, sorted left -> strict right ->
  (forall k v rv, In (k, v) left -> In (k, rv) right -> exists m, mf k v rv = Ok m) ->
  exists both : kv -> bool,
    (forall e, In e (window h left) -> (both e = true <-> has_key (fst e) right)) /\
    eventually (fun fuel => exists joined w', forall n, (length (window h left) < n)%nat ->
      drain fuel n (open h (SLjoin mf right (SBase left))) w = Some (joined, w') /\
      ljoin_counter w' CMerged = (true, w_cnt w StLjoin CMerged + N.of_nat (length (filter both (window h left))))).
Proof.
  intros mf l r h w SL SR M. exists (fun e => key_in (fst e) (window h r)). split.
  - intros e He. apply in_window_filter in He. rewrite key_in_window by tauto. apply key_in_true.
  - destruct (ljoin_drain mf (window h r) (window h l) (window h l) w) with (b := base_open h r) (cur := @None kv) (fin := false)
      as [F H].
    + apply strict_window; auto.
    + apply sorted_filter; auto.
    + apply suffix_refl.
    + apply mergeable_window. exact M.
    + reflexivity.
    + exists []. split; [reflexivity|intros ? ? []].
    + exists F. intros fuel Hf. destruct (H fuel Hf) as [w' Hw]. eexists. exists w'. intros n Hn.
      destruct (Hw n Hn) as (A & B). split; [exact A|]. cbn [ljoin_counter]. rewrite B. reflexivity.
Qed.

Definition c41_stack : source :=
  SFilter StTime (fun w k v => (if N.odd (nth 0 v 0) then FMatch else FSkip, w))
    (SRemove c39_rms (SFilter StSingleLabel c40_filter (SBase (c39_table ++ [([0; 5], [7])])))).
Example c41_case :
  quiet (open HIter c41_stack) /\
  let w := state_after 50 (open HIter c41_stack) world0 [Next; Next; Next] in
  w_cnt w StTime CFiltered = 1 /\ w_cnt w StRemoveStrict CFiltered = 2 /\ w_cnt w StSingleLabel CFiltered = 1 /\
  w_cnt w StSingleLabel CSeek = 1 /\ w_cnt w StRemoveStrict CSeek = 4.
Proof.
  split; [|vm_compute; auto 10]. cbn [quiet open c41_stack]. split; [intros; split; reflexivity|].
  split; [|exact I]. intros w k v. unfold c40_filter. destruct k as [|? [|? [|? ?]]]; split; reflexivity.
Qed.

Print Assumptions ljoin_source_behaves.
Print Assumptions left_join_unique.
Print Assumptions remove_source_behaves.
Print Assumptions filter_source_behaves.
Print Assumptions stacked_sources_behave.
Print Assumptions counters_count_events.
Print Assumptions filter_counter_exact.
Print Assumptions remove_counter_exact.
Print Assumptions ljoin_counter_exact.
