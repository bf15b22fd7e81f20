(** Proofs about the statistics counters of the iterator model. *)
From Verif Require Import Base BaseFacts ModelIter SpecIter IterProofs.

Definition cm_same (w w' : world) : Prop := w_cnt w' = w_cnt w /\ w_log w' = w_log w.

Lemma cm_from : forall w w', counters_match w -> cm_same w w' -> counters_match w'.
Proof. intros w w' H (A & B) s c. rewrite A, B. apply H. Qed.

Lemma stage_eqb_refl : forall s, stage_eqb s s = true.
Proof. destruct s; reflexivity. Qed.
Lemma stage_eqb_sym : forall a b, stage_eqb a b = stage_eqb b a.
Proof. destruct a, b; reflexivity. Qed.

Lemma cm_step : forall w s c e, counters_match w ->
  (forall s' c', event_is s' c' e = stage_eqb s s' && category_eqb c c') ->
  counters_match (note e (bump s c w)).
Proof.
  intros w s c e H He s' c'. cbn [note bump w_cnt w_log filter]. rewrite He.
  destruct (stage_eqb s s' && category_eqb c c'); cbn [length]; rewrite H; lia.
Qed.

Lemma cm_reject : forall w s k v, counters_match w -> counters_match (note (EvReject s k v) (bump s CFiltered w)).
Proof. intros. apply cm_step; auto. intros s' c'. rewrite stage_eqb_sym. destruct c'; cbn; rewrite ?andb_true_r, ?andb_false_r; auto. Qed.
Lemma cm_seek : forall w s k, counters_match w -> counters_match (note (EvSeek s k) (bump s CSeek w)).
Proof. intros. apply cm_step; auto. intros s' c'. rewrite stage_eqb_sym. destruct c'; cbn; rewrite ?andb_true_r, ?andb_false_r; auto. Qed.
Lemma cm_merge : forall w s k, counters_match w -> counters_match (note (EvMerge s k) (bump s CMerged w)).
Proof. intros. apply cm_step; auto. intros s' c'. rewrite stage_eqb_sym. destruct c'; cbn; rewrite ?andb_true_r, ?andb_false_r; auto. Qed.
#[local] Hint Resolve cm_reject cm_seek cm_merge : cm.

Lemma cm_rm_seek : forall k rms w rms' w', counters_match w -> remove_entries_seek k rms w = (rms', w') -> counters_match w'.
Proof.
  induction rms as [|re rms IH]; cbn [remove_entries_seek]; intros w rms' w' H E; [inversion E; subst; auto|].
  destruct (remove_entry_seek k re w) as [re1 w1] eqn:E1. destruct (remove_entries_seek k rms w1) as [r2 w2] eqn:E2.
  inversion E; subst. eapply IH; [|exact E2]. clear E2 IH E. unfold remove_entry_seek in E1.
  destruct (re_it re) as [b|]; [|inversion E1; subst; auto].
  destruct (re_finished re || blt k (re_key re)); [|inversion E1; subst; auto].
  destruct (base_seek k b w) as [[|] b1]; [|inversion E1; subst; auto].
  destruct (base_next b1) as [[e|] b2]; inversion E1; subst; auto with cm.
Qed.

Lemma seek_cm : forall it k w ok it' w', counters_match w -> seek k it w = (ok, it', w') ->
  counters_match w' /\ (quiet it -> quiet it').
Proof.
  induction it as [b|s f u IH|u IH|h rms u IH|mf b cur fin u IH]; intros k w ok it' w' H HS; cbn [seek] in HS.
  - destruct (base_seek k b w). inversion HS; subst; auto.
  - destruct (seek k u w) as [[ok1 u1] w1] eqn:E. inversion HS; subst. destruct (IH _ _ _ _ _ H E) as [A B].
    split; auto. cbn [quiet]. tauto.
  - destruct (seek k u w) as [[ok1 u1] w1] eqn:E. inversion HS; subst. destruct (IH _ _ _ _ _ H E) as [A B]. auto.
  - destruct (remove_entries_seek k rms w) as [rms1 w1] eqn:E1. apply cm_rm_seek in E1; auto.
    destruct (seek k u w1) as [[ok1 u1] w2] eqn:E. inversion HS; subst. destruct (IH _ _ _ _ _ E1 E) as [A B]. auto.
  - destruct (seek k u w) as [[ok1 u1] w1] eqn:E. destruct (IH _ _ _ _ _ H E) as [A B]. destruct ok1.
    + destruct (base_seek k b w1). inversion HS; subst; auto.
    + inversion HS; subst; auto.
Qed.

Lemma cm_open_entry : forall h key re w re' w', counters_match w -> open_entry h key re w = (re', w') -> counters_match w'.
Proof.
  intros h key re w re' w' C. unfold open_entry. destruct (re_it re); [intros H; inversion H; subst; auto|].
  destruct (base_seek key _ w) as [[|] b1].
  - destruct (base_next b1) as [[e|] b2]; intros H; inversion H; subst; auto with cm.
  - intros H; inversion H; subst; auto.
Qed.

Lemma cm_match_entry : forall fuel key re w m re' w', counters_match w -> match_entry fuel key re w = Some (m, re', w') -> counters_match w'.
Proof.
  induction fuel as [|f IH]; intros key re w m re' w' C H; cbn [match_entry] in H; [discriminate|].
  destruct (re_finished re); [inversion H; subst; auto|]. destruct (re_it re) as [b|]; [|inversion H; subst; auto].
  destruct (bytes_compare (re_key re) key); try (inversion H; subst; auto; fail).
  destruct (base_seek key b w) as [[|] b1]; [|inversion H; subst; auto].
  destruct (base_next b1) as [[e|] b2]; [eapply IH in H; eauto with cm|inversion H; subst; auto with cm].
Qed.

Lemma cm_match_key : forall fuel h key val rms w m rms' w', counters_match w ->
  match_key fuel h key val rms w = Some (m, rms', w') -> counters_match w'.
Proof.
  intros fuel h key val. induction rms as [|re rms IH]; intros w m rms' w' C H; cbn [match_key] in H.
  - inversion H; subst; auto.
  - destruct (open_entry h key re w) as [re1 w1] eqn:EO. apply cm_open_entry in EO; auto.
    destruct (match_entry fuel key re1 w1) as [[[[|] re2] w2]|] eqn:EM; [| |discriminate]; apply cm_match_entry in EM; auto.
    + inversion H; subst. auto with cm.
    + destruct (match_key fuel h key val rms w2) as [[[[|] r'] w3]|] eqn:EK; [| |discriminate]; apply IH in EK; auto.
      * destruct r'; inversion H; subst; auto.
      * inversion H; subst; auto.
Qed.

Lemma cm_join_right : forall fuel mf b cur fin lk lv w o b' c' f' w', counters_match w ->
  join_right fuel mf b cur fin lk lv w = (o, b', c', f', w') -> counters_match w'.
Proof.
  induction fuel as [|f IH]; intros mf b cur fin lk lv w o b' c' f' w' C H; cbn [join_right] in H; [inversion H; subst; auto|].
  destruct fin; [inversion H; subst; auto|].
  destruct (match cur with Some e => (Some e, b) | None => base_next b end) as [[[rk rv]|] b1]; [|inversion H; subst; auto].
  destruct (bytes_compare rk lk).
  - destruct (mf lk lv rv); inversion H; subst; auto with cm.
  - destruct (base_seek lk b1 w) as [[|] b2]; [|inversion H; subst; auto]. eapply IH in H; eauto with cm.
  - inversion H; subst; auto.
Qed.

Lemma next_cm : forall fuel it w o it' w', counters_match w -> quiet it -> next fuel it w = (o, it', w') ->
  counters_match w' /\ quiet it'.
Proof.
  induction fuel as [|fu IH]; intros it w o it' w' C Q H; cbn [next] in H; [inversion H; subst; auto|].
  destruct it as [b|s f u|u|h rms u|mf b cur fin u]; cbn [quiet] in Q.
  - destruct (base_next b) as [[e|] b1]; inversion H; subst; cbn; auto.
  - destruct Q as [Qf Q]. destruct (next fu u w) as [[o1 u1] w1] eqn:E. destruct (IH _ _ _ _ _ C Q E) as [C1 Q1].
    destruct o1 as [[k v]| | | | |]; try (inversion H; subst; cbn; auto; fail).
    destruct (f w1 k v) as [r w2] eqn:EF.
    assert (C2 : counters_match w2).
    { eapply cm_from; [exact C1|]. specialize (Qf w1 k v). rewrite EF in Qf. exact Qf. }
    destruct r as [| |k'| | |]; try (inversion H; subst; cbn; auto; fail).
    + eapply IH; [| |exact H]; [auto with cm|cbn; auto].
    + destruct (seek k' u1 (note (EvSeek s k') (bump s CSeek w2))) as [[ok u2] w3] eqn:ES.
      apply seek_cm in ES; [|auto with cm]. destruct ES as [C3 Q3]. destruct ok.
      * eapply IH; [| |exact H]; [auto with cm|cbn; auto].
      * inversion H; subst; cbn; auto.
  - cbn [gettime] in H. cbn [w_deadline] in H.
    match type of H with context [next fu u ?w1] => set (wg := w1) in * end.
    assert (Cg : counters_match wg) by (eapply cm_from; [exact C|split; reflexivity]).
    destruct (ts_cmp _ _); try (inversion H; subst; cbn; auto; fail).
    destruct (next fu u wg) as [[o1 u1] w1] eqn:E. inversion H; subst. cbn. eapply IH; eauto.
  - destruct (next fu u w) as [[o1 u1] w1] eqn:E. destruct (IH _ _ _ _ _ C Q E) as [C1 Q1].
    destruct o1 as [[k v]| | | | |]; try (inversion H; subst; cbn; auto; fail).
    destruct (match_key fu h k v rms w1) as [[[[|] rms'] w2]|] eqn:EM.
    + apply cm_match_key in EM; auto. eapply IH; [| |exact H]; auto.
    + apply cm_match_key in EM; auto. inversion H; subst; cbn; auto.
    + inversion H; subst; cbn; auto.
  - destruct (next fu u w) as [[o1 u1] w1] eqn:E. destruct (IH _ _ _ _ _ C Q E) as [C1 Q1].
    destruct o1 as [[k v]| | | | |]; try (inversion H; subst; cbn; auto; fail).
    destruct (join_right fu mf b cur fin k v w1) as [[[[o2 b'] c'] f'] w2] eqn:EJ.
    apply cm_join_right in EJ; auto. inversion H; subst; cbn; auto.
Qed.

Lemma state_after_cm : forall ops fuel it w, counters_match w -> quiet it -> counters_match (state_after fuel it w ops).
Proof.
  induction ops as [|[|k] ops IH]; intros fuel it w C Q; cbn [state_after]; auto.
  - destruct (next fuel it w) as [[o it'] w'] eqn:E. apply next_cm in E; auto. destruct E. auto.
  - destruct (seek k it w) as [[o it'] w'] eqn:E. apply seek_cm in E; auto. destruct E. auto.
Qed.

(** * Draining one stage over a table *)

Definition simple_filter (f : filter_fn) (p : kv -> bool) (t : table) : Prop :=
  forall w k v, In (k, v) t -> f w k v = (if p (k, v) then FMatch else FSkip, w).

Lemma next_filter_base : forall n s f win k v b w,
  next (S (S n)) (IFilter s f (IBase {| b_win := win; b_rest := (k, v) :: b |})) w =
  match f w k v with
  | (FMatch, w2) => (OOk (k, v), IFilter s f (IBase {| b_win := win; b_rest := b |}), w2)
  | (FSkip, w2) => next (S n) (IFilter s f (IBase {| b_win := win; b_rest := b |})) (note (EvReject s k v) (bump s CFiltered w2))
  | (FSeek k', w2) =>
      let '(ok, u2, w3) := seek k' (IBase {| b_win := win; b_rest := b |}) (note (EvSeek s k') (bump s CSeek w2)) in
      if ok then next (S n) (IFilter s f u2) (note (EvReject s k v) (bump s CFiltered w3))
      else (OFail, IFilter s f u2, w3)
  | (FStop, w2) => (OFail, IFilter s f (IBase {| b_win := win; b_rest := b |}), w2)
  | (FAbort, w2) => (OAbort, IFilter s f (IBase {| b_win := win; b_rest := b |}), w2)
  | (FUB, w2) => (OUB, IFilter s f (IBase {| b_win := win; b_rest := b |}), w2)
  end.
Proof. reflexivity. Qed.

Lemma filter_drain : forall s f p b win w, simple_filter f p win -> (forall e, In e b -> In e win) ->
  eventually (fun fuel => exists w', forall n, (length b < n)%nat ->
    drain fuel n (IFilter s f (IBase {| b_win := win; b_rest := b |})) w = Some (filter p b, w') /\
    w_cnt w' s CFiltered = w_cnt w s CFiltered + N.of_nat (length (filter (fun e => negb (p e)) b)) /\
    w_cnt w' s CSeek = w_cnt w s CSeek).
Proof.
  intros s f p b win w SF. revert w.
  (* one call: skips the leading rejected entries *)
  assert (STEP : forall b w, (forall e, In e b -> In e win) ->
    exists b1 w1, (forall fuel, (2 * length b + 2 <= fuel)%nat ->
      next fuel (IFilter s f (IBase {| b_win := win; b_rest := b |})) w =
        (match filter p b with [] => OFail | e :: _ => OOk e end, IFilter s f (IBase {| b_win := win; b_rest := b1 |}), w1)) /\
      (match filter p b with [] => b1 = [] | e :: r => filter p b1 = r /\ (length b1 < length b)%nat end) /\
      (forall e, In e b1 -> In e win) /\
      w_cnt w1 s CSeek = w_cnt w s CSeek /\
      w_cnt w1 s CFiltered + N.of_nat (length (filter (fun e => negb (p e)) b1)) =
      w_cnt w s CFiltered + N.of_nat (length (filter (fun e => negb (p e)) b))).
  { clear b. induction b as [|[k v] b IH]; intros w HI.
    - exists [], w. split.
      { intros [|[|n]] Hn; [cbn in Hn; lia|cbn in Hn; lia|]. reflexivity. }
      cbn. auto.
    - cbn [filter]. destruct (p (k, v)) eqn:EP; cbn [negb].
      + exists b, w. split.
        { intros [|[|n]] Hn; [cbn in Hn; lia|cbn in Hn; lia|].
          rewrite next_filter_base, SF by (apply HI; left; auto). rewrite EP. reflexivity. }
        split; [cbn; split; auto|]. split; [intros; apply HI; right; auto|]. split; auto.
      + destruct (IH (note (EvReject s k v) (bump s CFiltered w))) as (b1 & w1 & E & A & B & C & D).
        { intros; apply HI; right; auto. }
        exists b1, w1. split.
        { intros [|[|n]] Hn; [cbn in Hn; lia|cbn in Hn; lia|].
          rewrite next_filter_base, SF by (apply HI; left; auto). rewrite EP. apply E. cbn [length] in Hn. lia. }
        split.
        { destruct (filter p b); auto. destruct A. split; auto. cbn [length]. lia. }
        split; auto. split.
        { rewrite C. cbn. rewrite andb_false_r. reflexivity. }
        rewrite D. cbn. rewrite stage_eqb_refl. cbn [length andb]. lia. }
  remember (length b) as m eqn:Em. symmetry in Em. revert b Em.
  induction m as [m IH] using lt_wf_ind. intros b Em w HI.
  destruct (STEP b w HI) as (b1 & w1 & E & A & B & C & D).
  destruct (filter p b) as [|e r] eqn:EFb.
  - exists (2 * length b + 2)%nat. intros fuel Hf. exists w1. intros [|n] Hn; [lia|]. cbn [drain]. rewrite E by lia.
    split; auto. subst b1. split; auto. cbn in D. lia.
  - destruct A as [A1 A2]. destruct (IH (length b1)) with (b := b1) (w := w1) as [F HF]; auto; [lia|].
    exists (F + 2 * length b + 2)%nat. intros fuel Hf. destruct (HF fuel) as [w' Hw]; [lia|]. exists w'.
    intros [|n] Hn; [lia|]. cbn [drain]. rewrite E by lia. destruct (Hw n) as (X & Y & Z); [lia|].
    rewrite X, A1. split; auto. split; [rewrite Y; exact D|]. rewrite Z. exact C.
Qed.

Lemma next_ljoin_base : forall fu mf b cur fin win k v l w,
  next (S (S fu)) (ILjoin mf b cur fin (IBase {| b_win := win; b_rest := (k, v) :: l |})) w =
  let '(o, rb', rkv', fin', w2) := join_right (S fu) mf b cur fin k v w in
  (o, ILjoin mf rb' rkv' fin' (IBase {| b_win := win; b_rest := l |}), w2).
Proof. reflexivity. Qed.

Lemma next_remove_base : forall fu h rms win k v l w,
  next (S (S fu)) (IRemove h rms (IBase {| b_win := win; b_rest := (k, v) :: l |})) w =
  match match_key (S fu) h k v rms w with
  | None => (OHang, IRemove h rms (IBase {| b_win := win; b_rest := (k, v) :: l |}), w)
  | Some (true, rms', w2) => next (S fu) (IRemove h rms' (IBase {| b_win := win; b_rest := l |})) w2
  | Some (false, rms', w2) => (OOk (k, v), IRemove h rms' (IBase {| b_win := win; b_rest := l |}), w2)
  end.
Proof. reflexivity. Qed.

Lemma ljoin_drain : forall mf r l win w, strict r -> sorted win -> suffix l win -> mergeable mf r win ->
  forall b cur (fin : bool), b_win b = r -> (if fin then all_before r l else side_ok r cur (b_rest b) l) ->
  eventually (fun fuel => exists w', forall n, (length l < n)%nat ->
    drain fuel n (ILjoin mf b cur fin (IBase {| b_win := win; b_rest := l |})) w = Some (map (join_fn mf r) l, w') /\
    w_cnt w' StLjoin CMerged = w_cnt w StLjoin CMerged + N.of_nat (length (filter (fun e => key_in (fst e) r) l))).
Proof.
  intros mf r l win w SR SW SX MG. revert w SX. induction l as [|[k v] l IH]; intros w SX b cur fin HB HS.
  - exists 2%nat. intros [|[|f]] Hf; try lia. exists w. intros [|n] Hn; [cbn in Hn; lia|].
    split; [reflexivity|cbn; lia].
  - subst r. destruct (join_right_ok mf b cur fin ((k, v) :: l) k v w SR) as (b' & c' & f' & w1 & EJ & BW & _ & CJ & SJ); auto.
    { intros y [<-|Hy]; [apply ble_refl|]. apply (sorted_head (k, v) l win y); auto. }
    { left; reflexivity. }
    { intros rv Hrv. apply (MG k v rv); auto. eapply suffix_in; [exact SX|left; reflexivity]. }
    destruct (IH w1) with (b := b') (cur := c') (fin := f') as [F HF]; auto.
    { eapply suffix_cons; eauto. }
    { destruct f'; [eapply before_sub; [|exact SJ]|eapply side_sub; [|exact SJ]]; intros; right; auto. }
    exists (F + 3)%nat. intros fuel Hf. destruct (HF fuel) as [w' Hw]; [lia|]. exists w'.
    intros [|n] Hn; [lia|]. cbn [length] in Hn. destruct (Hw n) as [X Y]; [lia|].
    destruct fuel as [|[|fu]]; try lia.
    cbn [drain]. 
    rewrite next_ljoin_base. rewrite EJ by lia. rewrite X. split; [reflexivity|].
    rewrite Y, CJ. cbn [filter fst]. destruct (key_in k (b_win b)); cbn [length]; lia.
Qed.

Lemma remove_drain : forall h l win w rms, sorted win -> suffix l win -> Forall (rm_ok h l) rms ->
  eventually (fun fuel => exists w', forall n, (length l < n)%nat ->
    drain fuel n (IRemove h rms (IBase {| b_win := win; b_rest := l |})) w =
      Some (filter (fun e => negb (removed_by h (map re_table rms) e)) l, w') /\
    cnt_rm w' = cnt_rm w + N.of_nat (length (filter (removed_by h (map re_table rms)) l))).
Proof.
  intros h l win w rms SW SX FR.
  assert (STEP : forall l rms w, suffix l win -> Forall (rm_ok h l) rms ->
    exists l1 rms1 w1, (forall fuel, (2 * length l + 3 <= fuel)%nat ->
      next fuel (IRemove h rms (IBase {| b_win := win; b_rest := l |})) w =
        (match filter (fun e => negb (removed_by h (map re_table rms) e)) l with [] => OFail | e :: _ => OOk e end,
         IRemove h rms1 (IBase {| b_win := win; b_rest := l1 |}), w1)) /\
      suffix l1 win /\ Forall (rm_ok h l1) rms1 /\ Permutation.Permutation (map re_table rms1) (map re_table rms) /\
      (match filter (fun e => negb (removed_by h (map re_table rms) e)) l with
       | [] => l1 = []
       | _ :: r => filter (fun e => negb (removed_by h (map re_table rms) e)) l1 = r /\ (length l1 < length l)%nat end) /\
      cnt_rm w1 + N.of_nat (length (filter (removed_by h (map re_table rms)) l1)) =
      cnt_rm w + N.of_nat (length (filter (removed_by h (map re_table rms)) l))).
  { clear l rms w SX FR. induction l as [|[k v] l IH]; intros rms w SX FR.
    - exists [], rms, w. split; [intros [|[|n]] Hn; [cbn in Hn; lia|cbn in Hn; lia|reflexivity]|]. cbn. auto 10.
    - destruct (match_key_ok h k v ((k, v) :: l) rms w FR) as (m & rms1 & w1 & EM & FM & PM & _ & Em & _).
      { intros y [<-|Hy]; [apply ble_refl|]. apply (sorted_head (k, v) l win y); auto. }
      { left; reflexivity. }
      assert (FM' : Forall (rm_ok h l) rms1).
      { eapply Forall_impl; [|exact FM]. intros re Hre. eapply rm_ok_sub; [|exact Hre]. intros; right; auto. }
      assert (EQ : forall fu, (2 <= fu)%nat ->
        next (S (S fu)) (IRemove h rms (IBase {| b_win := win; b_rest := (k, v) :: l |})) w =
        if m then next (S fu) (IRemove h rms1 (IBase {| b_win := win; b_rest := l |})) w1
        else (OOk (k, v), IRemove h rms1 (IBase {| b_win := win; b_rest := l |}), w1)).
      { intros fu Hfu.
        rewrite next_remove_base. rewrite EM by lia. destruct m; reflexivity. }
      assert (CM : cnt_rm w1 = cnt_rm w + (if m then 1 else 0)) by (apply (match_key_cnt 2 h k v rms w m rms1 w1); apply EM; lia).
      cbn [filter]. rewrite <- Em. destruct m; cbn [negb].
      + destruct (IH rms1 w1 (suffix_cons _ _ _ SX) FM') as (l2 & rms2 & w2 & E2 & S2 & F2 & P2 & A2 & C2).
        rewrite !(filter_ext_perm h _ _ _ PM) in *.
        assert (PE : forall z, filter (removed_by h (map re_table rms1)) z = filter (removed_by h (map re_table rms)) z)
          by (intros z; apply filter_ext; intros e; apply removed_by_perm; exact PM).
        rewrite !PE in C2.
        exists l2, rms2, w2. split.
        { intros [|[|n]] Hn; [cbn in Hn; lia|cbn in Hn; lia|]. cbn [length] in Hn. rewrite EQ by lia. rewrite E2 by lia.
          reflexivity. }
        split; auto. split; auto. split; [eapply Permutation.Permutation_trans; eauto|]. split.
        { destruct (filter _ l) in A2 |- *; auto. destruct A2; split; auto. cbn [length]. lia. }
        cbn [length]. lia.
      + exists l, rms1, w1. split.
        { intros [|[|n]] Hn; [cbn in Hn; lia|cbn in Hn; lia|]. cbn [length] in Hn. apply EQ. lia. }
        split; [eapply suffix_cons; eauto|]. split; auto. split; auto. split; [split; auto; cbn [length]; lia|]. lia. }
  remember (length l) as m eqn:Em. symmetry in Em. revert l Em rms w SX FR.
  induction m as [m IH] using lt_wf_ind. intros l Em rms w SX FR.
  destruct (STEP l rms w SX FR) as (l1 & rms1 & w1 & E & S1 & F1 & P1 & A & C).
  destruct (filter (fun e => negb (removed_by h (map re_table rms) e)) l) as [|e r] eqn:EFb.
  - exists (2 * length l + 3)%nat. intros fuel Hf. exists w1. intros [|n] Hn; [lia|]. cbn [drain]. rewrite E by lia.
    split; auto. subst l1. cbn in C. lia.
  - destruct A as [A1 A2]. destruct (IH (length l1)) with (l := l1) (rms := rms1) (w := w1) as [F HF]; auto; [lia|].
    exists (F + 2 * length l + 3)%nat. intros fuel Hf. destruct (HF fuel) as [w' Hw]; [lia|]. exists w'.
    intros [|n] Hn; [lia|]. cbn [drain]. rewrite E by lia. destruct (Hw n) as (X & Y); [lia|].
    rewrite X. rewrite (filter_ext_perm h _ _ _ P1), A1. split; auto.
    rewrite Y, <- C. do 3 f_equal. apply filter_ext. intros z. apply removed_by_perm. exact P1.
Qed.
