(** Over any sorted table every call of an iterator comes to an end: what the filters
    seek to lies behind where they are. *)
From Verif Require Import Base BaseFacts ModelVarint VarintProofs ModelWdns SpecName SpecMerge ModelMerge ModelEntry SpecEntry EntryProofs PropsEntry ModelUnion ModelIter SpecIter IterProofs.
From Verif Require Import ModelQuery SpecQuery KeyProofs SelectProofs HiddenProofs.

Fixpoint depth (s : source) : nat :=
  match s with
  | SBase _ => 0
  | SFilter _ _ u | STimeout u | SRemove _ u | SLjoin _ _ u => S (depth u)
  end.

Lemma drop_head : forall k l e r, drop_before k l = e :: r -> blt (fst e) k = false.
Proof.
  intros k l e r. induction l as [|x l IH]; cbn [drop_before]; [discriminate|].
  destruct (blt (fst x) k) eqn:E; [exact IH|]. intro H. injection H as <- _. exact E.
Qed.
Lemma not_lt : forall a b, blt a b = false -> bytes_compare a b <> Lt.
Proof. intros a b H C. unfold blt in H. rewrite C in H. discriminate. Qed.

Lemma match_entry_ends : forall f key re w, match_entry (S (S f)) key re w <> None.
Proof.
  intros f key re w. cbn [match_entry]. destruct (re_finished re); [discriminate|]. destruct (re_it re) as [b|]; [|discriminate].
  destruct (bytes_compare (re_key re) key); [discriminate| |discriminate].
  unfold base_seek. cbv zeta. destruct (drop_before key (b_win b)) as [|e r] eqn:ED; cbv beta iota.
  - destruct (w_seek_end w (b_win b) key); discriminate.
  - cbn [base_next b_rest re_finished re_it re_key]. pose proof (not_lt _ _ (drop_head _ _ _ _ ED)).
    destruct (bytes_compare (fst e) key); congruence.
Qed.
Lemma match_key_ends : forall f h key val l w, match_key (S (S f)) h key val l w <> None.
Proof.
  intros f h key val l. induction l as [|re l IH]; intro w; [discriminate|]. cbn [match_key].
  destruct (open_entry h key re w) as [re1 w1]. pose proof (match_entry_ends f key re1 w1).
  destruct (match_entry (S (S f)) key re1 w1) as [[[[] re2] w2]|]; [discriminate| |congruence].
  specialize (IH w2). destruct (match_key (S (S f)) h key val l w2) as [[[[] [|m r']] w3]|]; congruence.
Qed.
Lemma join_ends : forall f mf rb rkv fin lk lv w, (forall k v1 v2, mf k v1 v2 <> Hang) ->
  fst (fst (fst (fst (join_right (S (S f)) mf rb rkv fin lk lv w)))) <> OHang /\
  forall k v, fst (fst (fst (fst (join_right (S (S f)) mf rb rkv fin lk lv w)))) = OOk (k, v) -> k = lk.
Proof.
  intros f mf rb rkv fin lk lv w HM.
  assert (HE : forall rv (rb1 : base_it) (x : option kv) w1, 
    let r := match mf lk lv rv with
             | Ok m => (OOk (lk, m), rb1, x, false, note (EvMerge StLjoin lk) (bump StLjoin CMerged w1))
             | Fail => (OFail, rb1, x, false, w1) | Abort => (OAbort, rb1, x, false, w1)
             | UB => (OUB, rb1, x, false, w1) | Hang => (OHang, rb1, x, false, w1) end in
    fst (fst (fst (fst r))) <> OHang /\ forall k v, fst (fst (fst (fst r))) = OOk (k, v) -> k = lk).
  { intros rv rb1 x w1 r. unfold r. pose proof (HM lk lv rv). destruct (mf lk lv rv); cbn [fst]; split; try congruence. }
  cbn [join_right]. destruct fin; [cbn [fst]; split; [discriminate|congruence]|].
  destruct (match rkv with Some e => (Some e, rb) | None => base_next rb end) as [[[rk rv]|] rb1]; [|cbn [fst]; split; [discriminate|congruence]].
  destruct (bytes_compare rk lk); [apply HE| |cbn [fst]; split; [discriminate|congruence]].
  unfold base_seek. cbv zeta. destruct (drop_before lk (b_win rb1)) as [|[k0 v0] r] eqn:ED; cbv beta iota.
  - destruct (w_seek_end w (b_win rb1) lk); cbn [base_next b_rest fst]; split; try discriminate; congruence.
  - cbn [base_next b_rest]. pose proof (not_lt _ _ (drop_head _ _ _ _ ED)) as HN. cbn [fst] in HN.
    destruct (bytes_compare k0 lk); [apply HE|congruence|cbn [fst]; split; [discriminate|congruence]].
Qed.

Section Over.
Variables (h : how) (t : table).

(** Seeking only ahead, from any key there is. *)
Definition fwd (ff : filter_fn) : Prop :=
  forall w k v v0 k', In (k, v0) (window h t) -> fst (ff w k v) = FSeek k' -> blt k k' = true.

Fixpoint forward (s : source) : Prop :=
  match s with
  | SBase t' => t' = t
  | SFilter _ ff u => fwd ff /\ forward u
  | STimeout u | SRemove _ u => forward u
  | SLjoin mf _ u => (forall k v1 v2, mf k v1 v2 <> Hang) /\ forward u
  end.

(** The iterator over [s] has [rest] of the window still to come. *)
Fixpoint place (s : source) (it : iter) (rest : table) : Prop :=
  match s, it with
  | SBase _, IBase b => b_win b = window h t /\ b_rest b = rest /\ exists pre, window h t = pre ++ rest
  | SFilter _ ff u, IFilter _ ff' i => ff' = ff /\ place u i rest
  | STimeout u, ITimeout i => place u i rest
  | SRemove _ u, IRemove _ _ i => place u i rest
  | SLjoin mf _ u, ILjoin mf' _ _ _ i => mf' = mf /\ place u i rest
  | _, _ => False
  end.

Lemma place_open : forall s, forward s -> place s (open h s) (window h t).
Proof.
  induction s as [t0|st ff u IH|u IH|rms u IH|mf rt u IH]; intro HF; cbn [forward place open] in *.
  - subst t0. cbn [base_open b_win b_rest]. split; [reflexivity|]. split; [reflexivity|]. exists []. reflexivity.
  - split; [reflexivity|]. apply IH; tauto.
  - auto.
  - auto.
  - split; [reflexivity|]. apply IH; tauto.
Qed.

Lemma place_seek : forall k s it w rest, place s it rest -> place s (snd (fst (seek k it w))) (drop_before k (window h t)).
Proof.
  intros k s. induction s as [t0|st ff u IH|u IH|rms u IH|mf rt u IH]; intros it w rest HP;
    destruct it as [b|st' ff' i|i|h' rms' i|mf' rb rk fin i]; cbn [place] in HP; try contradiction; cbn [seek].
  - unfold base_seek. cbn [fst snd place b_win b_rest]. destruct HP as (HW & _ & _). rewrite HW. split; [reflexivity|]. split; [reflexivity|]. apply drop_split.
  - destruct HP as [-> HP]. specialize (IH i w rest HP). destruct (seek k i w) as [[ok i1] w1]. cbn [fst snd place] in *. auto.
  - specialize (IH i w rest HP). destruct (seek k i w) as [[ok i1] w1]. cbn [fst snd place] in *. auto.
  - destruct (remove_entries_seek k rms' w) as [r' w0]. specialize (IH i w0 rest HP). destruct (seek k i w0) as [[ok i1] w1]. cbn [fst snd place] in *. auto.
  - destruct HP as [-> HP]. specialize (IH i w rest HP). destruct (seek k i w) as [[ok i1] w1]. destruct ok.
    + destruct (base_seek k rb w1) as [rok rb']. cbn [fst snd place] in *. auto.
    + cbn [fst snd place] in *. auto.
Qed.

Lemma drop_past : forall k0 v0 k pre rest, sorted (pre ++ (k0, v0) :: rest) -> blt k0 k = true ->
  exists mid, rest = mid ++ drop_before k (pre ++ (k0, v0) :: rest).
Proof.
  intros k0 v0 k pre rest HS HB.
  assert (E : drop_before k (pre ++ (k0, v0) :: rest) = drop_before k rest).
  { induction pre as [|x pre IH]; cbn [app drop_before fst].
    - rewrite HB. reflexivity.
    - inversion HS as [|? ? HS' HF]; subst. assert (HX : blt (fst x) k = true).
      { rewrite Forall_forall in HF. assert (HI : In (k0, v0) (pre ++ (k0, v0) :: rest)) by (apply in_or_app; right; left; reflexivity).
        specialize (HF _ HI). eapply ble_blt_trans; [exact HF|exact HB]. }
      rewrite HX. apply IH. exact HS'. }
  rewrite E. apply drop_split.
Qed.

Lemma window_sorted : sorted t -> sorted (window h t).
Proof. intro H. unfold window. apply sorted_filter. exact H. Qed.

Lemma place_window : forall s it rest, place s it rest -> exists pre, window h t = pre ++ rest.
Proof.
  induction s as [t0|st ff u IH|u IH|rms u IH|mf rt u IH]; intros it rest HP;
    destruct it as [b|st' ff' i|i|h' rms' i|mf' rb rk fin i]; cbn [place] in HP; try contradiction; try (eapply IH; apply HP). apply HP.
Qed.

(** What a call leaves: nothing is repeated, and what is delivered has been passed. *)
Definition moved (s : source) (rest : table) (o : out) (it' : iter) : Prop :=
  o <> OHang /\ exists mid rest', place s it' rest' /\ rest = mid ++ rest' /\
  match o with OOk (k, _) => exists v0 mid', mid = mid' ++ [(k, v0)] | _ => True end.

Lemma place_next : sorted t -> forall fuel s it w rest, forward s -> place s it rest -> (length rest + depth s + 3 <= fuel)%nat ->
  moved s rest (fst (fst (next fuel it w))) (snd (fst (next fuel it w))).
Proof.
  intro HSo. induction fuel as [|f IH]; intros s it w rest HF HP HL; [lia|].
  assert (STAY : forall o s' it', o <> OHang -> (forall e, o <> OOk e) -> place s' it' rest -> moved s' rest o it').
  { intros o s' it' H1 H2 H3. split; [exact H1|]. exists [], rest. split; [exact H3|]. split; [reflexivity|]. destruct o; auto. exfalso. eapply H2; reflexivity. }
  destruct s as [t0|st ff u|u|rms u|mf rt u]; destruct it as [b|st' ff' i|i|h' rms' i|mf' rb rk fin i]; cbn [place] in HP; try contradiction; cbn [next].
  - destruct HP as (HW & HR & pre & HP). unfold base_next. rewrite HR. destruct rest as [|[k v] rest]; cbn [fst snd].
    + apply STAY; try discriminate. cbn [place]. split; [exact HW|]. split; [exact HR|]. eauto.
    + split; [discriminate|]. exists [(k, v)], rest. split; [|split; [reflexivity|exists v, []; reflexivity]]. cbn [place b_win b_rest].
      split; [exact HW|]. split; [reflexivity|]. exists (pre ++ [(k, v)]). rewrite HP, <- app_assoc. reflexivity.
  - destruct HP as [-> HP]. pose proof HF as HF0. cbn [forward] in HF. destruct HF as [FW HF]. cbn [depth] in HL.
    pose proof (IH u i w rest HF HP ltac:(lia)) as HN. destruct (next f i w) as [[o1 u1] w1]. cbn [fst snd] in HN.
    destruct HN as (HH & mid & rest1 & HP1 & HE & HO).
    assert (LEFT : forall o, o <> OHang -> (forall e, o <> OOk e) -> moved (SFilter st ff u) rest o (IFilter st' ff u1)).
    { intros o H1 H2. split; [exact H1|]. exists mid, rest1. split; [cbn [place]; auto|]. split; [exact HE|]. destruct o; auto. exfalso. eapply H2; reflexivity. }
    destruct o1 as [[k v]| | | | |]; try (cbn [fst snd]; apply LEFT; congruence).
    destruct HO as (v0 & mid' & HO). 
    assert (AGAIN : forall u2 w2 rest2 mid2, place u u2 rest2 -> rest1 = mid2 ++ rest2 ->
      moved (SFilter st ff u) rest (fst (fst (next f (IFilter st' ff u2) w2))) (snd (fst (next f (IFilter st' ff u2) w2)))).
    { intros u2 w2 rest2 mid2 P2 E2. pose proof (f_equal (@length kv) HE) as L1. pose proof (f_equal (@length kv) E2) as L2.
      rewrite app_length in L1, L2. rewrite HO, app_length in L1. cbn [length] in L1.
      assert (P3 : place (SFilter st ff u) (IFilter st' ff u2) rest2) by (cbn [place]; auto).
      pose proof (IH (SFilter st ff u) (IFilter st' ff u2) w2 rest2 HF0 P3 ltac:(cbn [depth]; lia)) as (A & m3 & r3 & B & C & D).
      split; [exact A|]. exists (mid ++ mid2 ++ m3), r3. split; [exact B|]. split; [rewrite HE, E2, C, <- !app_assoc; reflexivity|].
      destruct (fst (fst (next f (IFilter st' ff u2) w2))) as [[k3 v3]| | | | |]; auto. destruct D as (v4 & m4 & ->). exists v4, (mid ++ mid2 ++ m4). rewrite <- !app_assoc. reflexivity. }
    destruct (ff w1 k v) as [fr w2] eqn:EF. destruct fr as [| |k'| | |]; try (cbn [fst snd]; apply LEFT; congruence).
    + cbn [fst snd]. split; [discriminate|]. exists mid, rest1. split; [cbn [place]; auto|]. split; [exact HE|]. eauto.
    + apply (AGAIN u1 _ rest1 []); auto.
    + destruct (place_window _ _ _ HP) as [pre HW]. 
      assert (HIn : In (k, v0) (window h t)).
      { rewrite HW, HE, HO. apply in_or_app. right. apply in_or_app. left. apply in_or_app. right. left. reflexivity. }
      assert (HB : blt k k' = true) by (apply (FW w1 k v v0 k' HIn); rewrite EF; reflexivity).
      pose proof (place_seek k' u u1 (note (EvSeek st' k') (bump st' CSeek w2)) rest1 HP1) as P2.
      destruct (seek k' u1 (note (EvSeek st' k') (bump st' CSeek w2))) as [[ok u2] w3]. cbn [fst snd] in P2.
      destruct (drop_past k v0 k' (pre ++ mid') rest1) as [mid2 E2]; [|exact HB|].
      { pose proof (window_sorted HSo) as X. rewrite HW, HE, HO in X. rewrite <- !app_assoc in *. exact X. }
      assert (W : window h t = (pre ++ mid') ++ (k, v0) :: rest1) by (rewrite HW, HE, HO, <- !app_assoc; reflexivity).
      assert (E3 : rest1 = mid2 ++ drop_before k' (window h t)) by (rewrite W; exact E2). clear E2. rename E3 into E2. destruct ok.
      * eapply AGAIN; [exact P2|exact E2].
      * cbn [fst snd]. split; [discriminate|]. exists (mid ++ mid2), (drop_before k' (window h t)). split; [cbn [place]; auto|]. split; [|exact I].
        rewrite HE, <- app_assoc, <- E2. reflexivity.
  - cbn [forward] in HF. cbn [depth] in HL. destruct (gettime w) as [now w1]. destruct (ts_cmp now (w_deadline w1)).
    + cbn [fst snd]. apply STAY; try discriminate. exact HP.
    + pose proof (IH u i w1 rest HF HP ltac:(lia)) as HN. destruct (next f i w1) as [[o1 u1] w2]. exact HN.
    + cbn [fst snd]. apply STAY; try discriminate. exact HP.
  - pose proof HF as HF0. cbn [forward] in HF. cbn [depth] in HL.
    pose proof (IH u i w rest HF HP ltac:(lia)) as HN. destruct (next f i w) as [[o1 u1] w1]. cbn [fst snd] in HN.
    destruct HN as (HH & mid & rest1 & HP1 & HE & HO).
    destruct o1 as [[k v]| | | | |]; try (cbn [fst snd]; split; [congruence|]; exists mid, rest1; auto).
    destruct HO as (v0 & mid' & HO).
    destruct f as [|[|f]]; [lia|lia|]. pose proof (match_key_ends f h' k v rms' w1) as HM.
    destruct (match_key (S (S f)) h' k v rms' w1) as [[[[] r'] w2]|]; [| |congruence].
    + pose proof (f_equal (@length kv) HE) as L1. rewrite app_length, HO, app_length in L1. cbn [length] in L1.
      assert (P3 : place (SRemove rms u) (IRemove h' r' u1) rest1) by exact HP1.
      pose proof (IH (SRemove rms u) (IRemove h' r' u1) w2 rest1 HF0 P3 ltac:(cbn [depth]; lia)) as (A & m3 & r3 & B & C & D).
      split; [exact A|]. exists (mid ++ m3), r3. split; [exact B|]. split; [rewrite HE, C, <- app_assoc; reflexivity|].
      destruct (fst (fst (next (S (S f)) (IRemove h' r' u1) w2))) as [[k3 v3]| | | | |]; auto. destruct D as (v4 & m4 & ->). exists v4, (mid ++ m4). rewrite <- !app_assoc. reflexivity.
    + cbn [fst snd]. split; [discriminate|]. exists mid, rest1. split; [exact HP1|]. split; [exact HE|]. eauto.
  - destruct HP as [-> HP]. cbn [forward] in HF. destruct HF as [HM HF]. cbn [depth] in HL.
    pose proof (IH u i w rest HF HP ltac:(lia)) as HN. destruct (next f i w) as [[o1 u1] w1]. cbn [fst snd] in HN.
    destruct HN as (HH & mid & rest1 & HP1 & HE & HO).
    destruct o1 as [[k v]| | | | |]; try (cbn [fst snd]; split; [congruence|]; exists mid, rest1; split; [cbn [place]; auto|]; auto).
    destruct HO as (v0 & mid' & HO). destruct f as [|[|f]]; [lia|lia|].
    pose proof (join_ends f mf rb rk fin k v w1 HM) as [J1 J2].
    destruct (join_right (S (S f)) mf rb rk fin k v w1) as [[[[o rb'] rkv'] fin'] w2]. cbn [fst snd] in *.
    split; [exact J1|]. exists mid, rest1. split; [cbn [place]; auto|]. split; [exact HE|]. destruct o as [[k2 v2]| | | | |]; auto.
    rewrite (J2 _ _ eq_refl). eauto.
Qed.

Lemma moved_len : forall s rest o it', moved s rest o it' -> exists rest', place s it' rest' /\ (length rest' <= length rest)%nat /\
  match o with OOk (k, _) => (length rest' < length rest)%nat /\ exists v0, In (k, v0) rest | _ => True end.
Proof.
  intros s rest o it' (_ & mid & rest' & HP & HE & HO). exists rest'. split; [exact HP|]. subst rest. rewrite app_length. split; [lia|].
  destruct o as [[k v]| | | | |]; auto. destruct HO as (v0 & m & ->). rewrite app_length. cbn [length]. split; [lia|]. exists v0.
  apply in_or_app. left. apply in_or_app. right. left. reflexivity.
Qed.

Definition is_entry (r : qres) : bool := match r with QEntry _ => true | _ => false end.

Variable HD : forall k v0 v, In (k, v0) (window h t) -> entry_decode k v <> Hang.

Lemma place_in : forall s it rest e, place s it rest -> In e rest -> In e (window h t).
Proof. intros s it rest e HP HI. destruct (place_window _ _ _ HP) as [pre ->]. apply in_or_app. right. exact HI. Qed.

Lemma direct_ends : sorted t -> forall n fuel s it w rest, forward s -> place s it rest -> (length rest + depth s + 3 <= fuel)%nat -> (length rest < n)%nat ->
  fst (fst (direct_loop n fuel it w)) <> QHang /\
  exists rest', place s (snd (fst (direct_loop n fuel it w))) rest' /\ (length rest' + (if is_entry (fst (fst (direct_loop n fuel it w))) then 1 else 0) <= length rest)%nat.
Proof.
  intro HSo. induction n as [|n IH]; intros fuel s it w rest HF HP HL HN; [lia|]. cbn [direct_loop].
  pose proof (place_next HSo fuel s it w rest HF HP HL) as HM. destruct (next fuel it w) as [[o it'] w']. cbn [fst snd] in HM.
  pose proof (proj1 HM) as HH. destruct (moved_len _ _ _ _ HM) as (rest' & HP' & HLe & HO).
  destruct o as [[k v]| | | | |]; try congruence; try (cbn [fst snd is_entry]; split; [discriminate|]; exists rest'; split; [exact HP'|lia]).
  destruct HO as [HLt [v0 HI]]. pose proof (HD k v0 v (place_in _ _ _ _ HP HI)) as HX.
  destruct (entry_decode k v) as [e| | | |]; try congruence; try (cbn [fst snd is_entry]; split; [discriminate|]; exists rest'; split; [exact HP'|lia]).
  destruct (IH fuel s it' w' rest' HF HP' ltac:(lia) ltac:(lia)) as [A (r & B & C)]. split; [exact A|]. exists r. split; [exact B|]. lia.
Qed.
End Over.

(** ** The loop of queries that go through an index *)

Lemma union_check_ends : forall f want byte bit m, (length m < f)%nat -> union_check_blocks f want byte bit m <> Hang.
Proof.
  induction f as [|f IH]; intros want byte bit m H; [lia|]. cbn [union_check_blocks]. destruct m as [|w [|bl rest]]; try discriminate.
  destruct (_ <? _); [discriminate|]. destruct (negb _); [apply IH; rewrite skipn_length; cbn [length] in H; lia|].
  destruct (_ <? _); [discriminate|]. unfold rd. destruct (nth_error _ _); discriminate.
Qed.
Lemma test_ends : forall tb ty m, rrtype_test tb ty m <> Hang.
Proof.
  intros tb ty m. unfold rrtype_test, rrtype_union_check. destruct m as [|a [|b [|c m]]]; try discriminate.
  - destruct (_ =? _); [discriminate|]. destruct (_ =? _); discriminate.
  - apply union_check_ends. lia.
Qed.
Lemma lookup_key_ends : forall q tb k v, index_lookup_key q tb k v <> Hang.
Proof.
  intros q tb k v. unfold index_lookup_key. cbv zeta.
  assert (HT : (if q_do_rrtype q then rrtype_test tb (q_rrtype q mod u16) v else Ok true) <> Hang) by (destruct (q_do_rrtype q); [apply test_ends|discriminate]).
  destruct (if q_do_rrtype q then _ else _) as [x| | | |]; cbn [bind]; try congruence. destruct (negb x); [discriminate|].
  assert (HR : wdns_reverse_name (skipn 1 k) (blen k - 1) <> Hang).
  { unfold wdns_reverse_name. destruct (_ =? _); [discriminate|]. apply reverse_no_hang. lia. }
  destruct (wdns_reverse_name _ _) as [nm| | | |]; cbn [bind]; try congruence.
  destruct (_ && _); [|discriminate]. unfold add_rrtype_to_key. destruct (_ =? _); discriminate.
Qed.

Lemma window_incl : forall h l e, In e (window h l) -> In e l.
Proof. intros h l e H. unfold window in H. apply filter_In in H. apply H. Qed.
Lemma window_length : forall h l, (length (window h l) <= length l)%nat.
Proof. intros h l. unfold window. induction l as [|x l IH]; [apply le_n|]. cbn [filter]. destruct (in_window h (fst x)); cbn [length]; lia. Qed.

Section Two.
Variables (t ti : table) (hi : how).
Hypotheses (HS : sorted t) (HSi : sorted ti).
Hypothesis HD : forall k v0 v, In (k, v0) t -> entry_decode k v <> Hang.
Variables (s si : source).
Hypothesis HF : forall h, forward h t s.
Hypothesis HFi : forward hi ti si.

(** What is left of the index, and of the lookup under way. *)
Definition spot (idx : iter) (cur : option iter) (mi : nat) (mc : option nat) : Prop :=
  (exists resti, place hi ti si idx resti /\ length resti = mi /\ (mi <= length ti)%nat) /\
  match cur, mc with
  | None, None => True
  | Some it, Some m => exists h rest, place h t s it rest /\ length rest = m /\ (m <= length t)%nat
  | _, _ => False
  end.
Definition rounds (mi : nat) (mc : option nat) : nat := (mi * (length t + 2) + match mc with None => 0 | Some m => S m end)%nat.
Definition due (mi : nat) (mc : option nat) : nat := (mi * length t + match mc with None => 0 | Some m => m end)%nat.

Lemma indirect_ends : forall n fuel q tb idx cur w mi mc, spot idx cur mi mc ->
  (length t + depth s + 3 <= fuel)%nat -> (length ti + depth si + 3 <= fuel)%nat -> (rounds mi mc < n)%nat ->
  let '(r, idx', cur', _) := indirect_loop n fuel q s tb idx cur w in
  r <> QHang /\ exists mi' mc', spot idx' cur' mi' mc' /\ (rounds mi' mc' <= rounds mi mc)%nat /\ (due mi' mc' + (if is_entry r then 1 else 0) <= due mi mc)%nat.
Proof using HS HSi HD HF HFi.
  induction n as [|n IH]; intros fuel q tb idx cur w mi mc SP L1 L2 HN; [lia|]. cbn [indirect_loop].
  destruct SP as [(resti & PI & LI & LIB) SC]. destruct cur as [it|], mc as [m|]; try contradiction.
  - destruct SC as (h & rest & P & LR & LRB).
    pose proof (place_next h t HS fuel s it w rest (HF h) P ltac:(lia)) as HM. destruct (next fuel it w) as [[o it'] w']. cbn [fst snd] in HM.
    pose proof (proj1 HM) as HH. destruct (moved_len _ _ _ _ _ _ HM) as (rest' & P' & HLe & HO).
    assert (KEEP : forall r, r <> QHang -> is_entry r = false -> r <> QHang /\ exists mi' mc', spot idx (Some it') mi' mc' /\ (rounds mi' mc' <= rounds mi (Some m))%nat /\ (due mi' mc' + (if is_entry r then 1 else 0) <= due mi (Some m))%nat).
    { intros r H1 H2. split; [exact H1|]. rewrite H2. exists mi, (Some (length rest')). split; [|unfold rounds, due; lia].
      split; [exists resti; auto|]. exists h, rest'. split; [exact P'|]. split; [reflexivity|lia]. }
    destruct o as [[k v]| | | | |]; try congruence; try (apply KEEP; [discriminate|reflexivity]).
    + destruct HO as [HLt [v0 HI]]. pose proof (HD k v0 v (window_incl _ _ _ (place_in _ _ _ _ _ _ P HI))) as HX.
      assert (SP' : spot idx (Some it') mi (Some (length rest'))).
      { split; [exists resti; auto|]. exists h, rest'. split; [exact P'|]. split; [reflexivity|lia]. }
      destruct (entry_decode k v) as [e| | | |]; try congruence; try (apply KEEP; [discriminate|reflexivity]).
      * split; [discriminate|]. exists mi, (Some (length rest')). split; [exact SP'|]. unfold rounds, due. cbn [is_entry]. lia.
      * specialize (IH fuel q tb idx (Some it') w' mi _ SP' L1 L2 ltac:(unfold rounds in *; lia)).
        destruct (indirect_loop n fuel q s tb idx (Some it') w') as [[[r i2] c2] w2]. destruct IH as (A & mi' & mc' & B & C & D).
        split; [exact A|]. exists mi', mc'. split; [exact B|]. unfold rounds, due in *. lia.
    + assert (SP' : spot idx None mi None) by (split; [exists resti; auto|exact I]).
      specialize (IH fuel q tb idx None w' mi None SP' L1 L2 ltac:(unfold rounds in *; lia)).
      destruct (indirect_loop n fuel q s tb idx None w') as [[[r i2] c2] w2]. destruct IH as (A & mi' & mc' & B & C & D).
      split; [exact A|]. exists mi', mc'. split; [exact B|]. unfold rounds, due in *. lia.
  - pose proof (place_next hi ti HSi fuel si idx w resti HFi PI ltac:(lia)) as HM. destruct (next fuel idx w) as [[o idx'] w']. cbn [fst snd] in HM.
    pose proof (proj1 HM) as HH. destruct (moved_len _ _ _ _ _ _ HM) as (rest' & P' & HLe & HO).
    assert (KEEP : forall r, r <> QHang -> is_entry r = false -> r <> QHang /\ exists mi' mc', spot idx' None mi' mc' /\ (rounds mi' mc' <= rounds mi None)%nat /\ (due mi' mc' + (if is_entry r then 1 else 0) <= due mi None)%nat).
    { intros r H1 H2. split; [exact H1|]. rewrite H2. exists (length rest'), None.
      assert (LX : (length rest' <= mi)%nat) by lia.
      pose proof (Nat.mul_le_mono_r _ _ (length t + 2) LX). pose proof (Nat.mul_le_mono_r _ _ (length t) LX).
      split; [split; [exists rest'; split; [exact P'|]; split; [reflexivity|lia]|exact I]|unfold rounds, due; lia]. }
    destruct o as [[k v]| | | | |]; try congruence; try (apply KEEP; [discriminate|reflexivity]).
    destruct HO as [HLt _]. pose proof (lookup_key_ends q tb k v) as HX.
    assert (LX : (S (length rest') <= mi)%nat) by lia.
    pose proof (Nat.mul_le_mono_r _ _ (length t + 2) LX) as M1. pose proof (Nat.mul_le_mono_r _ _ (length t) LX) as M2. cbn [Nat.mul] in M1, M2.
    destruct (index_lookup_key q tb k v) as [[fk|]| | | |]; try congruence; try (apply KEEP; [discriminate|reflexivity]).
    + pose proof (window_length (HPrefix fk) t) as WL.
      assert (SP' : spot idx' (Some (open (HPrefix fk) s)) (length rest') (Some (length (window (HPrefix fk) t)))).
      { split; [exists rest'; split; [exact P'|]; split; [reflexivity|lia]|]. exists (HPrefix fk), (window (HPrefix fk) t).
        split; [apply place_open; apply HF|]. split; [reflexivity|exact WL]. }
      specialize (IH fuel q tb idx' _ w' _ _ SP' L1 L2 ltac:(unfold rounds in *; lia)).
      destruct (indirect_loop n fuel q s tb idx' (Some (open (HPrefix fk) s)) w') as [[[r i2] c2] w2]. destruct IH as (A & mi' & mc' & B & C & D).
      split; [exact A|]. exists mi', mc'. split; [exact B|]. unfold rounds, due in *. lia.
    + assert (SP' : spot idx' None (length rest') None) by (split; [exists rest'; split; [exact P'|]; split; [reflexivity|lia]|exact I]).
      specialize (IH fuel q tb idx' None w' _ None SP' L1 L2 ltac:(unfold rounds in *; lia)).
      destruct (indirect_loop n fuel q s tb idx' None w') as [[[r i2] c2] w2]. destruct IH as (A & mi' & mc' & B & C & D).
      split; [exact A|]. exists mi', mc'. split; [exact B|]. unfold rounds, due in *. lia.
Qed.

Definition entries (l : list qres) : nat := length (filter is_entry l).

Lemma calls_indirect : forall fuel tb ts qi w mi mc,
  (length t + depth s + 3 <= fuel)%nat -> (length ti + depth si + 3 <= fuel)%nat -> (rounds mi mc < fuel)%nat ->
  qi_source qi = s -> (exists idx cur, qi_kind qi = Indirect tb idx cur /\ spot idx cur mi mc) ->
  ~ In QHang (timed_calls fuel ts qi w) /\ (entries (timed_calls fuel ts qi w) <= due mi mc)%nat.
Proof using HS HSi HD HF HFi.
  intros fuel tb. induction ts as [|tm ts IH]; intros qi w mi mc L1 L2 LN EQ (idx & cur & EK & SP).
  { cbn. split; [tauto|lia]. }
  cbn [timed_calls]. unfold qnext. cbn [set_timing qi_kind qi_source]. rewrite EK.
  match goal with |- context [indirect_loop fuel fuel ?a ?b tb idx cur ?c] => pose proof (indirect_ends fuel fuel a tb idx cur c mi mc SP L1 L2 LN) as HE end.
  rewrite EQ. match goal with |- context [indirect_loop fuel fuel ?a ?b tb idx cur ?c] => destruct (indirect_loop fuel fuel a b tb idx cur c) as [[[r i2] c2] w2] end.
  destruct HE as (A & mi' & mc' & B & C & D).
  match goal with |- context [timed_calls fuel ts ?x w2] => set (qi2 := x) in * end.
  edestruct (IH qi2 w2 mi' mc' L1 L2 ltac:(lia) eq_refl) as [X Y].
  { exists i2, c2. split; [reflexivity|exact B]. }
  clearbody qi2. split; [intros [E|E]; [congruence|exact (X E)]|]. unfold entries in *. cbn [filter]. destruct (is_entry r); cbn [length]; lia.
Qed.

End Two.

Lemma calls_direct : forall t s h, sorted t -> (forall k v0 v, In (k, v0) t -> entry_decode k v <> Hang) -> forward h t s -> forall fuel ts qi w rest,
  (length t + depth s + 3 <= fuel)%nat ->
  (length rest <= length t)%nat -> (exists it, qi_kind qi = Direct it /\ place h t s it rest) ->
  ~ In QHang (timed_calls fuel ts qi w) /\ (entries (timed_calls fuel ts qi w) <= length rest)%nat.
Proof.
  intros t s h HS HD HF fuel. induction ts as [|tm ts IH]; intros qi w rest L1 LR (it & EK & P).
  { cbn. split; [tauto|lia]. }
  cbn [timed_calls]. unfold qnext. cbn [set_timing qi_kind qi_source]. rewrite EK.
  match goal with |- context [direct_loop fuel fuel it ?c] => pose proof (direct_ends h t (fun k v0 v H => HD k v0 v (window_incl _ _ _ H)) HS fuel fuel s it c rest HF P ltac:(lia) ltac:(lia)) as HE;
    destruct (direct_loop fuel fuel it c) as [[r it'] w'] end. cbn [fst snd] in HE.
  destruct HE as (A & rest' & B & C).
  match goal with |- context [timed_calls fuel ts ?x w'] => set (qi2 := x) in * end.
  edestruct (IH qi2 w' rest' L1 ltac:(destruct (is_entry r); lia)) as [X Y]; [exists it'; split; [reflexivity|exact B]|].
  clearbody qi2. split; [intros [E|E]; [congruence|exact (X E)]|]. unfold entries in *. cbn [filter]. destruct (is_entry r); cbn [length]; lia.
Qed.
