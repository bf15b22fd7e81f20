(** Proofs about dnstable_lookup and dnstable_dump: iteration and output. *)
From Verif Require Import Str BaseFacts ModelEntry ModelIter ModelQuery SpecIter SpecQuery ModelReader SpecReader FuelProofs ModelFormat ModelLookup SpecLookup.

(** ** One step of an iterator that lists entries *)

Lemma firstn_pad : forall A (x : A) m l k, (m <= k)%nat -> firstn m (l ++ repeat x (S k)) = firstn m (l ++ repeat x k).
Proof.
  intros A x. induction m as [|m IHm]; intros l k Hk; [reflexivity|]. destruct l as [|y l].
  - destruct k as [|k]; [lia|]. cbn [app repeat firstn]. f_equal. apply (IHm [] k). lia.
  - cbn [app firstn]. f_equal. apply IHm. lia.
Qed.

Lemma listing_cons : forall r rs es, r :: rs = listing es (S (length rs)) ->
  (exists e es', r = QEntry e /\ es = e :: es' /\ rs = listing es' (length rs)) \/ (r = QEnd /\ es = [] /\ rs = listing [] (length rs)).
Proof.
  intros r rs es H. unfold listing in *. destruct es as [|e es].
  - right. cbn [map app repeat firstn] in H. injection H as -> H. auto.
  - left. cbn [map app firstn] in H. injection H as -> H. exists e, es. split; [reflexivity|]. split; [reflexivity|].
    rewrite <- (firstn_pad qres QEnd) by lia. exact H.
Qed.

Lemma answered_cons : forall r rs, r <> QTimeout -> answered (r :: rs) = r :: answered rs.
Proof. intros r rs H. destruct r; try reflexivity; congruence. Qed.

(** The call gives [r] and leaves [qi'], [w'], whatever bound is large enough. *)
Definition call (qi : qiter) (w : world) (r : qres) (qi' : qiter) (w' : world) : Prop :=
  eventually (fun fuel => qnext fuel qi w = (r, qi', w')).

Lemma drains_step : forall qi w es t, drains qi w es ->
  exists r qi' w', call (set_timing t qi) w r qi' w' /\
    ((exists e es', r = QEntry e /\ es = e :: es' /\ drains qi' w' es') \/ (r = QEnd /\ es = [] /\ drains qi' w' []) \/
     (r = QTimeout /\ drains qi' w' es)).
Proof.
  intros qi w es t D. destruct (D [t]) as (F & H1). specialize (H1 F (le_n F)). cbn [timed_calls] in H1.
  destruct (qnext F (set_timing t qi) w) as [[r qi'] w'] eqn:E. exists r, qi', w'.
  assert (NH : r <> QHang).
  { intro C. subst r. cbn in H1. destruct es; discriminate H1. }
  assert (M : forall f, (F <= f)%nat -> qnext f (set_timing t qi) w = (r, qi', w')) by (intros f Hf; exact (qnext_mono _ _ _ _ _ _ E NH f Hf)).
  split; [exists F; exact M|].
  assert (R : forall ts, eventually (fun fuel => answered (r :: timed_calls fuel ts qi' w') = listing es (length (answered (r :: timed_calls fuel ts qi' w'))))).
  { intro ts. destruct (D (t :: ts)) as (F2 & H2). exists (Nat.max F F2). intros f Hf. specialize (H2 f ltac:(lia)).
    cbn [timed_calls] in H2. rewrite (M f ltac:(lia)) in H2. exact H2. }
  clear D. assert (TD : {r = QTimeout} + {r <> QTimeout}) by (destruct r; auto; right; discriminate). destruct TD as [->|NT].
  - right. right. split; [reflexivity|]. intro ts. exact (R ts).
  - cbn in H1. assert (A1 : answered [r] = [r]) by (destruct r; try reflexivity; congruence). unfold answered in A1. cbn in A1. rewrite A1 in H1.
    apply (listing_cons r []) in H1. destruct H1 as [(e & es' & -> & -> & _)|(-> & -> & _)].
    + left. exists e, es'. split; [reflexivity|]. split; [reflexivity|]. intro ts. destruct (R ts) as (F2 & H2). exists F2. intros f Hf.
      specialize (H2 f Hf). rewrite answered_cons in H2 by discriminate. cbn [length] in H2. apply listing_cons in H2.
      destruct H2 as [(e2 & es2 & E1 & E2 & H2)|(C & _)]; [|discriminate C]. injection E2 as <- <-. exact H2.
    + right. left. split; [reflexivity|]. split; [reflexivity|]. intro ts. destruct (R ts) as (F2 & H2). exists F2. intros f Hf.
      specialize (H2 f Hf). rewrite answered_cons in H2 by discriminate. cbn [length] in H2. apply listing_cons in H2.
      destruct H2 as [(e2 & es2 & _ & C & _)|(_ & _ & H2)]; [discriminate C|exact H2].
Qed.

Lemma set_timing_keep : forall qi, set_timing TKeep qi = qi.
Proof. intros []. reflexivity. Qed.

Lemma lists_drains : forall q qi es w, lists q (Ok qi) es -> w_offset w <= q_offset q -> drains qi w (skipn (N.to_nat (w_offset w)) es).
Proof.
  intros q qi es w (qi' & E & H) HW ts. injection E as <-. destruct (H w ts HW) as (F & G). exists F. intros f Hf. apply (G f Hf).
Qed.

(** The calls of an iterator without timeout or deadline do not time out. *)
Definition steady (qi : qiter) (w : world) : Prop := forall n, eventually (fun fuel => ~ In QTimeout (timed_calls fuel (repeat TKeep n) qi w)).

Lemma lists_steady : forall q qi es w, lists q (Ok qi) es -> w_offset w <= q_offset q ->
  q_do_timeout q = false -> q_do_deadline q = false -> steady qi w.
Proof.
  intros q qi es w (qi' & E & H) HW T1 T2 n. injection E as <-. destruct (H w (repeat TKeep n) HW) as (F & G). exists F. intros f Hf.
  apply (G f Hf); auto. unfold untouched. apply Forall_forall. intros x Hx. apply repeat_spec in Hx. congruence.
Qed.

Lemma steady_step : forall qi w r qi' w', steady qi w -> call qi w r qi' w' -> r <> QTimeout /\ steady qi' w'.
Proof.
  intros qi w r qi' w' H (F & C). split.
  - destruct (H 1%nat) as (F1 & H1). specialize (H1 (Nat.max F F1) ltac:(lia)). cbn [repeat timed_calls] in H1.
    rewrite set_timing_keep, (C (Nat.max F F1) ltac:(lia)) in H1. intro E. apply H1. left. congruence.
  - intro n. destruct (H (S n)) as (F1 & H1). exists (Nat.max F F1). intros f Hf. specialize (H1 f ltac:(lia)). cbn [repeat timed_calls] in H1.
    rewrite set_timing_keep, (C f ltac:(lia)) in H1. intro I. apply H1. right. exact I.
Qed.

(** ** The inner loop of dnstable_lookup *)

Definition prints (lib : fmtlib) (o : opts) (e : entry) (s : bytes) : Prop := print_entry lib o e = Ok s.

Lemma add_mod_u64 : forall a b, (a mod u64 + b) mod u64 = (a + b) mod u64.
Proof. intros a b. apply N.add_mod_idemp_l. discriminate. Qed.

Lemma dump_entries_ok : forall lib o es texts, Forall2 (prints lib o) es texts -> forall qi w t, drains qi w es ->
  exists k timed qi' w', (k <= length es)%nat /\ (timed = false -> k = length es) /\ drains qi' w' (skipn k es) /\
    (t = TKeep -> steady qi w -> timed = false) /\
    eventually (fun f => forall n, (length es < n)%nat -> forall count out, count < u64 ->
      dump_entries n f lib o (set_timing t qi) w count out =
        Ok (timed, (count + N.of_nat k) mod u64, out ++ concat (firstn k texts), qi', w')).
Proof.
  intros lib o es texts H. induction H as [|e s es texts He _ IH]; intros qi w t D;
    destruct (drains_step qi w _ t D) as (r & qi1 & w1 & C & [(e1 & es1 & -> & E & D1)|[(-> & E & D1)|(-> & D1)]]); try discriminate E.
  - exists O, false, qi1, w1. split; [cbn; lia|]. split; [reflexivity|]. split; [exact D1|]. split; [reflexivity|].
    destruct C as (F & C). exists F. intros f Hf n Hn count out HC. destruct n as [|n]; [lia|]. cbn [dump_entries]. rewrite (C f Hf).
    rewrite app_nil_r, N.add_0_r, N.mod_small by exact HC. reflexivity.
  - exists O, true, qi1, w1. split; [cbn; lia|]. split; [discriminate|]. split; [exact D1|]. split.
    { intros -> S. rewrite set_timing_keep in C. destruct (steady_step _ _ _ _ _ S C) as [N _]. congruence. }
    destruct C as (F & C). exists F. intros f Hf n Hn count out HC. destruct n as [|n]; [lia|]. cbn [dump_entries]. rewrite (C f Hf).
    rewrite app_nil_r, N.add_0_r, N.mod_small by exact HC. reflexivity.
  - injection E as <- <-. destruct (IH qi1 w1 TKeep D1) as (k & timed & qi2 & w2 & K1 & K2 & K3 & K4 & F2 & K5).
    exists (S k), timed, qi2, w2. split; [cbn [length]; lia|]. split; [intro T; cbn [length]; rewrite (K2 T); reflexivity|].
    split; [exact K3|]. split.
    { intros -> S. rewrite set_timing_keep in C. destruct (steady_step _ _ _ _ _ S C) as [_ S1]. auto. }
    destruct C as (F & C). exists (Nat.max F F2). intros f Hf n Hn count out HC. destruct n as [|n]; [lia|]. cbn [dump_entries].
    rewrite (C f ltac:(lia)). unfold prints in He. rewrite He. cbn [bind]. cbn [length] in Hn.
    rewrite set_timing_keep in K5. rewrite (K5 f ltac:(lia) n ltac:(lia)) by (apply N.mod_lt; discriminate).
    rewrite add_mod_u64. cbn [firstn concat]. rewrite <- app_assoc. replace (count + 1 + N.of_nat k) with (count + N.of_nat (S k)) by lia. reflexivity.
  - exists O, true, qi1, w1. split; [cbn; lia|]. split; [discriminate|]. split; [exact D1|]. split.
    { intros -> S. rewrite set_timing_keep in C. destruct (steady_step _ _ _ _ _ S C) as [N _]. congruence. }
    destruct C as (F & C). exists F. intros f Hf n Hn count out HC. destruct n as [|n]; [lia|]. cbn [dump_entries]. rewrite (C f Hf).
    rewrite app_nil_r, N.add_0_r, N.mod_small by exact HC. reflexivity.
Qed.

(** ** The outer loop *)

Definition beyond (g t : timespec) : bool := negb (tv_sec g =? 0)%Z && (match ts_cmp t g with Gt => true | _ => false end).

(** The clock after the statistics of a round. *)
Definition stat_clk (stats : N) (clk : clock) : clock := if 0 <? stats then later 1 clk else clk.
Lemma dump_stats_clk : forall stats qi w start count clk,
  dump_stats stats qi w start count clk = (fst (dump_stats stats qi w start count clk), stat_clk stats clk).
Proof.
  intros. unfold dump_stats, stat_clk. destruct (0 <? stats); [|reflexivity].
  destruct (if 1 <? stats then stats_by_stage qi w else stats_by_category qi w). reflexivity.
Qed.
Lemma stat_clk_at : forall stats clk i, exists j, (i <= j)%nat /\ stat_clk stats clk i = clk j.
Proof.
  intros stats clk i. unfold stat_clk. destruct (0 <? stats); [|exists i; split; [lia|reflexivity]]. exists (S i). split; [lia|reflexivity].
Qed.
Lemma later_at : forall clk i, later 1 clk i = clk (S i).
Proof. reflexivity. Qed.

Lemma dump_rounds_ok : forall lib o stats gd gi start rounds es texts, Forall2 (prints lib o) es texts ->
  forall qi w t, drains qi w es -> forall clk,
  (exists k timed, (k <= length es)%nat /\ (timed = false -> k = length es) /\
     (timed = true -> tv_sec gi = 0%Z \/ exists i, beyond gd (clk i) = true) /\
     (t = TKeep -> steady qi w -> timed = false) /\
     eventually (fun f => forall count out err, count < u64 -> exists err2, (stats = 0 -> err2 = []) /\
       dump_rounds rounds f lib o stats gd gi start (set_timing t qi) w clk count out err =
         Ok (out ++ concat (firstn k texts), err ++ err2 ++ summary lib o timed ((count + N.of_nat k) mod u64)))) \/
  ((rounds = 0%nat \/ (tv_sec gi <> 0%Z /\ ~ (t = TKeep /\ steady qi w) /\ exists j, (rounds <= S j)%nat /\ beyond gd (clk j) = false)) /\
   eventually (fun f => forall count out err, count < u64 ->
     dump_rounds rounds f lib o stats gd gi start (set_timing t qi) w clk count out err = Hang)).
Proof.
  intros lib o stats gd gi start. induction rounds as [|rounds IH]; intros es texts HP qi w t D clk.
  { right. split; [left; reflexivity|]. exists O. reflexivity. }
  destruct (dump_entries_ok lib o es texts HP qi w t D) as (k & timed & qi1 & w1 & K1 & K2 & K3 & K4 & F & K5).
  assert (LEN : length texts = length es) by (clear - HP; induction HP; cbn; lia).
  assert (STOP : timed = false \/ tv_sec gi = 0%Z \/ beyond gd (stat_clk stats clk O) = true -> eventually (fun f => forall count out err, count < u64 -> exists err2, (stats = 0 -> err2 = []) /\
       dump_rounds (S rounds) f lib o stats gd gi start (set_timing t qi) w clk count out err =
         Ok (out ++ concat (firstn k texts), err ++ err2 ++ summary lib o timed ((count + N.of_nat k) mod u64)))).
  { intro HS. exists (Nat.max F (S (length es))). intros f Hf count out err HC. cbn [dump_rounds].
    rewrite (K5 f ltac:(lia) f ltac:(lia) count out HC). cbn [bind]. rewrite dump_stats_clk.
    exists (fst (dump_stats stats qi1 w1 start ((count + N.of_nat k) mod u64) clk)). split; [intros ->; reflexivity|].
    rewrite (app_assoc err _ (summary _ _ _ _)). fold (beyond gd (stat_clk stats clk O)). unfold summary.
    destruct timed; [|reflexivity]. destruct HS as [C|[E|E]]; [discriminate C| |].
    - rewrite E. reflexivity.
    - rewrite E. destruct (tv_sec gi =? 0)%Z; reflexivity. }
  destruct timed.
  2:{ left. exists k, false. split; [exact K1|]. split; [exact K2|]. split; [discriminate|]. split; [reflexivity|]. apply STOP. auto. }
  destruct (Z.eq_dec (tv_sec gi) 0) as [E0|N0].
  { left. exists k, true. split; [exact K1|]. split; [exact K2|]. split; [auto|]. split; [exact K4|]. apply STOP. auto. }
  destruct (beyond gd (stat_clk stats clk O)) eqn:EB.
  { left. exists k, true. split; [exact K1|]. split; [exact K2|]. split; [|split; [exact K4|apply STOP; auto]].
    intros _. right. destruct (stat_clk_at stats clk O) as (j & _ & Ej). exists j. congruence. }
  clear STOP.
  set (nx := let next := ts_add gi (stat_clk stats clk O) in if beyond gd next then gd else next).
  set (clk' := later 1 (stat_clk stats clk)).
  assert (GO : forall f, (Nat.max F (S (length es)) <= f)%nat -> forall count out err, count < u64 -> exists st, (stats = 0 -> st = []) /\
     dump_rounds (S rounds) f lib o stats gd gi start (set_timing t qi) w clk count out err =
     dump_rounds rounds f lib o stats gd gi start (set_timing (TDeadline nx) qi1) w1 clk' ((count + N.of_nat k) mod u64)
       (out ++ concat (firstn k texts)) (err ++ st)).
  { intros f Hf count out err HC. cbn [dump_rounds]. rewrite (K5 f ltac:(lia) f ltac:(lia) count out HC). cbn [bind]. rewrite dump_stats_clk.
    exists (fst (dump_stats stats qi1 w1 start ((count + N.of_nat k) mod u64) clk)). split; [intros ->; reflexivity|].
    fold (beyond gd (stat_clk stats clk O)). rewrite EB. cbn [negb]. destruct (Z.eqb_spec (tv_sec gi) 0) as [C|_]; [congruence|]. reflexivity. }
  assert (HP' : Forall2 (prints lib o) (skipn k es) (skipn k texts)).
  { clear - HP. revert k. induction HP; intros [|k]; cbn [skipn]; auto. }
  assert (NS : ~ (t = TKeep /\ steady qi w)) by (intros [E S]; specialize (K4 E S); discriminate K4).
  destruct (IH (skipn k es) (skipn k texts) HP' qi1 w1 (TDeadline nx) K3 clk') as
    [(k2 & timed2 & A1 & A2 & A3 & A4 & F2 & A5)|([->|(B1 & B2 & j & B3 & B4)] & F2 & B5)].
  - left. exists (k + k2)%nat, timed2. rewrite skipn_length in A1, A2. split; [lia|]. split; [intro T; specialize (A2 T); lia|].
    split; [|split; [intros E S; destruct NS; auto|]].
    + intro T. destruct (A3 T) as [E|(i & Ei)]; [left; exact E|right]. unfold clk' in Ei. rewrite later_at in Ei.
      destruct (stat_clk_at stats clk (S i)) as (j & _ & Ej). exists j. congruence.
    + exists (Nat.max F2 (Nat.max F (S (length es)))). intros f Hf count out err HC.
      destruct (GO f ltac:(lia) count out err HC) as (st & S1 & ->).
      destruct (A5 f ltac:(lia) ((count + N.of_nat k) mod u64) (out ++ concat (firstn k texts)) (err ++ st)) as (e2 & S2 & ->); [apply N.mod_lt; discriminate|].
      exists (st ++ e2). split; [intro E; rewrite (S1 E), (S2 E); reflexivity|]. rewrite add_mod_u64.
      replace (count + N.of_nat k + N.of_nat k2) with (count + N.of_nat (k + k2)) by lia.
      f_equal. f_equal; [|rewrite !app_assoc; reflexivity]. rewrite <- app_assoc. f_equal. rewrite <- concat_app. f_equal.
      rewrite <- (firstn_skipn k texts) at 3. rewrite firstn_app, firstn_firstn, firstn_length, LEN.
      replace (Nat.min (k + k2) k) with k by lia. replace (k + k2 - Nat.min k (length es))%nat with k2 by lia. reflexivity.
  - right. split.
    + right. split; [exact N0|]. split; [exact NS|]. destruct (stat_clk_at stats clk O) as (j & _ & Ej). exists j. split; [lia|congruence].
    + exists (Nat.max F2 (Nat.max F (S (length es)))). intros f Hf count out err HC. destruct (GO f ltac:(lia) count out err HC) as (st & _ & ->). reflexivity.
  - right. split.
    + right. split; [exact N0|]. split; [exact NS|]. unfold clk' in B4. rewrite later_at in B4.
      destruct (stat_clk_at stats clk (S j)) as (j' & L & Ej). exists j'. split; [lia|congruence].
    + exists (Nat.max F2 (Nat.max F (S (length es)))). intros f Hf count out err HC. destruct (GO f ltac:(lia) count out err HC) as (st & _ & ->).
      apply B5; [lia|]. apply N.mod_lt; discriminate.
Qed.
