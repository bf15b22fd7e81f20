(** Calls that time out, over any tables: the iterator goes on where it was.  The iterator
    is compared with the one without timeout sources. *)
From Verif Require Import Base ModelEntry ModelIter SpecIter ModelQuery SpecQuery FuelProofs.

(** Worlds that differ at most in clock, deadline, counters and log. *)
Definition weq (w w' : world) : Prop := w_offset w = w_offset w' /\ w_seek_end w = w_seek_end w'.
Lemma weq_refl : forall w, weq w w. Proof. intro w. split; reflexivity. Qed.
Lemma weq_sym : forall a b, weq a b -> weq b a. Proof. intros a b [A B]. split; auto. Qed.
Lemma weq_trans : forall a b c, weq a b -> weq b c -> weq a c. Proof. intros a b c [A B] [C D]. split; congruence. Qed.
Lemma weq_nb : forall e s c w w', weq w w' -> weq (note e (bump s c w)) (note e (bump s c w')).
Proof. intros e s c w w' [A B]. split; assumption. Qed.
Global Hint Resolve weq_refl weq_nb : weq.

Definition resp_filter (ff : filter_fn) : Prop := forall w w' k v, weq w w' -> fst (ff w k v) = fst (ff w' k v) /\ weq (snd (ff w k v)) (snd (ff w' k v)).
Fixpoint resp (it : iter) : Prop :=
  match it with
  | IBase _ => True
  | IFilter _ ff u => resp_filter ff /\ resp u
  | ITimeout u | IRemove _ _ u | ILjoin _ _ _ _ u => resp u
  end.
Fixpoint resps (s : source) : Prop :=
  match s with
  | SBase _ => True
  | SFilter _ ff u => resp_filter ff /\ resps u
  | STimeout u | SRemove _ u | SLjoin _ _ u => resps u
  end.
Fixpoint bare (it : iter) : iter :=
  match it with
  | IBase b => IBase b
  | IFilter s ff u => IFilter s ff (bare u)
  | ITimeout u => bare u
  | IRemove h r u => IRemove h r (bare u)
  | ILjoin mf rb rk fin u => ILjoin mf rb rk fin (bare u)
  end.
Fixpoint bares (s : source) : source :=
  match s with
  | SBase t => SBase t
  | SFilter s ff u => SFilter s ff (bares u)
  | STimeout u => bares u
  | SRemove r u => SRemove r (bares u)
  | SLjoin mf rt u => SLjoin mf rt (bares u)
  end.
Fixpoint no_timer (it : iter) : Prop :=
  match it with
  | IBase _ => True
  | IFilter _ _ u | IRemove _ _ u | ILjoin _ _ _ _ u => no_timer u
  | ITimeout _ => False
  end.
Lemma bare_no_timer : forall it, no_timer (bare it). Proof. induction it; cbn; auto. Qed.
Lemma bare_resp : forall it, resp it -> resp (bare it). Proof. induction it; cbn; tauto. Qed.
Lemma open_bares : forall h s, open h (bares s) = bare (open h s). Proof. induction s; cbn; congruence. Qed.
Lemma open_resp : forall h s, resps s -> resp (open h s). Proof. induction s; cbn; tauto. Qed.

(** ** The pieces do not look at the clock *)

Lemma base_seek_weq : forall k b w w', weq w w' -> base_seek k b w = base_seek k b w'.
Proof. intros k b w w' [_ H]. unfold base_seek. rewrite H. reflexivity. Qed.

Lemma res_weq : forall k re w w', weq w w' -> fst (remove_entry_seek k re w) = fst (remove_entry_seek k re w') /\ weq (snd (remove_entry_seek k re w)) (snd (remove_entry_seek k re w')).
Proof.
  intros k re w w' H. unfold remove_entry_seek. destruct (re_it re) as [b|]; [|auto]. destruct (_ || _); [|auto].
  rewrite (base_seek_weq k b w w' H). destruct (base_seek k b w') as [[] b1]; [|auto]. destruct (base_next b1) as [[e|] b2]; cbn [fst snd]; auto with weq.
Qed.
Lemma ress_weq : forall k l w w', weq w w' -> fst (remove_entries_seek k l w) = fst (remove_entries_seek k l w') /\ weq (snd (remove_entries_seek k l w)) (snd (remove_entries_seek k l w')).
Proof.
  intros k l. induction l as [|re l IH]; intros w w' H; [auto|]. cbn [remove_entries_seek].
  destruct (res_weq k re w w' H) as [A B]. destruct (remove_entry_seek k re w) as [r1 w1]. destruct (remove_entry_seek k re w') as [r1' w1']. cbn [fst snd] in A, B. subst r1'.
  destruct (IH w1 w1' B) as [C D]. destruct (remove_entries_seek k l w1) as [r2 w2]. destruct (remove_entries_seek k l w1') as [r2' w2']. cbn [fst snd] in *. subst. auto.
Qed.

(** Seeking with the timeout sources taken out. *)
Lemma seek_bare : forall k it w w' ok it1 w1, weq w w' -> seek k it w = (ok, it1, w1) ->
  exists w1', seek k (bare it) w' = (ok, bare it1, w1') /\ weq w1 w1'.
Proof.
  intros k. induction it as [b|s ff u IH|u IH|h rms u IH|mf rb rk fin u IH]; intros w w' ok it1 w1 HW E; cbn [seek bare] in *.
  - rewrite <- (base_seek_weq k b w w' HW). destruct (base_seek k b w) as [ok1 b1]. injection E as <- <- <-. eauto.
  - destruct (seek k u w) as [[ok1 u1] w2] eqn:E1. injection E as <- <- <-. destruct (IH _ _ _ _ _ HW E1) as (w3 & -> & H). eauto.
  - destruct (seek k u w) as [[ok1 u1] w2] eqn:E1. injection E as <- <- <-. cbn [bare]. eauto.
  - destruct (ress_weq k rms w w' HW) as [A B]. destruct (remove_entries_seek k rms w) as [r1 wa]. destruct (remove_entries_seek k rms w') as [r1' wa']. cbn [fst snd] in *. subst r1'.
    destruct (seek k u wa) as [[ok1 u1] w2] eqn:E1. injection E as <- <- <-. destruct (IH _ _ _ _ _ B E1) as (w3 & -> & H). eauto.
  - destruct (seek k u w) as [[ok1 u1] w2] eqn:E1. destruct (IH _ _ _ _ _ HW E1) as (w3 & -> & H). destruct ok1.
    + rewrite <- (base_seek_weq k rb w2 w3 H). destruct (base_seek k rb w2) as [rok rb']. injection E as <- <- <-. eauto.
    + injection E as <- <- <-. eauto.
Qed.
Lemma seek_resp : forall k it w, resp it -> resp (snd (fst (seek k it w))).
Proof.
  intros k. induction it as [b|s ff u IH|u IH|h rms u IH|mf rb rk fin u IH]; intros w H; cbn [seek resp] in *.
  - destruct (base_seek k b w). exact I.
  - specialize (IH w (proj2 H)). destruct (seek k u w) as [[ok1 u1] w2]. cbn [fst snd resp] in *. tauto.
  - specialize (IH w H). destruct (seek k u w) as [[ok1 u1] w2]. exact IH.
  - destruct (remove_entries_seek k rms w) as [r1 wa]. specialize (IH wa H). destruct (seek k u wa) as [[ok1 u1] w2]. exact IH.
  - specialize (IH w H). destruct (seek k u w) as [[ok1 u1] w2]. destruct ok1; [destruct (base_seek k rb w2)|]; exact IH.
Qed.

Definition oeq {A} (x y : option (A * world)) : Prop :=
  match x, y with Some (a, w), Some (b, w') => a = b /\ weq w w' | None, None => True | _, _ => False end.

Lemma match_entry_weq : forall f key re w w', weq w w' -> oeq (match_entry f key re w) (match_entry f key re w').
Proof.
  induction f as [|f IH]; intros key re w w' H; [exact I|]. cbn [match_entry]. destruct (re_finished re); [cbn; auto|]. destruct (re_it re) as [b|]; [|cbn; auto].
  destruct (bytes_compare (re_key re) key); [cbn; auto| |cbn; auto]. rewrite (base_seek_weq key b w w' H). destruct (base_seek key b w') as [[] b1]; [|cbn; auto].
  destruct (base_next b1) as [[e|] b2]; [|cbn; auto with weq]. apply IH. apply weq_nb. exact H.
Qed.
Lemma open_entry_weq : forall h key re w w', weq w w' -> fst (open_entry h key re w) = fst (open_entry h key re w') /\ weq (snd (open_entry h key re w)) (snd (open_entry h key re w')).
Proof.
  intros h key re w w' H. unfold open_entry. destruct (re_it re); [auto|]. rewrite (base_seek_weq key (base_open h (re_table re)) w w' H).
  destruct (base_seek key (base_open h (re_table re)) w') as [[] b1]; [|auto]. destruct (base_next b1) as [[e|] b2]; cbn [fst snd]; auto with weq.
Qed.
Lemma match_key_weq : forall f h key val l w w', weq w w' -> oeq (match_key f h key val l w) (match_key f h key val l w').
Proof.
  intros f h key val. induction l as [|re l IH]; intros w w' H; [cbn; auto|]. cbn [match_key].
  destruct (open_entry_weq h key re w w' H) as [A B]. destruct (open_entry h key re w) as [r1 w1]. destruct (open_entry h key re w') as [r1' w1']. cbn [fst snd] in *. subst r1'.
  pose proof (match_entry_weq f key r1 w1 w1' B) as C. destruct (match_entry f key r1 w1) as [[[m r2] w2]|]; destruct (match_entry f key r1 w1') as [[[m' r2'] w2']|]; cbn [oeq] in C; try contradiction; [|exact I].
  destruct C as [C D]. injection C as <- <-. destruct m; [cbn; auto with weq|].
  specialize (IH w2 w2' D). destruct (match_key f h key val l w2) as [[[m3 r3] w3]|]; destruct (match_key f h key val l w2') as [[[m3' r3'] w3']|]; cbn [oeq] in IH; try contradiction; [|exact I].
  destruct IH as [E F]. injection E as <- <-. destruct m3; [destruct r3|]; cbn; auto.
Qed.
Lemma join_weq : forall f mf rb rkv fin lk lv w w', weq w w' ->
  fst (join_right f mf rb rkv fin lk lv w) = fst (join_right f mf rb rkv fin lk lv w') /\ weq (snd (join_right f mf rb rkv fin lk lv w)) (snd (join_right f mf rb rkv fin lk lv w')).
Proof.
  induction f as [|f IH]; intros mf rb rkv fin lk lv w w' H; [auto|]. cbn [join_right]. destruct fin; [auto|].
  destruct (match rkv with Some e => (Some e, rb) | None => base_next rb end) as [[[rk rv]|] rb1]; [|auto].
  destruct (bytes_compare rk lk); [| |auto].
  - destruct (mf lk lv rv); cbn [fst snd]; auto with weq.
  - rewrite (base_seek_weq lk rb1 w w' H). destruct (base_seek lk rb1 w') as [[] rb2]; [|auto]. apply IH. apply weq_nb. exact H.
Qed.

(** Without timeout sources, the clock does not matter. *)
Lemma next_weq : forall f it w w' o it1 w1, resp it -> no_timer it -> weq w w' -> next f it w = (o, it1, w1) ->
  o = OHang \/ exists w1', next f it w' = (o, it1, w1') /\ weq w1 w1' /\ resp it1 /\ no_timer it1.
Proof.
  induction f as [|f IH]; intros it w w' o it1 w1 HR HN HW E; cbn [next] in *; [injection E as <- _ _; auto|].
  destruct it as [b|s ff u|u|h rms u|mf rb rk fin u]; cbn [resp no_timer] in HR, HN; try contradiction.
  - right. destruct (base_next b) as [[e|] b1]; injection E as <- <- <-; eexists; (split; [reflexivity|]); cbn; auto.
  - destruct HR as [HF HR]. destruct (next f u w) as [[o1 u1] w2] eqn:E1. destruct (IH _ _ _ _ _ _ HR HN HW E1) as [->|(w2' & -> & W2 & R1 & N1)]; [left; congruence|].
    destruct o1 as [[k v]| | | | |]; try (right; injection E as <- <- <-; eexists; split; [reflexivity|]; cbn; auto).
    destruct (HF w2 w2' k v W2) as [F1 F2]. destruct (ff w2 k v) as [fr w3]. destruct (ff w2' k v) as [fr' w3']. cbn [fst snd] in F1, F2. subst fr'.
    destruct fr as [| |k'| | |]; try (right; injection E as <- <- <-; eexists; split; [reflexivity|]; cbn; auto).
    + eapply (IH (IFilter s ff u1)); [cbn; auto|exact N1| |exact E]. apply weq_nb. exact F2.
    + destruct (seek k' u1 (note (EvSeek s k') (bump s CSeek w3))) as [[ok u2] w4] eqn:ES.
      assert (NB : bare u1 = u1) by (clear -N1; induction u1; cbn in *; try contradiction; f_equal; auto).
      destruct (seek_bare k' u1 _ (note (EvSeek s k') (bump s CSeek w3')) _ _ _ (weq_nb _ _ _ _ _ F2) ES) as (w4' & ES' & W4). rewrite NB in ES'. 
      pose proof (seek_resp k' u1 (note (EvSeek s k') (bump s CSeek w3)) R1) as R2. rewrite ES in R2. cbn [fst snd] in R2.
      assert (NB2 : bare u2 = u2).
      { rewrite <- NB in ES. clear -ES NB N1. revert ES. generalize (note (EvSeek s k') (bump s CSeek w3)). rewrite NB. clear NB. revert ok u2 w4. induction u1 as [b|s1 f1 i IH|i IH|h1 r1 i IH|mf1 rb1 rk1 fin1 i IH]; intros ok u2 w4 w ES; cbn in N1; try contradiction; cbn [seek] in ES.
        - destruct (base_seek k' b w). injection ES as <- <- <-. reflexivity.
        - destruct (seek k' i w) as [[a b] c] eqn:E. injection ES as <- <- <-. cbn. f_equal. eapply IH; eauto.
        - destruct (remove_entries_seek k' r1 w) as [d e]. destruct (seek k' i e) as [[a b] c] eqn:E. injection ES as <- <- <-. cbn. f_equal. eapply IH; eauto.
        - destruct (seek k' i w) as [[a b] c] eqn:E. destruct a; [destruct (base_seek k' rb1 c)|]; injection ES as <- <- <-; cbn; f_equal; eapply IH; eauto. }
      assert (N2 : no_timer u2) by (rewrite <- NB2; apply bare_no_timer). rewrite ES', NB2.
      destruct ok.
      * eapply (IH (IFilter s ff u2)); [cbn; auto|exact N2| |exact E]. apply weq_nb. exact W4.
      * right. injection E as <- <- <-. eexists. split; [reflexivity|]. cbn. auto.
  - destruct (next f u w) as [[o1 u1] w2] eqn:E1. destruct (IH _ _ _ _ _ _ HR HN HW E1) as [->|(w2' & -> & W2 & R1 & N1)]; [left; congruence|].
    destruct o1 as [[k v]| | | | |]; try (right; injection E as <- <- <-; eexists; split; [reflexivity|]; cbn; auto).
    pose proof (match_key_weq f h k v rms w2 w2' W2) as M. destruct (match_key f h k v rms w2) as [[[m r] w3]|]; destruct (match_key f h k v rms w2') as [[[m' r'] w3']|]; cbn [oeq] in M; try contradiction; [|left; congruence].
    destruct M as [M W3]. injection M as <- <-. destruct m.
    + eapply (IH (IRemove h r u1)); eauto.
    + right. injection E as <- <- <-. eexists. split; [reflexivity|]. cbn. auto.
  - destruct (next f u w) as [[o1 u1] w2] eqn:E1. destruct (IH _ _ _ _ _ _ HR HN HW E1) as [->|(w2' & -> & W2 & R1 & N1)]; [left; congruence|].
    destruct o1 as [[k v]| | | | |]; try (right; injection E as <- <- <-; eexists; split; [reflexivity|]; cbn; auto).
    right. destruct (join_weq f mf rb rk fin k v w2 w2' W2) as [J1 J2]. destruct (join_right f mf rb rk fin k v w2) as [[[[o2 a] b] c] w3]. destruct (join_right f mf rb rk fin k v w2') as [x w3']. cbn [fst snd] in J1, J2. subst x.
    injection E as <- <- <-. eexists. split; [reflexivity|]. cbn. auto.
Qed.
