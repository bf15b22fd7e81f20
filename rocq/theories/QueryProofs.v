(** Iterating a query: offset, direct and index-driven iteration, timeouts. *)
From Verif Require Import Base BaseFacts ModelVarint VarintProofs SpecMerge MergeProofs ModelWdns SpecName NameFacts.
From Verif Require Import ModelEntry SpecEntry EntryProofs PropsEntry ModelUnion ModelIter SpecIter IterProofs ModelQuery SpecQuery KeyProofs FilterProofs.

(** ** Sources with an offset filter on top *)

Fixpoint src_timeout (s : source) : bool :=
  match s with
  | SBase _ => false
  | STimeout _ => true
  | SFilter _ _ u | SRemove _ u | SLjoin _ _ u => src_timeout u
  end.

Lemma has_timeout_open : forall h s, has_timeout (open h s) = src_timeout s.
Proof. induction s; cbn; auto. Qed.

Definition pending (w : world) (l : table) : table := skipn (N.to_nat (w_offset w)) l.

Lemma pending_0 : forall w l, w_offset w = 0 -> pending w l = l.
Proof. intros w l E. unfold pending. rewrite E. reflexivity. Qed.

(** The iterator will deliver [rest] but for the offset. *)
Definition stands (tm : bool) (it : iter) (w : world) (rest : table) : Prop :=
  (exists full, R it full rest /\ (has_timeout it = true -> tm = true) /\ w_offset w = 0) \/
  (exists u full, it = IFilter StOffset filter_offset u /\ R u full rest /\ (has_timeout u = true -> tm = true)).

Definition stands_post (tm : bool) (rest : table) (w : world) (o : out) (it' : iter) (w' : world) : Prop :=
  w_offset w' <= w_offset w /\
  match o with
  | OOk e => w_offset w' = 0 /\ exists rest', stands tm it' w' rest' /\ forall more, pending w (rest ++ more) = e :: pending w' (rest' ++ more)
  | OFail => stands tm it' w' [] /\ forall more, pending w (rest ++ more) = pending w' more
  | OExpired => tm = true /\ exists rest', stands tm it' w' rest' /\ forall more, pending w (rest ++ more) = pending w' (rest' ++ more)
  | OAbort | OUB | OHang => False
  end.

Lemma stands_plain_next : forall tm it full rest w, R it full rest -> (has_timeout it = true -> tm = true) -> w_offset w = 0 ->
  exists F o it' w', (forall fuel, (F <= fuel)%nat -> next fuel it w = (o, it', w')) /\ stands_post tm rest w o it' w'.
Proof.
  intros tm it full rest w HR HT H0. destruct (next_R it full rest w HR) as (F & o & it' & w' & EN & EV & HT' & _ & PO).
  exists F, o, it', w'. split; [exact EN|]. destruct EV as (_ & _ & _ & EO & _).
  assert (H0' : w_offset w' = 0) by congruence.
  assert (ST : forall r, R it' full r -> stands tm it' w' r).
  { intros r Hr. left. exists full. rewrite HT'. auto. }
  split; [lia|]. destruct o as [e| | | | |]; try contradiction.
  - destruct PO as (rest' & -> & HR'). split; [exact H0'|]. exists rest'. split; [auto|]. intro more. rewrite !pending_0 by assumption. reflexivity.
  - destruct PO as (-> & HR'). split; [auto|]. intro more. rewrite !pending_0 by assumption. reflexivity.
  - destruct PO as (Ht & _ & HR'). split; [auto|]. exists rest. split; [auto|]. intro more. rewrite !pending_0 by assumption. reflexivity.
Qed.

Lemma stands_off_next : forall tm n u full rest w, (length rest <= n)%nat -> R u full rest -> (has_timeout u = true -> tm = true) ->
  exists F o it' w', (forall fuel, (F <= fuel)%nat -> next fuel (IFilter StOffset filter_offset u) w = (o, it', w')) /\
    stands_post tm rest w o it' w'.
Proof.
  intros tm n. induction n as [|n IH]; intros u full rest w HN HR HT;
    destruct (next_R u full rest w HR) as (F & o & u' & w1 & EN & EV & HT' & _ & PO);
    destruct EV as (_ & _ & _ & EO & _);
    (assert (ST : forall r w', R u' full r -> stands tm (IFilter StOffset filter_offset u') w' r)
       by (intros r w' Hr; right; exists u', full; rewrite HT'; auto));
    (destruct o as [[k v]| | | | |]; try contradiction).
  - destruct PO as (r & -> & _). cbn in HN. lia.
  - destruct PO as (-> & HR'). exists (S F), OFail, (IFilter StOffset filter_offset u'), w1. split.
    { intros [|fuel] HF; [lia|]. cbn [next]. rewrite EN by lia. reflexivity. }
    split; [lia|]. split; [auto|]. intro more. unfold pending. rewrite EO. reflexivity.
  - destruct PO as (Ht & _ & HR'). exists (S F), OExpired, (IFilter StOffset filter_offset u'), w1. split.
    { intros [|fuel] HF; [lia|]. cbn [next]. rewrite EN by lia. reflexivity. }
    split; [lia|]. split; [auto|]. exists rest. split; [auto|]. intro more. unfold pending. rewrite EO. reflexivity.
  - destruct PO as (rest' & -> & HR'). cbn [length] in HN.
    destruct (N.ltb_spec 0 (w_offset w1)) as [Hpos|Hz].
    + set (w2 := note (EvReject StOffset k v) (bump StOffset CFiltered (set_offset (w_offset w1 - 1) w1))).
      assert (Hx : (length rest' <= n)%nat) by lia. assert (Hy : has_timeout u' = true -> tm = true) by (rewrite HT'; exact HT).
      destruct (IH u' full rest' w2 Hx HR' Hy) as (F2 & o & it' & w' & EN2 & EV2 & PO2).
      assert (E2 : w_offset w2 = w_offset w - 1) by (unfold w2; cbn; rewrite EO; reflexivity).
      exists (S (F + F2)), o, it', w'. split.
      { intros [|fuel] HF; [lia|]. cbn [next]. rewrite EN by lia. unfold filter_offset at 1.
        destruct (N.ltb_spec 0 (w_offset w1)); [|lia]. apply EN2. lia. }
      split; [lia|].
      assert (EP : forall more, pending w (((k, v) :: rest') ++ more) = pending w2 (rest' ++ more)).
      { intro more. unfold pending. rewrite E2. replace (N.to_nat (w_offset w)) with (S (N.to_nat (w_offset w - 1))) by lia. reflexivity. }
      destruct o as [e| | | | |]; try contradiction.
      * destruct PO2 as (Z2 & r2 & S2 & P2). split; [exact Z2|]. exists r2. split; [exact S2|]. intro more. rewrite EP. apply P2.
      * destruct PO2 as (S2 & P2). split; [exact S2|]. intro more. rewrite EP. apply P2.
      * destruct PO2 as (Ht & r2 & S2 & P2). split; [exact Ht|]. exists r2. split; [exact S2|]. intro more. rewrite EP. apply P2.
    + exists (S F), (OOk (k, v)), (IFilter StOffset filter_offset u'), w1. split.
      { intros [|fuel] HF; [lia|]. cbn [next]. rewrite EN by lia. unfold filter_offset at 1.
        destruct (N.ltb_spec 0 (w_offset w1)); [lia|]. reflexivity. }
      split; [lia|]. split; [lia|]. exists rest'. split; [auto|]. intro more. rewrite !pending_0 by lia. reflexivity.
  - destruct PO as (-> & HR'). exists (S F), OFail, (IFilter StOffset filter_offset u'), w1. split.
    { intros [|fuel] HF; [lia|]. cbn [next]. rewrite EN by lia. reflexivity. }
    split; [lia|]. split; [auto|]. intro more. unfold pending. rewrite EO. reflexivity.
  - destruct PO as (Ht & _ & HR'). exists (S F), OExpired, (IFilter StOffset filter_offset u'), w1. split.
    { intros [|fuel] HF; [lia|]. cbn [next]. rewrite EN by lia. reflexivity. }
    split; [lia|]. split; [auto|]. exists rest. split; [auto|]. intro more. unfold pending. rewrite EO. reflexivity.
Qed.

Lemma stands_next : forall tm it rest w, stands tm it w rest ->
  exists F o it' w', (forall fuel, (F <= fuel)%nat -> next fuel it w = (o, it', w')) /\ stands_post tm rest w o it' w'.
Proof.
  intros tm it rest w [(full & HR & HT & H0)|(u & full & -> & HR & HT)].
  - eapply stands_plain_next; eauto.
  - eapply stands_off_next; eauto.
Qed.

Lemma stands_world : forall tm it rest w w', w_offset w' = w_offset w -> stands tm it w rest -> stands tm it w' rest.
Proof. intros tm it rest w w' E [(full & HR & HT & H0)|H]; [left; exists full; rewrite E; auto|right; exact H]. Qed.

Lemma pending_world : forall w w' l, w_offset w' = w_offset w -> pending w' l = pending w l.
Proof. intros. unfold pending. rewrite H. reflexivity. Qed.

(** A source as stack_filters leaves it: [s] with an offset filter if there is an offset. *)
Definition with_offset (q : query) (s : source) : source := filter_set_cond (0 <? q_offset q) StOffset filter_offset s.

Lemma stands_open : forall q h s g w, den h s g -> (src_timeout s = true -> is_timed q = true) ->
  (q_offset q = 0 -> w_offset w = 0) -> stands (is_timed q) (open h (with_offset q s)) w g.
Proof.
  intros q h s g w HD HT H0. unfold with_offset, filter_set_cond.
  destruct (N.ltb_spec 0 (q_offset q)) as [L|L].
  - right. exists (open h s), g. split; [reflexivity|]. split; [apply open_R; exact HD|]. rewrite has_timeout_open. exact HT.
  - left. exists g. split; [apply open_R; exact HD|]. split; [rewrite has_timeout_open; exact HT|]. apply H0. lia.
Qed.

(** ** The query iterator *)

(** What the lookup for one index entry will deliver. *)
Definition looked (q : query) (tb : N) (s : source) (x : kv) (g : table) : Prop :=
  (index_lookup_key q tb (fst x) (snd x) = Ok None /\ g = []) \/
  (exists fk, index_lookup_key q tb (fst x) (snd x) = Ok (Some fk) /\ den (HPrefix fk) s g).

Definition qs (q : query) (s : source) (qi : qiter) (w : world) (l : table) : Prop :=
  qi_query qi = q /\ qi_source qi = with_offset q s /\ (src_timeout s = true -> is_timed q = true) /\
  (q_offset q = 0 -> w_offset w = 0) /\
  match qi_kind qi with
  | Direct it => stands (is_timed q) it w l
  | Indirect tb idx cur =>
      exists idxfull idxrest groups, R idx idxfull idxrest /\ (has_timeout idx = true -> is_timed q = true) /\
        Forall2 (looked q tb s) idxrest groups /\
        match cur with
        | None => l = concat groups
        | Some it => exists rest, stands (is_timed q) it w rest /\ l = rest ++ concat groups
        end
  end.

Definition decodable (e : kv) : Prop :=
  entry_decode (fst e) (snd e) = Fail \/ exists en, entry_decode (fst e) (snd e) = Ok en.
Definition undecodable (e : kv) : Prop := entry_decode (fst e) (snd e) = Fail.

(** Going from [w] with [l] to come to [w'] with [l'] to come leaves out the offset
    and then [pre]. *)
Definition passes (pre : table) (w : world) (l : table) (w' : world) (l' : table) : Prop :=
  pending w l = pre ++ pending w' l' /\ w_offset w' <= w_offset w /\
  w_offset w + N.of_nat (length l') + N.of_nat (length pre) = w_offset w' + N.of_nat (length l) /\
  (pre = [] \/ w_offset w' = 0).

(** Going from [w] with [l] to come to [w'] with [l'] to come returns nothing. *)
Definition skips (w : world) (l : table) (w' : world) (l' : table) : Prop :=
  pending w l = pending w' l' /\ w_offset w' <= w_offset w /\
  w_offset w + N.of_nat (length l') = w_offset w' + N.of_nat (length l).

Definition qpost (q : query) (s : source) (w : world) (l : table) (r : qres) (qi' : qiter) (w' : world) : Prop :=
  exists pre, Forall undecodable pre /\
  match r with
  | QEntry en => exists e l', pending w l = pre ++ e :: pending w' l' /\ entry_decode (fst e) (snd e) = Ok en /\
      qs q s qi' w' l' /\ w_offset w' = 0
  | QEnd => passes pre w l w' [] /\ qs q s qi' w' []
  | QTimeout => is_timed q = true /\ exists l', passes pre w l w' l' /\ qs q s qi' w' l'
  | QAbort | QUB | QHang => False
  end.

Lemma skips_refl : forall w w' l, w_offset w' = w_offset w -> skips w l w' l.
Proof. intros w w' l E. unfold skips, pending. rewrite E. repeat split; lia. Qed.
Lemma skips_passes : forall w l w1 l1, skips w l w1 l1 -> passes [] w l w1 l1.
Proof. intros w l w1 l1 (A & B & C). split; [exact A|]. split; [exact B|]. split; [cbn; lia|]. left. reflexivity. Qed.

Lemma passes_trans : forall p1 p2 w l w1 l1 w2 l2, passes p1 w l w1 l1 -> passes p2 w1 l1 w2 l2 -> passes (p1 ++ p2) w l w2 l2.
Proof.
  intros p1 p2 w l w1 l1 w2 l2 (A & B & C & D) (A' & B' & C' & D').
  split; [rewrite A, A', app_assoc; reflexivity|]. split; [lia|]. split; [rewrite app_length; lia|].
  destruct D' as [->|D']; [|right; exact D']. rewrite app_nil_r. destruct D as [->|D]; [left; reflexivity|right; lia].
Qed.

Lemma qpost_passes : forall q s pre w l w1 l1 r qi' w', Forall undecodable pre -> passes pre w l w1 l1 ->
  qpost q s w1 l1 r qi' w' -> qpost q s w l r qi' w'.
Proof.
  intros q s pre w l w1 l1 r qi' w' HU HS (pre2 & HU2 & HP). exists (pre ++ pre2).
  split; [apply Forall_app; auto|]. destruct r; try contradiction.
  - destruct HP as (en & l' & A & B). exists en, l'. split; [|exact B]. destruct HS as (E & _). rewrite E, A, <- app_assoc. reflexivity.
  - destruct HP as (A & B). split; [|exact B]. eapply passes_trans; eauto.
  - destruct HP as (A & l' & B & C). split; [exact A|]. exists l'. split; [|exact C]. eapply passes_trans; eauto.
Qed.

Lemma qpost_skips : forall q s w l w1 l1 r qi' w', skips w l w1 l1 -> qpost q s w1 l1 r qi' w' -> qpost q s w l r qi' w'.
Proof. intros. eapply (qpost_passes _ _ []); eauto. apply skips_passes. assumption. Qed.

Lemma pending_nil : forall w, pending w [] = [].
Proof. intro w. unfold pending. apply skipn_nil. Qed.

(** An equation between lists to come, whatever follows, fixes the offsets. *)
Lemma pending_skips : forall w x w' y more, w_offset w' <= w_offset w ->
  (forall more, pending w (x ++ more) = pending w' (y ++ more)) -> skips w (x ++ more) w' (y ++ more).
Proof.
  intros w x w' y more HL H. split; [apply H|]. split; [exact HL|].
  specialize (H (repeat ([], []) (N.to_nat (w_offset w) + N.to_nat (w_offset w')))). apply (f_equal (@length kv)) in H.
  unfold pending in H. rewrite !skipn_length, !app_length, repeat_length in H. rewrite !app_length. lia.
Qed.

Lemma pending_passes : forall w w' e l l', w_offset w' = 0 -> w_offset w' <= w_offset w -> pending w l = e :: pending w' l' ->
  passes [e] w l w' l'.
Proof.
  intros w w' e l l' Z L E. split; [exact E|]. split; [exact L|]. split; [|right; exact Z].
  apply (f_equal (@length kv)) in E. unfold pending in E. rewrite Z in E. cbn [N.to_nat skipn length] in *.
  rewrite skipn_length in E. lia.
Qed.

Lemma indirect_ok : forall q s tb, (src_timeout s = true -> is_timed q = true) ->
  forall m idx idxfull idxrest groups cur w l,
  (2 * length idxrest + match cur with Some _ => 1 | None => 0 end + 2 * length (pending w l) <= m)%nat ->
  R idx idxfull idxrest -> (has_timeout idx = true -> is_timed q = true) ->
  (q_offset q = 0 -> w_offset w = 0) ->
  Forall2 (looked q tb s) idxrest groups ->
  match cur with
  | None => l = concat groups
  | Some it => exists rest, stands (is_timed q) it w rest /\ l = rest ++ concat groups
  end -> Forall decodable (pending w l) ->
  exists F r idx' cur' w', (forall n fuel, (F <= n)%nat -> (F <= fuel)%nat ->
      indirect_loop n fuel q (with_offset q s) tb idx cur w = (r, idx', cur', w')) /\
    qpost q s w l r {| qi_query := q; qi_source := with_offset q s; qi_kind := Indirect tb idx' cur' |} w'.
Proof.
  intros q s tb HTs. induction m as [m IH] using lt_wf_ind.
  intros idx idxfull idxrest groups cur w l Hm HR HT H0 HG HC HD.
  destruct cur as [it|].
  - destruct HC as (rest & HS & ->). destruct (stands_next _ _ _ _ HS) as (F & o & it' & w1 & EN & EO & PO).
    assert (H0' : q_offset q = 0 -> w_offset w1 = 0) by (intro Z; specialize (H0 Z); lia).
    destruct o as [[k v]| | | | |]; try contradiction.
    + destruct PO as (Z & rest' & HS' & EP). rewrite EP in HD, Hm. cbn [length] in Hm.
      inversion HD as [|? ? Hx HD']; subst. destruct Hx as [Hen|(en & Hen)]; cbn [fst snd] in Hen.
      * destruct (IH (m - 1)%nat ltac:(lia) idx idxfull idxrest groups (Some it') w1 (rest' ++ concat groups)) as (F2 & r & idx' & cur' & w' & E2 & P2); auto; [lia|exists rest'; auto|].
        exists (S (F + F2)), r, idx', cur', w'. split.
        { intros [|n] fuel Hn Hf; [lia|]. cbn [indirect_loop]. rewrite EN by lia. rewrite Hen. apply E2; lia. }
        apply (qpost_passes q s [(k, v)] w _ w1 (rest' ++ concat groups)); [constructor; [exact Hen|constructor]|apply pending_passes; auto|exact P2].
      * exists (S F), (QEntry en), idx, (Some it'), w1. split.
        { intros [|n] fuel Hn Hf; [lia|]. cbn [indirect_loop]. rewrite EN by lia. rewrite Hen. reflexivity. }
        exists []. split; [constructor|].
        exists (k, v), (rest' ++ concat groups). split; [apply EP|]. split; [exact Hen|]. split; [|exact Z].
        unfold qs; cbn [qi_query qi_source qi_kind]. repeat (split; [auto; fail|]). exists idxfull, idxrest, groups.
        repeat (split; [auto; fail|]). exists rest'. auto.
    + destruct PO as (_ & EP). pose proof (pending_skips w rest w1 [] (concat groups) EO EP) as SK. cbn [app] in SK.
      rewrite EP in HD, Hm. cbn [app] in Hm.
      destruct (IH (m - 1)%nat ltac:(lia) idx idxfull idxrest groups None w1 (concat groups)) as (F2 & r & idx' & cur' & w' & E2 & P2); auto; [lia|].
      exists (S (F + F2)), r, idx', cur', w'. split; [|exact (qpost_skips _ _ _ _ _ _ _ _ _ SK P2)].
      intros [|n] fuel Hn Hf; [lia|]. cbn [indirect_loop]. rewrite EN by lia. apply E2; lia.
    + destruct PO as (Ht & rest' & HS' & EP). pose proof (pending_skips w rest w1 rest' (concat groups) EO EP) as SK.
      exists (S F), QTimeout, idx, (Some it'), w1. split.
      { intros [|n] fuel Hn Hf; [lia|]. cbn [indirect_loop]. rewrite EN by lia. reflexivity. }
      exists []. split; [constructor|].
      split; [exact Ht|]. exists (rest' ++ concat groups). split; [apply skips_passes; exact SK|].
      unfold qs; cbn [qi_query qi_source qi_kind]. repeat (split; [auto; fail|]). exists idxfull, idxrest, groups.
      repeat (split; [auto; fail|]). exists rest'. auto.
  - subst l. destruct (next_R idx idxfull idxrest w HR) as (F & o & idx' & w1 & EN & EV & HT' & _ & PO).
    destruct EV as (_ & _ & _ & EO & _).
    assert (H0' : q_offset q = 0 -> w_offset w1 = 0) by (rewrite EO; exact H0).
    assert (HTi : has_timeout idx' = true -> is_timed q = true) by (rewrite HT'; exact HT).
    assert (EPW : forall x, pending w x = pending w1 x) by (intro; symmetry; apply pending_world; exact EO).
    rewrite EPW in *.
    assert (SK : forall x, skips w x w1 x) by (intro; apply skips_refl; exact EO).
    destruct o as [[k v]| | | | |]; try contradiction.
    + destruct PO as (idxrest' & -> & HR'). inversion HG as [|? g ? groups' HL HG']; subst. cbn [length] in Hm.
      destruct HL as [(HL & ->)|(fk & HL & HDn)]; cbn [fst snd] in HL.
      * destruct (IH (m - 1)%nat ltac:(lia) idx' idxfull idxrest' groups' None w1 (concat groups')) as (F2 & r & idx2 & cur' & w' & E2 & P2); auto; [cbn [concat app] in Hm; lia|].
        exists (S (F + F2)), r, idx2, cur', w'. split; [|exact (qpost_skips _ _ _ _ _ _ _ _ _ (SK _) P2)].
        intros [|n] fuel Hn Hf; [lia|]. cbn [indirect_loop]. rewrite EN by lia. rewrite HL. apply E2; lia.
      * destruct (IH (m - 1)%nat ltac:(lia) idx' idxfull idxrest' groups' (Some (open (HPrefix fk) (with_offset q s))) w1 (concat (g :: groups'))) as (F2 & r & idx2 & cur' & w' & E2 & P2); auto; [lia| |].
        { exists g. split; [apply stands_open; auto|reflexivity]. }
        exists (S (F + F2)), r, idx2, cur', w'. split; [|exact (qpost_skips _ _ _ _ _ _ _ _ _ (SK _) P2)].
        intros [|n] fuel Hn Hf; [lia|]. cbn [indirect_loop]. rewrite EN by lia. rewrite HL. apply E2; lia.
    + destruct PO as (-> & HR'). inversion HG; subst. cbn [concat].
      exists (S F), QEnd, idx', None, w1. split.
      { intros [|n] fuel Hn Hf; [lia|]. cbn [indirect_loop]. rewrite EN by lia. reflexivity. }
      exists []. split; [constructor|].
      split; [apply skips_passes, SK|]. unfold qs; cbn [qi_query qi_source qi_kind]. repeat (split; [auto; fail|]).
      exists idxfull, [], []. repeat (split; [auto; fail|]). reflexivity.
    + destruct PO as (Ht & _ & HR').
      exists (S F), QTimeout, idx', None, w1. split.
      { intros [|n] fuel Hn Hf; [lia|]. cbn [indirect_loop]. rewrite EN by lia. reflexivity. }
      exists []. split; [constructor|].
      split; [auto|]. exists (concat groups). split; [apply skips_passes, SK|].
      unfold qs; cbn [qi_query qi_source qi_kind]. repeat (split; [auto; fail|]).
      exists idxfull, idxrest, groups. auto.
Qed.

Lemma set_deadline_offset : forall q w, w_offset (iter_set_deadline q w) = w_offset w.
Proof. intros q w. unfold iter_set_deadline. destruct (negb (q_do_timeout q)); reflexivity. Qed.

Lemma direct_ok : forall q s, (src_timeout s = true -> is_timed q = true) ->
  forall m it w l, (length (pending w l) <= m)%nat -> stands (is_timed q) it w l -> (q_offset q = 0 -> w_offset w = 0) ->
  Forall decodable (pending w l) ->
  exists F r it' w', (forall n fuel, (F <= n)%nat -> (F <= fuel)%nat -> direct_loop n fuel it w = (r, it', w')) /\
    qpost q s w l r {| qi_query := q; qi_source := with_offset q s; qi_kind := Direct it' |} w'.
Proof.
  intros q s HTs. induction m as [m IH] using lt_wf_ind. intros it w l Hm HK H0 HD.
  destruct (stands_next _ _ _ _ HK) as (F & o & it' & w1 & EN & EL & PO).
  assert (H1 : q_offset q = 0 -> w_offset w1 = 0) by (intro Z; specialize (H0 Z); lia).
  destruct o as [[k v]| | | | |]; try contradiction.
  - destruct PO as (Z & rest' & HS' & EP). specialize (EP []). rewrite !app_nil_r in EP.
    rewrite EP in HD, Hm. inversion HD as [|? ? Hx HD']; subst. cbn [length] in Hm.
    destruct Hx as [Hen|(en & Hen)]; cbn [fst snd] in Hen.
    + destruct (IH (m - 1)%nat ltac:(lia) it' w1 rest') as (F2 & r & it2 & w' & E2 & P2); auto; [lia|].
      exists (S (F + F2)), r, it2, w'. split.
      { intros [|n] fuel Hn Hf; [lia|]. cbn [direct_loop]. rewrite EN by lia. rewrite Hen. apply E2; lia. }
      apply (qpost_passes q s [(k, v)] w _ w1 rest'); [constructor; [exact Hen|constructor]|apply pending_passes; auto|exact P2].
    + exists (S F), (QEntry en), it', w1. split.
      { intros [|n] fuel Hn Hf; [lia|]. cbn [direct_loop]. rewrite EN by lia. rewrite Hen. reflexivity. }
      exists []. split; [constructor|].
      exists (k, v), rest'. split; [exact EP|]. split; [exact Hen|]. split; [|exact Z].
      unfold qs; cbn [qi_query qi_source qi_kind]. repeat (split; [auto; fail|]). exact HS'.
  - destruct PO as (HS' & EP). pose proof (pending_skips w l w1 [] [] EL EP) as S1. rewrite app_nil_r in S1.
    exists (S F), QEnd, it', w1. split.
    { intros [|n] fuel Hn Hf; [lia|]. cbn [direct_loop]. rewrite EN by lia. reflexivity. }
    exists []. split; [constructor|]. split; [apply skips_passes; exact S1|].
    unfold qs; cbn [qi_query qi_source qi_kind]. repeat (split; [auto; fail|]). exact HS'.
  - destruct PO as (Ht & rest' & HS' & EP). pose proof (pending_skips w l w1 rest' [] EL EP) as S1. rewrite !app_nil_r in S1.
    exists (S F), QTimeout, it', w1. split.
    { intros [|n] fuel Hn Hf; [lia|]. cbn [direct_loop]. rewrite EN by lia. reflexivity. }
    exists []. split; [constructor|]. split; [exact Ht|]. exists rest'. split; [apply skips_passes; exact S1|].
    unfold qs; cbn [qi_query qi_source qi_kind]. repeat (split; [auto; fail|]). exact HS'.
Qed.

Lemma qnext_ok : forall q s qi w l, qs q s qi w l -> Forall decodable (pending w l) ->
  exists F r qi' w', (forall fuel, (F <= fuel)%nat -> qnext fuel qi w = (r, qi', w')) /\ qpost q s w l r qi' w'.
Proof.
  intros q s qi w l (EQ & ES & HTs & H0 & HK) HD. unfold qnext. rewrite EQ, ES. clear EQ ES.
  set (w0 := if is_timed q then iter_set_deadline q w else w).
  assert (EO : w_offset w0 = w_offset w) by (unfold w0; destruct (is_timed q); [apply set_deadline_offset|reflexivity]).
  assert (H0' : q_offset q = 0 -> w_offset w0 = 0) by (rewrite EO; exact H0).
  assert (SK : forall x, skips w x w0 x) by (intro; apply skips_refl; exact EO).
  rewrite <- (pending_world w w0 l EO) in HD.
  destruct (qi_kind qi) as [it|tb idx cur].
  - apply (stands_world _ _ _ _ w0 EO) in HK.
    destruct (direct_ok q s HTs _ it w0 l (le_n _) HK H0' HD) as (F & r & it' & w' & E & P).
    exists F, r, {| qi_query := q; qi_source := with_offset q s; qi_kind := Direct it' |}, w'.
    split; [|exact (qpost_skips _ _ _ _ _ _ _ _ _ (SK l) P)].
    intros fuel Hf. rewrite E by lia. reflexivity.
  - destruct HK as (idxfull & idxrest & groups & HR & HT & HG & HC).
    destruct (indirect_ok q s tb HTs _ idx idxfull idxrest groups cur w0 l (le_n _) HR HT H0' HG) as (F & r & idx' & cur' & w' & E & P); auto.
    { destruct cur as [it|]; [|exact HC].
      destruct HC as (rest & HS & ->). exists rest. split; [apply (stands_world _ _ _ w); auto|reflexivity]. }
    exists F, r, {| qi_query := q; qi_source := with_offset q s; qi_kind := Indirect tb idx' cur' |}, w'.
    split; [|exact (qpost_skips _ _ _ _ _ _ _ _ _ (SK l) P)].
    intros fuel Hf. rewrite E by lia. reflexivity.
Qed.

(** ** Any number of calls *)

Definition decodes (t : table) (es : list entry) : Prop := Forall2 (fun e en => entry_decode (fst e) (snd e) = Ok en) t es.

Lemma decodes_decoded : forall t es, decodes t es -> decoded t es.
Proof. intros t es H. induction H; constructor; auto. Qed.

Lemma decoded_decodable : forall t es, decoded t es -> Forall decodable t.
Proof. intros t es H. induction H; constructor; auto; [right; eexists; eauto|left; assumption]. Qed.

Lemma decoded_app_fail : forall pre t es, Forall undecodable pre -> decoded (pre ++ t) es -> decoded t es.
Proof.
  induction pre as [|p pre IH]; intros t es HU H; [exact H|]. inversion HU; subst. unfold undecodable in *. cbn [app] in H.
  inversion H; subst; [congruence|auto].
Qed.

Lemma listing_cons : forall e es n, listing (e :: es) (S n) = QEntry e :: listing es n.
Proof.
  intros e es n. unfold listing. cbn [map app firstn]. f_equal.
  revert n. induction es as [|a es IH]; intro n; cbn [map app].
  - rewrite !firstn_all2 with (n := n) (l := repeat QEnd n) by (rewrite repeat_length; lia).
    induction n as [|n IH]; [reflexivity|]. cbn [repeat firstn]. f_equal. exact IH.
  - destruct n as [|n]; [reflexivity|]. cbn [firstn]. f_equal.
    change (QEnd :: repeat QEnd (S n)) with (repeat QEnd (S (S n))) .
    assert (G : forall m k, (n <= m)%nat -> (n <= k)%nat -> firstn n (map QEntry es ++ repeat QEnd m) = firstn n (map QEntry es ++ repeat QEnd k)).
    { clear. intros m k Hm Hk. rewrite !firstn_app. f_equal.
      set (j := (n - length (map QEntry es))%nat). assert (j <= n)%nat by (unfold j; lia).
      clearbody j. revert m k n Hm Hk H. induction j as [|j IH]; intros; [reflexivity|].
      destruct m as [|m], k as [|k]; try lia. cbn [repeat firstn]. f_equal. apply (IH m k (n - 1)%nat); lia. }
    apply G; cbn; lia.
Qed.

Lemma listing_nil : forall n, listing [] (S n) = QEnd :: listing [] n.
Proof. intro n. reflexivity. Qed.

Lemma retime_timed : forall t q, is_timed q = true -> is_timed (retime t q) = true.
Proof. intros [|x|x] q H; unfold is_timed in *; cbn; [exact H|reflexivity|apply orb_true_r]. Qed.
Lemma retime_offset : forall t q, q_offset (retime t q) = q_offset q.
Proof. intros [|x|x] q; reflexivity. Qed.
Lemma stands_mono : forall tm tm' it w l, (tm = true -> tm' = true) -> stands tm it w l -> stands tm' it w l.
Proof.
  intros tm tm' it w l H [(full & A & B & C)|(u & full & A & B & C)]; [left; exists full|right; exists u, full]; auto.
Qed.
Lemma retime_lookup : forall t q tb k v, index_lookup_key (retime t q) tb k v = index_lookup_key q tb k v.
Proof. intros [|x|x] q tb k v; reflexivity. Qed.
Lemma retime_qs : forall t q s qi w l, qs q s qi w l -> qs (retime t q) s (set_timing t qi) w l.
Proof.
  intros t q s qi w l (EQ & ES & HT & H0 & HK). unfold qs, set_timing. cbn [qi_query qi_source qi_kind].
  split; [rewrite EQ; reflexivity|]. split; [unfold with_offset; rewrite retime_offset; exact ES|].
  split; [intro X; apply retime_timed; auto|]. split; [rewrite retime_offset; exact H0|].
  destruct (qi_kind qi) as [it|tb idx cur]; [revert HK; apply stands_mono; apply retime_timed|].
  destruct HK as (idxfull & idxrest & groups & HR & HI & HG & HC). exists idxfull, idxrest, groups.
  split; [exact HR|]. split; [intro X; apply retime_timed; auto|]. split.
  - clear -HG. induction HG as [|x g xs gs H HG IH]; constructor; [|exact IH].
    unfold looked in *. rewrite retime_lookup. exact H.
  - destruct cur as [it|]; [|exact HC]. destruct HC as (rest & HS & ->). exists rest. split; [|reflexivity].
    revert HS. apply stands_mono. apply retime_timed.
Qed.

Lemma calls_ok : forall s ts q qi w l es, qs q s qi w l -> decoded (pending w l) es ->
  eventually (fun fuel => let rs := timed_calls fuel ts qi w in let w' := after_timed_calls fuel ts qi w in
    answered rs = listing es (length (answered rs)) /\ (is_timed q = false -> untouched ts -> ~ In QTimeout rs) /\
    w_offset w' <= w_offset w /\
    exists m, (m <= length l)%nat /\ w_offset w' - N.of_nat m = w_offset w - N.of_nat (length l) /\ (In QEnd rs -> m = O)).
Proof.
  intros s ts. induction ts as [|t ts IH]; intros q qi w l es HQ HD.
  - exists O. intros fuel _. cbn. split; [reflexivity|]. split; [auto|]. split; [lia|]. exists (length l). split; [lia|]. split; [lia|]. tauto.
  - apply (retime_qs t) in HQ. destruct (qnext_ok _ s _ w l HQ (decoded_decodable _ _ HD)) as (F & r & qi' & w' & EN & pre & HU & PO).
    destruct r as [en| | | | |]; try contradiction.
    + destruct PO as (e & l' & EP & Hen & HQ' & Z).
      assert (HLen : (N.to_nat (w_offset w) + S (length l') + length pre = length l)%nat).
      { apply (f_equal (@length kv)) in EP. unfold pending in EP. rewrite Z in EP. cbn [N.to_nat skipn] in EP.
        rewrite skipn_length, app_length in EP. cbn [length] in EP. lia. }
      rewrite EP in HD. apply (decoded_app_fail _ _ _ HU) in HD. inversion HD as [|? en' ? es' Hen' HD'|]; subst; [|congruence].
      assert (en' = en) by congruence. subst en'.
      destruct (IH _ qi' w' l' es' HQ' HD') as (F2 & H2). exists (F + F2)%nat. intros fuel Hf. cbn [timed_calls after_timed_calls].
      rewrite EN by lia. destruct (H2 fuel ltac:(lia)) as (A & B & C & m & M1 & M2 & M3). cbv zeta in *. cbn [answered filter length].
      change (filter (fun r => match r with QTimeout => false | _ => true end) (timed_calls fuel ts qi' w')) with (answered (timed_calls fuel ts qi' w')).
      split; [rewrite listing_cons; congruence|]. split; [intros T U [G|G]; [discriminate|]; inversion U; subst; exact (B T ltac:(assumption) G)|]. split; [lia|].
      exists m. split; [lia|]. split; [lia|]. intros [G|G]; [discriminate|]. exact (M3 G).
    + destruct PO as ((S1 & S2 & S3 & S4) & HQ'). rewrite S1 in HD. apply (decoded_app_fail _ _ _ HU) in HD.
      assert (es = []) by (rewrite pending_nil in HD; inversion HD; reflexivity). subst es.
      destruct (IH _ qi' w' [] [] HQ' HD) as (F2 & H2). exists (F + F2)%nat. intros fuel Hf. cbn [timed_calls after_timed_calls].
      rewrite EN by lia. destruct (H2 fuel ltac:(lia)) as (A & B & C & m & M1 & M2 & M3). cbv zeta in *. cbn [answered filter length].
      change (filter (fun r => match r with QTimeout => false | _ => true end) (timed_calls fuel ts qi' w')) with (answered (timed_calls fuel ts qi' w')).
      cbn [length] in S3, M1, M2.
      assert (W : w_offset w' = w_offset w - N.of_nat (length l)) by (destruct S4 as [->|S4]; [cbn [length] in S3|]; lia).
      split; [rewrite listing_nil; congruence|]. split; [intros T U [G|G]; [discriminate|]; inversion U; subst; exact (B T ltac:(assumption) G)|]. split; [lia|].
      exists m. split; [lia|]. split; [lia|]. intros _. lia.
    + destruct PO as (Ht & l' & (S1 & S2 & S3 & S4) & HQ'). rewrite S1 in HD. apply (decoded_app_fail _ _ _ HU) in HD.
      assert (W : w_offset w' - N.of_nat (length l') = w_offset w - N.of_nat (length l) /\ (length l' <= length l)%nat)
        by (destruct S4 as [->|S4]; [cbn [length] in S3|]; lia).
      destruct (IH _ qi' w' l' es HQ' HD) as (F2 & H2). exists (F + F2)%nat. intros fuel Hf. cbn [timed_calls after_timed_calls].
      rewrite EN by lia. destruct (H2 fuel ltac:(lia)) as (A & B & C & m & M1 & M2 & M3). cbv zeta in *. cbn [answered filter length].
      split; [exact A|]. split; [intros T U; inversion U; subst; cbn [retime] in Ht; congruence|]. split; [lia|].
      exists m. split; [lia|]. split; [lia|]. intros [G|G]; [discriminate|]. exact (M3 G).
Qed.

(** Calls without changes of timeout and deadline. *)
Lemma timed_calls_keep : forall fuel n qi w, timed_calls fuel (repeat TKeep n) qi w = calls fuel n qi w /\
  after_timed_calls fuel (repeat TKeep n) qi w = after_calls fuel n qi w.
Proof.
  induction n as [|n IH]; intros qi w; [split; reflexivity|]. cbn [repeat timed_calls after_timed_calls calls after_calls].
  assert (E : set_timing TKeep qi = qi) by (destruct qi; reflexivity). rewrite E.
  destruct (qnext fuel qi w) as [[r qi'] w']. destruct (IH qi' w') as [-> ->]. split; reflexivity.
Qed.
Lemma keep_untouched : forall n, untouched (repeat TKeep n).
Proof. induction n; constructor; auto. Qed.
Lemma lists_calls : forall q it es, lists q it es -> exists qi, it = Ok qi /\
  forall w n, w_offset w <= q_offset q -> eventually (fun fuel =>
    let rs := calls fuel n qi w in
    let left_over := w_offset (after_calls fuel n qi w) in
    answered rs = listing (skipn (N.to_nat (w_offset w)) es) (length (answered rs)) /\
    (q_do_timeout q = false -> q_do_deadline q = false -> ~ In QTimeout rs) /\
    left_over <= w_offset w /\
    (In QEnd rs -> left_over = w_offset w - N.of_nat (length es))).
Proof.
  intros q it es (qi & E & H). exists qi. split; [exact E|]. intros w n HW.
  destruct (H w (repeat TKeep n) HW) as (F & HF). exists F. intros fuel Hf. specialize (HF fuel Hf). cbv zeta in *.
  destruct (timed_calls_keep fuel n qi w) as [E1 E2]. rewrite E1, E2 in HF. destruct HF as (A & B & C).
  split; [exact A|]. split; [intros X Y; apply B; auto; apply keep_untouched|exact C].
Qed.

Lemma decodes_skipn : forall n t es, decodes t es -> decodes (skipn n t) (skipn n es).
Proof. induction n as [|n IH]; intros t es H; [exact H|]. inversion H; subst; [constructor|]. cbn [skipn]. apply IH. assumption. Qed.

Lemma decoded_skipn : forall n t es, decoded t es -> exists es', decoded (skipn n t) es'.
Proof. induction n as [|n IH]; intros t es H; [exists es; exact H|]. inversion H; subst; [exists []; constructor| |]; cbn [skipn]; eauto. Qed.

Lemma decodes_length : forall t es, decodes t es -> length t = length es.
Proof. intros t es H. induction H; cbn; congruence. Qed.

Lemma decoded_fun : forall t es, decoded t es -> forall es', decoded t es' -> es = es'.
Proof. intros t es H. induction H as [|e en t es HE H IH|e t es HE H IH]; intros es' H'; inversion H'; subst; try congruence; [f_equal; [congruence|]|]; auto. Qed.

Lemma qs_lists_decodable : forall q s qi l es, (forall w, w_offset w <= q_offset q -> qs q s qi w l) -> decoded l es -> lists_decodable q (Ok qi) l.
Proof.
  intros q s qi l es HQ HE. exists qi. split; [reflexivity|]. intros w ts HO.
  destruct (decoded_skipn (N.to_nat (w_offset w)) l es HE) as (es' & HE'). exists es'. split; [exact HE'|].
  destruct (calls_ok s ts q qi w l es' (HQ w HO) HE') as (F & H).
  exists F. intros fuel Hf. destruct (H fuel Hf) as (A & B & C & m & M1 & M2 & M3). split; [exact A|].
  split; [intros T1 T2; apply B; unfold is_timed; rewrite T1, T2; reflexivity|]. split; [exact C|].
  intro G. rewrite (M3 G) in M2. lia.
Qed.

Lemma qs_lists : forall q s qi l es, (forall w, w_offset w <= q_offset q -> qs q s qi w l) -> decodes l es -> lists q (Ok qi) es.
Proof.
  intros q s qi l es HQ HE. exists qi. split; [reflexivity|]. intros w ts HO.
  destruct (calls_ok s ts q qi w l (skipn (N.to_nat (w_offset w)) es) (HQ w HO) (decodes_decoded _ _ (decodes_skipn _ _ _ HE))) as (F & H).
  exists F. intros fuel Hf. destruct (H fuel Hf) as (A & B & C & m & M1 & M2 & M3). split; [exact A|].
  split; [intros T1 T2; apply B; unfold is_timed; rewrite T1, T2; reflexivity|]. split; [exact C|].
  intro G. rewrite (M3 G) in M2. rewrite <- (decodes_length _ _ HE). lia.
Qed.

(** Iterators that look up one prefix or range. *)
Theorem direct_lists : forall q h s full es qi, qi_query qi = q -> qi_source qi = with_offset q s ->
  qi_kind qi = Direct (open h (with_offset q s)) ->
  den h s full -> (src_timeout s = true -> is_timed q = true) -> decodes full es -> lists q (Ok qi) es.
Proof.
  intros q h s full es qi EQ ES EK HD HT HE. apply (qs_lists q s qi full es); [|exact HE]. intros w HO.
  assert (H0 : q_offset q = 0 -> w_offset w = 0) by (intro Z; lia).
  unfold qs. rewrite EK. repeat (split; [auto; fail|]). apply stands_open; auto.
Qed.

(** Iterators driven by an index. *)
Theorem indirect_lists : forall q s tb idx idxfull groups es qi, qi_query qi = q -> qi_source qi = with_offset q s ->
  qi_kind qi = Indirect tb idx None ->
  R idx idxfull idxfull -> (has_timeout idx = true -> is_timed q = true) ->
  (src_timeout s = true -> is_timed q = true) ->
  Forall2 (looked q tb s) idxfull groups -> decodes (concat groups) es -> lists q (Ok qi) es.
Proof.
  intros q s tb idx idxfull groups es qi EQ ES EK HR HT HTs HG HE. apply (qs_lists q s qi (concat groups) es); [|exact HE]. intros w HO.
  assert (H0 : q_offset q = 0 -> w_offset w = 0) by (intro Z; lia).
  unfold qs. rewrite EK. repeat (split; [auto; fail|]). exists idxfull, idxfull, groups. auto.
Qed.

Theorem direct_lists_decodable : forall q h s full es qi, qi_query qi = q -> qi_source qi = with_offset q s ->
  qi_kind qi = Direct (open h (with_offset q s)) ->
  den h s full -> (src_timeout s = true -> is_timed q = true) -> decoded full es -> lists_decodable q (Ok qi) full.
Proof.
  intros q h s full es qi EQ ES EK HD HT HE. apply (qs_lists_decodable q s qi full es); [|exact HE]. intros w HO.
  assert (H0 : q_offset q = 0 -> w_offset w = 0) by (intro Z; lia).
  unfold qs. rewrite EK. repeat (split; [auto; fail|]). apply stands_open; auto.
Qed.

Theorem indirect_lists_decodable : forall q s tb idx idxfull groups es qi, qi_query qi = q -> qi_source qi = with_offset q s ->
  qi_kind qi = Indirect tb idx None ->
  R idx idxfull idxfull -> (has_timeout idx = true -> is_timed q = true) ->
  (src_timeout s = true -> is_timed q = true) ->
  Forall2 (looked q tb s) idxfull groups -> decoded (concat groups) es -> lists_decodable q (Ok qi) (concat groups).
Proof.
  intros q s tb idx idxfull groups es qi EQ ES EK HR HT HTs HG HE. apply (qs_lists_decodable q s qi (concat groups) es); [|exact HE]. intros w HO.
  assert (H0 : q_offset q = 0 -> w_offset w = 0) by (intro Z; lia).
  unfold qs. rewrite EK. repeat (split; [auto; fail|]). exists idxfull, idxfull, groups. auto.
Qed.
