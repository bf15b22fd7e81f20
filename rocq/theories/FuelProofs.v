(** The step bounds of the model do not matter: once a computation finishes within a
    bound, it gives the same for every larger one. *)
From Verif Require Import Base ModelEntry ModelIter ModelQuery SpecIter ModelReader.

Lemma match_entry_mono : forall f key re w x, match_entry f key re w = Some x ->
  forall f', (f <= f')%nat -> match_entry f' key re w = Some x.
Proof.
  induction f as [|f IH]; intros key re w x H f' HL; [discriminate H|]. destruct f' as [|f']; [lia|].
  cbn [match_entry] in *. destruct (re_finished re); [exact H|]. destruct (re_it re) as [b|]; [|exact H].
  destruct (bytes_compare (re_key re) key); try exact H. destruct (base_seek key b w) as [ok b1]. destruct ok; [|exact H].
  destruct (base_next b1) as [[e|] b2]; [|exact H]. apply (IH _ _ _ _ H). lia.
Qed.

Lemma match_key_mono : forall h key val l f w x, match_key f h key val l w = Some x ->
  forall f', (f <= f')%nat -> match_key f' h key val l w = Some x.
Proof.
  intros h key val. induction l as [|re l IH]; intros f w x H f' HL; [exact H|]. cbn [match_key] in *.
  destruct (open_entry h key re w) as [re1 w1]. destruct (match_entry f key re1 w1) as [[[m re2] w2]|] eqn:E; [|discriminate H].
  rewrite (match_entry_mono _ _ _ _ _ E f' HL). destruct m; [exact H|].
  destruct (match_key f h key val l w2) as [y|] eqn:E2; [|discriminate H]. rewrite (IH _ _ _ E2 f' HL). exact H.
Qed.

Lemma join_right_mono : forall f mf rb rkv fin lk lv w o rb' rkv' fin' w',
  join_right f mf rb rkv fin lk lv w = (o, rb', rkv', fin', w') -> o <> OHang ->
  forall f', (f <= f')%nat -> join_right f' mf rb rkv fin lk lv w = (o, rb', rkv', fin', w').
Proof.
  induction f as [|f IH]; intros mf rb rkv fin lk lv w o rb' rkv' fin' w' H HO f' HL; [injection H as <- _ _ _ _; congruence|].
  destruct f' as [|f']; [lia|]. cbn [join_right] in *. destruct fin; [exact H|].
  destruct (match rkv with Some e => (Some e, rb) | None => base_next rb end) as [[[rk rv]|] rb1]; [|exact H].
  destruct (bytes_compare rk lk); try exact H. destruct (base_seek lk rb1 w) as [ok rb2]. destruct ok; [|exact H].
  apply (IH _ _ _ _ _ _ _ _ _ _ _ _ H HO). lia.
Qed.

Lemma next_mono : forall f it w o it' w', next f it w = (o, it', w') -> o <> OHang ->
  forall f', (f <= f')%nat -> next f' it w = (o, it', w').
Proof.
  induction f as [|f IH]; intros it w o it' w' H HO f' HL; [injection H as <- _ _; congruence|].
  destruct f' as [|f']; [lia|]. assert (HL' : (f <= f')%nat) by lia. cbn [next] in *.
  destruct it as [b|s ff u|u|h rms u|mf rb rkv fin u].
  - exact H.
  - destruct (next f u w) as [[o1 u1] w1] eqn:E. destruct o1 as [[k v]| | | | |].
    2-5: rewrite (IH _ _ _ _ _ E ltac:(discriminate) f' HL'); exact H.
    2: injection H as <- _ _; congruence.
    rewrite (IH _ _ _ _ _ E ltac:(discriminate) f' HL'). destruct (ff w1 k v) as [fr w2]. destruct fr as [| |k'| | |]; try exact H.
    + apply (IH _ _ _ _ _ H HO). exact HL'.
    + destruct (seek k' u1 (note (EvSeek s k') (bump s CSeek w2))) as [[ok u2] w3]. destruct ok; [|exact H].
      apply (IH _ _ _ _ _ H HO). exact HL'.
  - destruct (gettime w) as [now w1]. destruct (ts_cmp now (w_deadline w1)); try exact H.
    destruct (next f u w1) as [[o1 u1] w2] eqn:E. injection H as -> <- <-. rewrite (IH _ _ _ _ _ E HO f' HL'). reflexivity.
  - destruct (next f u w) as [[o1 u1] w1] eqn:E. destruct o1 as [[k v]| | | | |].
    2-5: rewrite (IH _ _ _ _ _ E ltac:(discriminate) f' HL'); exact H.
    2: injection H as <- _ _; congruence.
    rewrite (IH _ _ _ _ _ E ltac:(discriminate) f' HL').
    destruct (match_key f h k v rms w1) as [[[m rms'] w2]|] eqn:E2; [|injection H as <- _ _; congruence].
    rewrite (match_key_mono _ _ _ _ _ _ _ E2 f' HL'). destruct m; [|exact H]. apply (IH _ _ _ _ _ H HO). exact HL'.
  - destruct (next f u w) as [[o1 u1] w1] eqn:E. destruct o1 as [[k v]| | | | |].
    2-5: rewrite (IH _ _ _ _ _ E ltac:(discriminate) f' HL'); exact H.
    2: injection H as <- _ _; congruence.
    rewrite (IH _ _ _ _ _ E ltac:(discriminate) f' HL').
    destruct (join_right f mf rb rkv fin k v w1) as [[[[o2 rb'] rkv'] fin'] w2] eqn:E2. injection H as -> <- <-.
    rewrite (join_right_mono _ _ _ _ _ _ _ _ _ _ _ _ _ E2 HO f' HL'). reflexivity.
Qed.

Ltac stop_hang H := injection H; intros; congruence.

Lemma direct_loop_mono : forall n f it w r it' w', direct_loop n f it w = (r, it', w') -> r <> QHang ->
  forall n' f', (n <= n')%nat -> (f <= f')%nat -> direct_loop n' f' it w = (r, it', w').
Proof.
  induction n as [|n IH]; intros f it w r it' w' H HR n' f' HN HF; [injection H as <- _ _; congruence|].
  destruct n' as [|n']; [lia|]. cbn [direct_loop] in *. destruct (next f it w) as [[o it1] w1] eqn:E.
  destruct o as [[k v]| | | | |]; try (rewrite (next_mono _ _ _ _ _ _ E ltac:(discriminate) f' HF)); try exact H.
  2: injection H as <- _ _; congruence.
  destruct (entry_decode k v); try exact H. apply (IH _ _ _ _ _ _ H HR); lia.
Qed.

Lemma indirect_loop_mono : forall q src tb n f idx cur w r idx' cur' w',
  indirect_loop n f q src tb idx cur w = (r, idx', cur', w') -> r <> QHang ->
  forall n' f', (n <= n')%nat -> (f <= f')%nat -> indirect_loop n' f' q src tb idx cur w = (r, idx', cur', w').
Proof.
  intros q src tb. induction n as [|n IH]; intros f idx cur w r idx' cur' w' H HR n' f' HN HF; [injection H as <- _ _ _; congruence|].
  destruct n' as [|n']; [lia|]. cbn [indirect_loop] in *. destruct cur as [it|].
  - destruct (next f it w) as [[o it1] w1] eqn:E.
    destruct o as [[k v]| | | | |]; try (rewrite (next_mono _ _ _ _ _ _ E ltac:(discriminate) f' HF)); try exact H.
    3: injection H as <- _ _ _; congruence.
    + destruct (entry_decode k v); try exact H. apply (IH _ _ _ _ _ _ _ _ H HR); lia.
    + apply (IH _ _ _ _ _ _ _ _ H HR); lia.
  - destruct (next f idx w) as [[o it1] w1] eqn:E.
    destruct o as [[k v]| | | | |]; try (rewrite (next_mono _ _ _ _ _ _ E ltac:(discriminate) f' HF)); try exact H.
    2: injection H as <- _ _ _; congruence.
    destruct (index_lookup_key q tb k v) as [[fk|]| | | |]; try exact H; apply (IH _ _ _ _ _ _ _ _ H HR); lia.
Qed.

(** A call of dnstable_iter_next that finishes within a bound. *)
Theorem qnext_mono : forall f qi w r qi' w', qnext f qi w = (r, qi', w') -> r <> QHang ->
  forall f', (f <= f')%nat -> qnext f' qi w = (r, qi', w').
Proof.
  intros f qi w r qi' w' H HR f' HF. unfold qnext in *. destruct (qi_kind qi) as [it|tb idx cur].
  - destruct (direct_loop f f it _) as [[r1 it1] w1] eqn:E in H. injection H as -> <- <-.
    rewrite (direct_loop_mono _ _ _ _ _ _ _ E HR f' f' HF HF). reflexivity.
  - destruct (indirect_loop f f _ _ tb idx cur _) as [[[r1 idx1] cur1] w1] eqn:E in H. injection H as -> <- <-.
    rewrite (indirect_loop_mono _ _ _ _ _ _ _ _ _ _ _ _ E HR f' f' HF HF). reflexivity.
Qed.

(** One call on an iterator over a reader. *)
Theorem reader_next_mono : forall f b r b', reader_next f b = (r, b') -> r <> QHang ->
  forall f', (f <= f')%nat -> reader_next f' b = (r, b').
Proof.
  induction f as [|f IH]; intros b r b' H HR f' HF; [injection H as <- _; congruence|].
  destruct f' as [|f']; [lia|]. cbn [reader_next] in *. destruct (base_next b) as [[[k v]|] b1]; [|exact H].
  destruct (entry_decode k v); try exact H. apply (IH _ _ _ H HR). lia.
Qed.
