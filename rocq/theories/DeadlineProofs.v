(** Proofs about timeouts. *)
From Verif Require Import Base BaseFacts ModelEntry ModelIter SpecIter IterProofs ModelQuery QueryProofs SpecDeadline.

Lemma normalize_ok : forall n s ns, (0 <= ns)%Z -> (ns < (Z.of_nat n + 1) * 1000000000)%Z ->
  nanos (ts_normalize n s ns) = (s * 1000000000 + ns)%Z /\ normal (ts_normalize n s ns).
Proof.
  induction n as [|n IH]; intros s ns H0 H; cbn [ts_normalize].
  - split; [reflexivity|]. unfold normal. cbn [tv_nsec]. lia.
  - destruct (Z.leb_spec 1000000000 ns) as [L|L].
    + destruct (IH (s + 1)%Z (ns - 1000000000)%Z ltac:(lia) ltac:(lia)) as [A B]. split; [rewrite A; lia|exact B].
    + split; [reflexivity|]. unfold normal. cbn [tv_nsec]. lia.
Qed.

Lemma ts_add_ok : forall a b, normal a -> normal b -> nanos (ts_add a b) = (nanos b + nanos a)%Z /\ normal (ts_add a b).
Proof.
  intros a b Ha Hb. unfold normal in Ha, Hb. unfold ts_add. set (ns := (tv_nsec b + tv_nsec a)%Z).
  assert (0 <= ns)%Z by (unfold ns; lia).
  destruct (normalize_ok (Z.to_nat (ns / 1000000000)) (tv_sec b + tv_sec a) ns) as [A B]; [lia|lia|].
  split; [|exact B]. rewrite A. unfold nanos, ns. lia.
Qed.

Lemma ts_cmp_ok : forall a b, normal a -> normal b -> ts_cmp a b = (nanos a ?= nanos b)%Z.
Proof.
  intros a b Ha Hb. unfold normal in *. unfold ts_cmp, nanos.
  destruct (Z.compare_spec (tv_sec a) (tv_sec b)) as [E|L|L].
  - rewrite E. destruct (Z.compare_spec (tv_nsec a) (tv_nsec b)); symmetry; [apply Z.compare_eq_iff|apply Z.compare_lt_iff|apply Z.compare_gt_iff]; lia.
  - symmetry. apply Z.compare_lt_iff. lia.
  - symmetry. apply Z.compare_gt_iff. lia.
Qed.

(** ** Which steps read the clock *)

Definition same_clock (w w' : world) : Prop :=
  w_now w' = w_now w /\ w_deadline w' = w_deadline w /\ w_tick w' = w_tick w.

Lemma same_clock_trans : forall a b c, same_clock a b -> same_clock b c -> same_clock a c.
Proof. intros a b c (A & B & C) (A' & B' & C'). repeat split; congruence. Qed.

(** Filter functions that touch neither clock nor counters. *)
Definition calm_filter (f : filter_fn) : Prop := forall w k v,
  same_clock w (snd (f w k v)) /\ w_cnt (snd (f w k v)) = w_cnt w /\ w_log (snd (f w k v)) = w_log w.

Fixpoint calm (it : iter) : Prop :=
  match it with
  | IBase _ => True
  | IFilter _ f u => calm_filter f /\ calm u
  | ITimeout u => calm u
  | IRemove _ _ u => calm u
  | ILjoin _ _ _ _ u => calm u
  end.
Fixpoint scalm (s : source) : Prop :=
  match s with
  | SBase _ => True
  | SFilter _ f u => calm_filter f /\ scalm u
  | STimeout u => scalm u
  | SRemove _ u => scalm u
  | SLjoin _ _ u => scalm u
  end.

Lemma calm_quiet : forall it, calm it -> quiet it.
Proof. intro it. induction it; cbn [calm quiet]; auto. intros [H1 H2]. split; [intros w k v; apply H1|auto]. Qed.

Lemma open_calm : forall h s, scalm s -> calm (open h s).
Proof. intros h s. induction s; cbn [scalm open calm]; intuition. Qed.

Lemma remove_entry_seek_clock : forall k re w, same_clock w (snd (remove_entry_seek k re w)).
Proof.
  intros k re w. unfold remove_entry_seek.
  repeat match goal with |- context [match ?x with _ => _ end] => destruct x end; cbn; repeat split; reflexivity.
Qed.

Lemma remove_entries_seek_clock : forall k l w, same_clock w (snd (remove_entries_seek k l w)).
Proof.
  intros k l. induction l as [|re l IH]; intro w; cbn [remove_entries_seek]; [repeat split; reflexivity|].
  pose proof (remove_entry_seek_clock k re w) as H. destruct (remove_entry_seek k re w) as [re' w1].
  specialize (IH w1). destruct (remove_entries_seek k l w1) as [l' w2]. cbn [snd] in *. eapply same_clock_trans; eauto.
Qed.

Lemma seek_clock : forall k it w, calm it ->
  let r := seek k it w in same_clock w (snd r) /\ calm (snd (fst r)) /\ has_timeout (snd (fst r)) = has_timeout it.
Proof.
  intros k it. induction it as [b|s f u IH|u IH|h rms u IH|mf rb rk fin u IH]; intros w HC; cbn [seek calm has_timeout] in *.
  - destruct (base_seek k b w). cbn. repeat split; reflexivity.
  - destruct HC as [HF HC]. specialize (IH w HC). destruct (seek k u w) as [[ok u'] w']. cbn [fst snd calm has_timeout] in *. tauto.
  - specialize (IH w HC). destruct (seek k u w) as [[ok u'] w']. cbn [fst snd calm has_timeout] in *. tauto.
  - pose proof (remove_entries_seek_clock k rms w) as H. destruct (remove_entries_seek k rms w) as [rms' w1]. cbn [snd] in H.
    specialize (IH w1 HC). destruct (seek k u w1) as [[ok u'] w']. cbn [fst snd calm has_timeout] in *. split; [|tauto]. eapply same_clock_trans; [eauto|tauto].
  - specialize (IH w HC). destruct (seek k u w) as [[ok u'] w']. cbn [fst snd] in IH. destruct ok.
    + destruct (base_seek k rb w') as [rok rb']. cbn [fst snd calm has_timeout]. tauto.
    + cbn [fst snd calm has_timeout]. tauto.
Qed.

Lemma match_entry_clock : forall f key re w b re' w', match_entry f key re w = Some (b, re', w') -> same_clock w w'.
Proof.
  induction f as [|f IH]; intros key re w b re' w' H; [discriminate|]. cbn [match_entry] in H.
  destruct (re_finished re); [inversion H; subst; repeat split; reflexivity|].
  destruct (re_it re) as [bi|]; [|inversion H; subst; repeat split; reflexivity].
  destruct (bytes_compare (re_key re) key); try (inversion H; subst; repeat split; reflexivity).
  destruct (base_seek key bi w) as [ok b1]. destruct ok; [|inversion H; subst; repeat split; reflexivity].
  destruct (base_next b1) as [[e|] b2].
  - apply IH in H. exact H.
  - inversion H; subst; repeat split; reflexivity.
Qed.

Lemma match_key_clock : forall f h key val l w b l' w', match_key f h key val l w = Some (b, l', w') -> same_clock w w'.
Proof.
  intros f h key val l. induction l as [|re l IH]; intros w b l' w' H; cbn [match_key] in H; [inversion H; subst; repeat split; reflexivity|].
  assert (HO : same_clock w (snd (open_entry h key re w))).
  { unfold open_entry. repeat match goal with |- context [match ?x with _ => _ end] => destruct x end; cbn; repeat split; reflexivity. }
  destruct (open_entry h key re w) as [re1 w1]. cbn [snd] in HO.
  destruct (match_entry f key re1 w1) as [[[[|] re2] w2]|] eqn:EM; [| |discriminate]; apply match_entry_clock in EM.
  - inversion H; subst. eapply same_clock_trans; [exact HO|]. exact EM.
  - destruct (match_key f h key val l w2) as [[[[|] l2] w3]|] eqn:EK; [| |discriminate]; apply IH in EK;
      pose proof (same_clock_trans _ _ _ HO (same_clock_trans _ _ _ EM EK)) as A.
    + destruct l2; inversion H; subst; exact A.
    + inversion H; subst; exact A.
Qed.

Lemma join_right_clock : forall f mf rb rkv fin lk lv w o rb' rkv' fin' w',
  join_right f mf rb rkv fin lk lv w = (o, rb', rkv', fin', w') -> same_clock w w' /\ o <> OExpired.
Proof.
  induction f as [|f IH]; intros mf rb rkv fin lk lv w o rb' rkv' fin' w' H; cbn [join_right] in H.
  - inversion H; subst. split; [repeat split; reflexivity|discriminate].
  - repeat match type of H with
    | context [join_right] => fail 1
    | context [match ?x with _ => _ end] => destruct x
    end; try (inversion H; subst; split; [repeat split; reflexivity|discriminate]).
    all: repeat match type of H with
    | join_right _ _ _ _ _ _ _ _ = _ => fail 1
    | context [match ?x with _ => _ end] => destruct x
    end; try (inversion H; subst; split; [repeat split; reflexivity|discriminate]).
    all: apply IH in H; destruct H as [H1 H2]; split; [exact H1|exact H2].
Qed.

(** What one step does to the clock. *)
Definition before (w : world) (n : nat) : Prop := ts_cmp (w_now w n) (w_deadline w) = Lt.

Definition clock_post (w : world) (expired : Prop) (w' : world) : Prop :=
  w_now w' = w_now w /\ w_deadline w' = w_deadline w /\ (w_tick w <= w_tick w')%nat /\
  (~ expired -> forall n, (w_tick w <= n < w_tick w')%nat -> before w n) /\
  (expired -> exists n, w_tick w' = S n /\ (w_tick w <= n)%nat /\ ~ before w n /\ forall m, (w_tick w <= m < n)%nat -> before w m).

Lemma clock_post_refl : forall w w' (E : Prop), same_clock w w' -> ~ E -> clock_post w E w'.
Proof. intros w w' E (A & B & C) HE. unfold clock_post. split; [exact A|]. split; [exact B|]. split; [lia|]. split; [intros _ n Hn; lia|]. tauto. Qed.

Lemma before_eq : forall w w', w_now w' = w_now w -> w_deadline w' = w_deadline w -> forall n, before w' n <-> before w n.
Proof. intros w w' A B n. unfold before. rewrite A, B. tauto. Qed.

Lemma clock_post_trans : forall w (E1 : Prop) w1 E w2, clock_post w E1 w1 -> ~ E1 -> clock_post w1 E w2 -> clock_post w E w2.
Proof.
  intros w E1 w1 E w2 (A & B & C & D & _) HE1 (A' & B' & C' & D' & F').
  pose proof (before_eq w w1 A B) as BE.
  split; [congruence|]. split; [congruence|]. split; [lia|]. split.
  - intros HE n Hn. destruct (Nat.lt_ge_cases n (w_tick w1)) as [L|L]; [apply D; auto; lia|]. apply BE. apply D'; auto; lia.
  - intro HE. destruct (F' HE) as (n & X & Y & Z & T). exists n. split; [exact X|]. split; [lia|]. split; [rewrite <- BE; exact Z|].
    intros m Hm. destruct (Nat.lt_ge_cases m (w_tick w1)) as [L|L]; [apply D; auto; lia|]. apply BE. apply T. lia.
Qed.

Lemma clock_post_pre : forall w w0 E w', same_clock w w0 -> clock_post w0 E w' -> clock_post w E w'.
Proof. intros w w0 E w' H H'. apply (clock_post_trans w False w0); [apply clock_post_refl; auto|auto|exact H']. Qed.

Lemma clock_post_end : forall w (E : Prop) w1 (E' : Prop) w2, clock_post w E w1 -> ~ E -> same_clock w1 w2 -> ~ E' -> clock_post w E' w2.
Proof. intros. eapply clock_post_trans; eauto. apply clock_post_refl; auto. Qed.

Lemma next_clock : forall fuel it w o it' w', calm it -> next fuel it w = (o, it', w') ->
  clock_post w (o = OExpired) w' /\ calm it' /\ has_timeout it' = has_timeout it /\
  (has_timeout it = false -> o <> OExpired) /\ (has_timeout it = true -> o <> OHang -> (w_tick w < w_tick w')%nat).
Proof.
  induction fuel as [|fuel IH]; intros it w o it' w' HC H.
  { cbn in H. inversion H; subst. split; [apply clock_post_refl; [repeat split; reflexivity|discriminate]|]. repeat split; auto; try discriminate. congruence. }
  cbn [next] in H. destruct it as [b|s f u|u|h rms u|mf rb rkv fin u]; cbn [calm has_timeout] in *.
  - destruct (base_next b) as [[e|] b']; inversion H; subst;
      (split; [apply clock_post_refl; [repeat split; reflexivity|discriminate]|]; repeat split; auto; discriminate).
  - destruct HC as [HF HC]. destruct (next fuel u w) as [[o1 u1] w1] eqn:E1. destruct (IH _ _ _ _ _ HC E1) as (P1 & C1 & T1 & N1 & K1).
    assert (base : forall o', o1 = o' -> (o', IFilter s f u1, w1) = (o, it', w') ->
       clock_post w (o = OExpired) w' /\ calm it' /\ has_timeout it' = has_timeout u /\
       (has_timeout u = false -> o <> OExpired) /\ (has_timeout u = true -> o <> OHang -> (w_tick w < w_tick w')%nat)).
    { intros o' -> X. inversion X; subst. split; [exact P1|]. split; [split; auto|]. split; [exact T1|]. split; auto. }
    destruct o1 as [[k v]| | | | |]; try (eapply base; [reflexivity|exact H]).
    assert (HN : OOk (k, v) <> OExpired) by discriminate. assert (K1' : has_timeout u = true -> (w_tick w < w_tick w1)%nat) by (intro X; apply K1; [exact X|discriminate]).
    pose proof (proj1 (HF w1 k v)) as HFw. destruct (f w1 k v) as [fr w2]. cbn [snd] in HFw.
    assert (fin : forall o' it2 w2', same_clock w1 w2' -> calm it2 -> has_timeout it2 = has_timeout u -> o' <> OExpired ->
       (o', it2, w2') = (o, it', w') ->
       clock_post w (o = OExpired) w' /\ calm it' /\ has_timeout it' = has_timeout u /\
       (has_timeout u = false -> o <> OExpired) /\ (has_timeout u = true -> o <> OHang -> (w_tick w < w_tick w')%nat)).
    { intros o' it2 w2' S2 C2 T2 NE X. inversion X; subst. split; [eapply clock_post_end; eauto|]. split; [exact C2|]. split; [exact T2|].
      split; [auto|]. intros X1 X2. destruct S2 as (_ & _ & ->). auto. }
    assert (rec : forall u2 w2', same_clock w1 w2' -> calm u2 -> has_timeout u2 = has_timeout u ->
       next fuel (IFilter s f u2) w2' = (o, it', w') ->
       clock_post w (o = OExpired) w' /\ calm it' /\ has_timeout it' = has_timeout u /\
       (has_timeout u = false -> o <> OExpired) /\ (has_timeout u = true -> o <> OHang -> (w_tick w < w_tick w')%nat)).
    { intros u2 w2' S2 C2 T2 X. destruct (IH _ _ _ _ _ (conj HF C2 : calm (IFilter s f u2)) X) as (P2 & C3 & T3 & N3 & K3).
      cbn [has_timeout] in *. split; [eapply clock_post_trans; [exact P1|exact HN|]; eapply clock_post_pre; eauto|]. split; [exact C3|].
      split; [congruence|]. split; [rewrite <- T2; exact N3|]. intros X1 X2. specialize (K1' X1). destruct S2 as (_ & _ & S2).
      destruct P2 as (_ & _ & P2 & _). lia. }
    destruct fr as [| |k'| | |].
    + eapply fin; [exact HFw| | | |exact H]; [split; auto|exact T1|discriminate].
    + eapply rec; [|exact C1|exact T1|exact H]. exact HFw.
    + assert (HS := seek_clock k' u1 (note (EvSeek s k') (bump s CSeek w2)) C1).
      destruct (seek k' u1 (note (EvSeek s k') (bump s CSeek w2))) as [[ok u2] w3]. cbn [fst snd] in HS. destruct HS as (S3 & C2 & T2).
      assert (S13 : same_clock w1 w3) by (eapply same_clock_trans; [exact HFw|exact S3]).
      destruct ok.
      * eapply rec; [|exact C2|congruence|exact H]. exact S13.
      * eapply fin; [exact S13| | | |exact H]; [split; auto|cbn; congruence|discriminate].
    + eapply fin; [exact HFw| | | |exact H]; [split; auto|exact T1|discriminate].
    + eapply fin; [exact HFw| | | |exact H]; [split; auto|exact T1|discriminate].
    + eapply fin; [exact HFw| | | |exact H]; [split; auto|exact T1|discriminate].
  - unfold gettime in H. set (w1 := Build_world _ _ _ _ _ _ _) in H.
    assert (EN : w_now w1 = w_now w) by reflexivity. assert (ED : w_deadline w1 = w_deadline w) by reflexivity. assert (ET : w_tick w1 = S (w_tick w)) by reflexivity.
    destruct (ts_cmp (w_now w (w_tick w)) (w_deadline w1)) eqn:EC; rewrite ED in EC.
    + inversion H; subst. cbn [calm has_timeout]. split; [|repeat split; auto; try discriminate; lia].
      unfold clock_post. repeat (split; [auto; try lia; fail|]). split; [tauto|]. intros _. exists (w_tick w). repeat (split; [auto; fail|]).
      split; [unfold before; congruence|]. intros; lia.
    + destruct (next fuel u w1) as [[o2 u2] w2] eqn:E2. inversion H; subst. destruct (IH _ _ _ _ _ HC E2) as (P2 & C2 & T2 & N2 & K2).
      cbn [calm has_timeout]. split; [|repeat split; auto; try discriminate; destruct P2 as (_ & _ & P2 & _); lia].
      apply (clock_post_trans w False w1); [|auto|exact P2]. unfold clock_post. repeat (split; [auto; lia|]). split; [|tauto].
      intros _ n Hn. assert (n = w_tick w) by lia. subst. exact EC.
    + inversion H; subst. cbn [calm has_timeout]. split; [|repeat split; auto; try discriminate; lia].
      unfold clock_post. repeat (split; [auto; try lia; fail|]). split; [tauto|]. intros _. exists (w_tick w). repeat (split; [auto; fail|]).
      split; [unfold before; congruence|]. intros; lia.
  - destruct (next fuel u w) as [[o1 u1] w1] eqn:E1. destruct (IH _ _ _ _ _ HC E1) as (P1 & C1 & T1 & N1 & K1).
    assert (base : forall o', o1 = o' -> (o', IRemove h rms u1, w1) = (o, it', w') ->
       clock_post w (o = OExpired) w' /\ calm it' /\ has_timeout it' = has_timeout u /\
       (has_timeout u = false -> o <> OExpired) /\ (has_timeout u = true -> o <> OHang -> (w_tick w < w_tick w')%nat)).
    { intros o' -> X. inversion X; subst. split; [exact P1|]. split; [exact C1|]. split; [exact T1|]. split; auto. }
    destruct o1 as [[k v]| | | | |]; try (eapply base; [reflexivity|exact H]).
    assert (HN : OOk (k, v) <> OExpired) by discriminate. assert (K1' : has_timeout u = true -> (w_tick w < w_tick w1)%nat) by (intro X; apply K1; [exact X|discriminate]).
    destruct (match_key fuel h k v rms w1) as [[[[|] rms'] w2]|] eqn:EM; [apply match_key_clock in EM|apply match_key_clock in EM|].
    + destruct (IH (IRemove h rms' u1) _ _ _ _ C1 H) as (P2 & C3 & T3 & N3 & K3). cbn [has_timeout] in *.
      split; [eapply clock_post_trans; [exact P1|exact HN|]; eapply clock_post_pre; eauto|]. split; [exact C3|].
      split; [congruence|]. split; [rewrite <- T1; exact N3|]. intros X1 X2. specialize (K1' X1). destruct EM as (_ & _ & S2).
      destruct P2 as (_ & _ & P2 & _). lia.
    + inversion H; subst. split; [eapply clock_post_end; eauto; discriminate|]. split; [exact C1|]. split; [exact T1|]. split; [discriminate|].
      intros X1 _. destruct EM as (_ & _ & ->). auto.
    + inversion H; subst. split; [apply clock_post_refl; [repeat split; reflexivity|discriminate]|]. repeat split; auto; try discriminate. congruence.
  - destruct (next fuel u w) as [[o1 u1] w1] eqn:E1. destruct (IH _ _ _ _ _ HC E1) as (P1 & C1 & T1 & N1 & K1).
    assert (base : forall o', o1 = o' -> (o', ILjoin mf rb rkv fin u1, w1) = (o, it', w') ->
       clock_post w (o = OExpired) w' /\ calm it' /\ has_timeout it' = has_timeout u /\
       (has_timeout u = false -> o <> OExpired) /\ (has_timeout u = true -> o <> OHang -> (w_tick w < w_tick w')%nat)).
    { intros o' -> X. inversion X; subst. split; [exact P1|]. split; [exact C1|]. split; [exact T1|]. split; auto. }
    destruct o1 as [[k v]| | | | |]; try (eapply base; [reflexivity|exact H]).
    assert (HN : OOk (k, v) <> OExpired) by discriminate. assert (K1' : has_timeout u = true -> (w_tick w < w_tick w1)%nat) by (intro X; apply K1; [exact X|discriminate]).
    destruct (join_right fuel mf rb rkv fin k v w1) as [[[[o2 rb'] rkv'] fin'] w2] eqn:EJ. apply join_right_clock in EJ. destruct EJ as [EJ NE].
    inversion H; subst. split; [eapply clock_post_end; eauto|]. split; [exact C1|]. split; [exact T1|]. split; [auto|].
    intros X1 _. destruct EJ as (_ & _ & ->). auto.
Qed.

(** ** The query's iterators *)

Definition timed_calm (q : query) (qi : qiter) : Prop :=
  qi_query qi = q /\ scalm (qi_source qi) /\ src_timeout (qi_source qi) = is_timed q /\
  match qi_kind qi with
  | Direct it => calm it /\ has_timeout it = is_timed q
  | Indirect _ idx cur =>
      (calm idx /\ has_timeout idx = is_timed q) /\
      match cur with Some it => calm it /\ has_timeout it = is_timed q | None => True end
  end.

Ltac calm_step := cbn [scalm src_timeout p_source p_index p_key2 calm has_timeout] in *.

Lemma plain_calm : forall g : bytes -> bytes -> fres, calm_filter (fun w k v => (g k v, w)).
Proof. intros g w k v. repeat split; reflexivity. Qed.
Lemma offset_calm : calm_filter filter_offset.
Proof. intros w k v. unfold filter_offset. destruct (0 <? w_offset w); repeat split; reflexivity. Qed.
Lemma cond_calm : forall c st f s, calm_filter f -> scalm s -> scalm (filter_set_cond c st f s).
Proof. intros [|] st f s HF HS; cbn; auto. Qed.
Lemma cond_tm : forall c st f s, src_timeout (filter_set_cond c st f s) = src_timeout s.
Proof. intros [|] st f s; reflexivity. Qed.
Lemma bw_calm : forall q s, scalm s -> scalm (opt_filter_bailiwick q s) /\ src_timeout (opt_filter_bailiwick q s) = src_timeout s.
Proof. intros q s H. unfold opt_filter_bailiwick. destruct (q_bailiwick q) as [bw|]; cbn; auto. split; [split; [apply (plain_calm (fun k _ => bailiwick_res bw k))|exact H]|reflexivity]. Qed.

Lemma bw_tm : forall q s, src_timeout (opt_filter_bailiwick q s) = src_timeout s.
Proof. intros q s. unfold opt_filter_bailiwick. destruct (q_bailiwick q); reflexivity. Qed.

Lemma query_init_calm : forall q s idx p, scalm s -> scalm idx -> query_init q s idx = Ok p ->
  scalm (p_source p) /\ src_timeout (p_source p) = src_timeout s /\
  match p_index p with Some (_, it) => calm it /\ has_timeout it = src_timeout idx | None => True end.
Proof.
  intros q s idx p HS HI H.
  assert (F1 : forall n, calm_filter (filter_single_label n)) by (intro n; apply (plain_calm (fun k _ => single_label_res n k))).
  assert (F2 : calm_filter (filter_rrtype q)) by apply (plain_calm (fun k _ => rrtype_res (q_rrtype q) k)).
  assert (F3 : calm_filter filter_rrtype_rdata_name) by apply (plain_calm (fun k _ => rdata_name_res k)).
  assert (F4 : forall n, calm_filter (filter_rrtype_ip q n)) by (intro n; apply (plain_calm (fun k _ => rrtype_ip_res q n k))).
  unfold query_init in H. destruct (q_type q).
  - unfold init_rrset, init_rrset_left_wildcard, init_rrset_right_wildcard in H. destruct (is_left_wildcard (name_data q)) as [wp|].
    + destruct (reverse_buf _ _); inversion H; subst; calm_step. split; [|split; [|exact I]].
      * apply bw_calm. repeat apply cond_calm; auto.
      * rewrite bw_tm, !cond_tm. reflexivity.
    + destruct (is_right_wildcard (name_data q)) as [wp|].
      * inversion H; subst; calm_step. split; [apply bw_calm; apply cond_calm; auto|]. split.
        { rewrite bw_tm. apply cond_tm. }
        split; [apply open_calm, cond_calm; auto|]. rewrite has_timeout_open. apply cond_tm.
      * destruct (reverse_buf _ _); try discriminate. cbn [bind] in H. destruct (q_do_rrtype q).
        { destruct (add_rrtype_to_key _ _); inversion H; subst; calm_step. auto. }
        inversion H; subst; calm_step. destruct (bw_calm q s HS). auto.
  - unfold init_rdata_name in H. set (s1 := SFilter _ _ s) in H.
    assert (S1 : scalm s1 /\ src_timeout s1 = src_timeout s) by (unfold s1; cbn; destruct (q_do_rrtype q); auto).
    clearbody s1. destruct S1 as [S1 T1]. destruct (is_right_wildcard (name_data q)) as [wp|].
    + unfold init_rdata_right_wildcard in H. inversion H; subst; calm_step. rewrite cond_tm. split; [apply cond_calm; auto|auto].
    + destruct (is_left_wildcard (name_data q)) as [wp|].
      * unfold init_rdata_left_wildcard in H. destruct (reverse_buf _ _); inversion H; subst; calm_step.
        repeat (split; [auto; fail|]). split; [apply open_calm, cond_calm; auto|]. rewrite has_timeout_open. apply cond_tm.
      * destruct (if q_do_rrtype q && name_type_standalone (q_rrtype q) then _ else _); inversion H; subst; calm_step. auto.
  - unfold init_rdata_ip in H. destruct (negb (q_do_rrtype q)); [discriminate|]. destruct (q_len_ip1 q =? 0); [discriminate|].
    destruct (add_rrtype_to_key _ _); try discriminate. cbn [bind] in H.
    match type of H with (let* _ := ?x in _) = _ => destruct x end; inversion H; subst; calm_step. auto.
  - unfold init_rdata_raw in H. match type of H with (if ?x then _ else _) = _ => destruct x end; inversion H; subst; calm_step.
    rewrite cond_tm. split; [apply cond_calm; auto|auto].
  - inversion H; subst; calm_step. auto.
  - inversion H; subst; calm_step. auto.
  - inversion H; subst; calm_step. auto.
Qed.

Lemma stack_calm : forall q fc s, scalm s -> scalm (stack_filters q fc s) /\ src_timeout (stack_filters q fc s) = src_timeout s.
Proof.
  intros q fc s H. unfold stack_filters.
  assert (P : calm_filter (filter_time_prefilter q)) by apply (plain_calm (fun _ v => time_res q true v)).
  assert (T : calm_filter (filter_time q)) by apply (plain_calm (fun _ v => time_res q false v)).
  pose proof offset_calm.
  destruct (has_time_bound q), (f_remove fc), (f_fill fc), (0 <? q_offset q); cbn; auto.
Qed.

Lemma iter_common_calm : forall q fc s idx qi, scalm s -> scalm idx -> src_timeout s = false -> src_timeout idx = false ->
  query_iter_common q fc s idx = Ok qi -> timed_calm q qi.
Proof.
  intros q fc s idx qi HS HI TS TI H. unfold query_iter_common in H.
  set (s0 := if is_timed q then STimeout s else s) in H. set (i0 := if is_timed q then STimeout idx else idx) in H.
  assert (S0 : scalm s0 /\ src_timeout s0 = is_timed q) by (unfold s0; destruct (is_timed q); cbn; auto).
  assert (I0 : scalm i0 /\ src_timeout i0 = is_timed q) by (unfold i0; destruct (is_timed q); cbn; auto).
  destruct S0 as [S0 S0t], I0 as [I0 I0t].
  destruct (query_init q s0 i0) as [p| | | |] eqn:EP; try discriminate. cbn [bind] in H.
  destruct (query_init_calm q s0 i0 p S0 I0 EP) as (A & B & C).
  destruct (stack_calm q fc (p_source p) A) as [D E]. inversion H; subst. unfold timed_calm. cbn [qi_query qi_source qi_kind].
  split; [reflexivity|]. split; [exact D|]. split; [congruence|].
  destruct (p_index p) as [[tb it]|].
  - destruct C. split; [split; [assumption|congruence]|exact I].
  - destruct (p_key2 p); (split; [apply open_calm; exact D|rewrite has_timeout_open; congruence]).
Qed.

Definition loop_post (q : query) (w : world) (r : qres) (w' : world) : Prop :=
  clock_post w (r = QTimeout) w' /\ (is_timed q = false -> r <> QTimeout) /\ (is_timed q = true -> r <> QHang -> (w_tick w < w_tick w')%nat).

Lemma direct_clock : forall q n fuel it w r it' w', calm it -> has_timeout it = is_timed q -> direct_loop n fuel it w = (r, it', w') ->
  loop_post q w r w' /\ calm it' /\ has_timeout it' = is_timed q.
Proof.
  intros q. induction n as [|n IH]; intros fuel it w r it' w' HC HT H; cbn [direct_loop] in H.
  { inversion H; subst. split; [|auto]. split; [apply clock_post_refl; [repeat split; reflexivity|discriminate]|]. split; [discriminate|congruence]. }
  destruct (next fuel it w) as [[o it1] w1] eqn:EN. destruct (next_clock _ _ _ _ _ _ HC EN) as (P & C & T & N1 & K).
  rewrite HT in *.
  assert (stop : forall r', (r' = QTimeout <-> o = OExpired) -> (o = OHang -> r' = QHang) -> (r', it1, w1) = (r, it', w') ->
    loop_post q w r w' /\ calm it' /\ has_timeout it' = is_timed q).
  { intros r' Hr Hh X. inversion X; subst. split; [|auto]. split.
    - destruct P as (A & B & D & E & F). split; [exact A|]. split; [exact B|]. split; [exact D|]. rewrite Hr. auto.
    - split; [rewrite Hr; exact N1|]. intros X1 X2. apply K; [exact X1|]. intro Ho. apply X2, Hh, Ho. }
  destruct o as [[k v]| | | | |]; try (eapply stop; [| |exact H]; intuition congruence).
  destruct (entry_decode k v) as [en| | | |]; try (eapply stop; [| |exact H]; intuition congruence).
  destruct (IH _ _ _ _ _ _ C ltac:(congruence) H) as ((P2 & N2 & K2) & C2 & T2). split; [|auto]. split; [eapply clock_post_trans; eauto; discriminate|].
  split; [exact N2|]. intros X1 X2. specialize (K X1 ltac:(discriminate)). destruct P2 as (_ & _ & P2 & _). lia.
Qed.

Lemma indirect_clock : forall q src tb, scalm src -> src_timeout src = is_timed q ->
  forall n fuel idx cur w r idx' cur' w', calm idx -> has_timeout idx = is_timed q ->
  match cur with Some it => calm it /\ has_timeout it = is_timed q | None => True end ->
  indirect_loop n fuel q src tb idx cur w = (r, idx', cur', w') ->
  loop_post q w r w' /\ (calm idx' /\ has_timeout idx' = is_timed q) /\
  match cur' with Some it => calm it /\ has_timeout it = is_timed q | None => True end.
Proof.
  intros q src tb HSC HST. induction n as [|n IH]; intros fuel idx cur w r idx' cur' w' HC HT HK H; cbn [indirect_loop] in H.
  { inversion H; subst. split; [|auto]. split; [apply clock_post_refl; [repeat split; reflexivity|discriminate]|]. split; [discriminate|congruence]. }
  destruct cur as [it|].
  - destruct HK as [KC KT]. destruct (next fuel it w) as [[o it1] w1] eqn:EN. destruct (next_clock _ _ _ _ _ _ KC EN) as (P & C & T & N1 & K).
    rewrite KT in *.
    assert (stop : forall r', (r' = QTimeout <-> o = OExpired) -> (o = OHang -> r' = QHang) -> (r', idx, Some it1, w1) = (r, idx', cur', w') ->
      loop_post q w r w' /\ (calm idx' /\ has_timeout idx' = is_timed q) /\ match cur' with Some it => calm it /\ has_timeout it = is_timed q | None => True end).
    { intros r' Hr Hh X. inversion X; subst. split; [|auto]. split.
      - destruct P as (A & B & D & E & F). split; [exact A|]. split; [exact B|]. split; [exact D|]. rewrite Hr. auto.
      - split; [rewrite Hr; exact N1|]. intros X1 X2. apply K; [exact X1|]. intro Ho. apply X2, Hh, Ho. }
    assert (rec : forall cur1, o <> OExpired -> o <> OHang -> match cur1 with Some it => calm it /\ has_timeout it = is_timed q | None => True end ->
      indirect_loop n fuel q src tb idx cur1 w1 = (r, idx', cur', w') ->
      loop_post q w r w' /\ (calm idx' /\ has_timeout idx' = is_timed q) /\ match cur' with Some it => calm it /\ has_timeout it = is_timed q | None => True end).
    { intros cur1 O1 O2 HK X. destruct (IH _ _ _ _ _ _ _ _ HC HT HK X) as ((P2 & N2 & K2) & C2). split; [|exact C2].
      split; [eapply clock_post_trans; eauto|]. split; [exact N2|]. intros X1 X2. specialize (K X1 O2). destruct P2 as (_ & _ & P2 & _). lia. }
    destruct o as [[k v]| | | | |]; try (eapply stop; [| |exact H]; intuition congruence).
    + destruct (entry_decode k v) as [en| | | |]; try (eapply stop; [| |exact H]; intuition congruence).
      eapply rec; [| | |exact H]; [discriminate|discriminate|split; assumption].
    + eapply rec; [| | |exact H]; [discriminate|discriminate|exact I].
  - destruct (next fuel idx w) as [[o idx1] w1] eqn:EN. destruct (next_clock _ _ _ _ _ _ HC EN) as (P & C & T & N1 & K).
    rewrite HT in *.
    assert (stop : forall r', (r' = QTimeout <-> o = OExpired) -> (o = OHang -> r' = QHang) -> (r', idx1, @None iter, w1) = (r, idx', cur', w') ->
      loop_post q w r w' /\ (calm idx' /\ has_timeout idx' = is_timed q) /\ match cur' with Some it => calm it /\ has_timeout it = is_timed q | None => True end).
    { intros r' Hr Hh X. inversion X; subst. split; [|auto]. split.
      - destruct P as (A & B & D & E & F). split; [exact A|]. split; [exact B|]. split; [exact D|]. rewrite Hr. auto.
      - split; [rewrite Hr; exact N1|]. intros X1 X2. apply K; [exact X1|]. intro Ho. apply X2, Hh, Ho. }
    assert (rec : forall cur1, o <> OExpired -> o <> OHang -> match cur1 with Some it => calm it /\ has_timeout it = is_timed q | None => True end ->
      indirect_loop n fuel q src tb idx1 cur1 w1 = (r, idx', cur', w') ->
      loop_post q w r w' /\ (calm idx' /\ has_timeout idx' = is_timed q) /\ match cur' with Some it => calm it /\ has_timeout it = is_timed q | None => True end).
    { intros cur1 O1 O2 HK1 X. destruct (IH _ _ _ _ _ _ _ _ C T HK1 X) as ((P2 & N2 & K2) & C2). split; [|exact C2].
      split; [eapply clock_post_trans; eauto|]. split; [exact N2|]. intros X1 X2. specialize (K X1 O2). destruct P2 as (_ & _ & P2 & _). lia. }
    destruct o as [[k v]| | | | |]; try (eapply stop; [| |exact H]; intuition congruence).
    destruct (index_lookup_key q tb k v) as [[fk|]| | | |]; try (eapply stop; [| |exact H]; intuition congruence).
    + eapply rec; [| | |exact H]; [discriminate|discriminate|]. split; [apply open_calm; exact HSC|]. rewrite has_timeout_open. exact HST.
    + eapply rec; [| | |exact H]; [discriminate|discriminate|exact I].
Qed.

Lemma qnext_clock : forall q fuel qi w r qi' w', timed_calm q qi -> qnext fuel qi w = (r, qi', w') ->
  loop_post q (if is_timed q then iter_set_deadline q w else w) r w' /\ timed_calm q qi'.
Proof.
  intros q fuel qi w r qi' w' (EQ & SC & ST & HK) H. unfold qnext in H. rewrite EQ in H.
  destruct (qi_kind qi) as [it|tb idx cur].
  - destruct HK as [HC HT]. destruct (direct_loop fuel fuel it _) as [[r1 it1] w1] eqn:ED. inversion H; subst.
    destruct (direct_clock _ _ _ _ _ _ _ _ HC HT ED) as (L & C & T). split; [exact L|].
    unfold timed_calm. cbn [qi_query qi_source qi_kind]. auto.
  - destruct HK as [[HC HT] HK]. destruct (indirect_loop fuel fuel q (qi_source qi) tb idx cur _) as [[[r1 idx1] cur1] w1] eqn:ED. inversion H; subst.
    destruct (indirect_clock _ _ _ SC ST _ _ _ _ _ _ _ _ _ HC HT HK ED) as (L & C & T). split; [exact L|].
    unfold timed_calm. cbn [qi_query qi_source qi_kind]. auto.
Qed.

Lemma iterator_calm : forall q t qi, iterator_of q t qi -> timed_calm q qi.
Proof.
  intros q t qi H. induction H as [q t qi H|q t fuel qi w r qi' w' H IH E|q t qi tm H IH E].
  - unfold dnstable_query_iter in H. eapply iter_common_calm; [| | | |exact H]; cbn; auto.
  - eapply qnext_clock; eauto.
  - destruct IH as (EQ & SC & ST & HK). unfold timed_calm, set_timing. cbn [qi_query qi_source qi_kind].
    rewrite (retime_timed tm q E). rewrite E in *. rewrite EQ. auto.
Qed.

(** The deadline that is set for a call. *)
Lemma set_deadline_due : forall q w, times_normal q w -> is_timed q = true ->
  let w0 := iter_set_deadline q w in
  w_now w0 = w_now w /\ w_tick w0 = first_check q w /\ normal (w_deadline w0) /\ due q w = Some (nanos (w_deadline w0)).
Proof.
  intros q w (HN & HT & HD) Hq. unfold iter_set_deadline, first_check, due, reading. unfold is_timed in Hq.
  destruct (q_do_timeout q) eqn:ET; cbn [negb orb] in *.
  - destruct (ts_add_ok (q_timeout q) (w_now w (w_tick w)) (HT eq_refl) (HN _)) as [A B].
    cbn [gettime]. destruct (q_do_deadline q) eqn:ED.
    + rewrite (ts_cmp_ok _ _ (HD eq_refl) B), A. destruct (Z.compare_spec (nanos (q_deadline q)) (nanos (w_now w (w_tick w)) + nanos (q_timeout q))%Z);
        cbn [set_deadline w_now w_tick w_deadline]; repeat (split; [auto; fail|]); f_equal; rewrite ?A; lia.
    + cbn [set_deadline w_now w_tick w_deadline]. repeat (split; [auto; fail|]). rewrite A. reflexivity.
  - rewrite Hq. cbn. rewrite Hq in HD. auto.
Qed.
