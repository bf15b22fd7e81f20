(** Continuation of ResumeNext.v: the loops, the queries, the calls. *)
From Verif Require Import Base ModelEntry ModelIter SpecIter ModelQuery SpecQuery ModelFileset SpecFileset FuelProofs ResumeProofs ResumeNext.

(** ** The loops of dnstable_iter_next as one *)

Definition finalq (o : out) : option qres :=
  match o with
  | OOk (k, v) => match entry_decode k v with Ok e => Some (QEntry e) | Fail => None | Abort => Some QAbort | UB => Some QUB | Hang => Some QHang end
  | OFail => Some QEnd | OExpired => Some QTimeout | OAbort => Some QAbort | OUB => Some QUB | OHang => Some QHang
  end.
Definition active (k : kind) : iter := match k with Direct it => it | Indirect _ idx None => idx | Indirect _ _ (Some it) => it end.
Definition react (q : query) (src : source) (kd : kind) (o : out) (it : iter) : qres * kind + kind :=
  match kd with
  | Direct _ => match finalq o with Some r => inl (r, Direct it) | None => inr (Direct it) end
  | Indirect tb _ None =>
      match o with
      | OOk (k, v) =>
          match index_lookup_key q tb k v with
          | Ok None => inr (Indirect tb it None)
          | Ok (Some fk) => inr (Indirect tb it (Some (open (HPrefix fk) src)))
          | Fail => inl (QEnd, Indirect tb it None)
          | Abort => inl (QAbort, Indirect tb it None)
          | UB => inl (QUB, Indirect tb it None)
          | Hang => inl (QHang, Indirect tb it None)
          end
      | OFail => inl (QEnd, Indirect tb it None) | OExpired => inl (QTimeout, Indirect tb it None)
      | OAbort => inl (QAbort, Indirect tb it None) | OUB => inl (QUB, Indirect tb it None) | OHang => inl (QHang, Indirect tb it None)
      end
  | Indirect tb idx (Some _) =>
      match o with
      | OFail => inr (Indirect tb idx None)
      | _ => match finalq o with Some r => inl (r, Indirect tb idx (Some it)) | None => inr (Indirect tb idx (Some it)) end
      end
  end.
Fixpoint kloop (n f : nat) (q : query) (src : source) (k : kind) (w : world) : qres * kind * world :=
  match n with
  | O => (QHang, k, w)
  | S n' => let '(o, it1, w1) := next f (active k) w in match react q src k o it1 with inl (r, k') => (r, k', w1) | inr k' => kloop n' f q src k' w1 end
  end.

Lemma kloop_direct : forall n f q src it w, kloop n f q src (Direct it) w = let '(r, it1, w1) := direct_loop n f it w in (r, Direct it1, w1).
Proof.
  induction n as [|n IH]; intros f q src it w; [reflexivity|]. cbn [kloop direct_loop active react finalq]. destruct (next f it w) as [[o it1] w1].
  destruct o as [[k v]| | | | |]; try reflexivity. unfold finalq. destruct (entry_decode k v); try reflexivity. apply IH.
Qed.
Lemma kloop_indirect : forall n f q src tb idx cur w, kloop n f q src (Indirect tb idx cur) w = let '(r, idx1, cur1, w1) := indirect_loop n f q src tb idx cur w in (r, Indirect tb idx1 cur1, w1).
Proof.
  induction n as [|n IH]; intros f q src tb idx cur w; [reflexivity|]. cbn [kloop indirect_loop]. destruct cur as [it|]; cbn [active react].
  - destruct (next f it w) as [[o it1] w1]. destruct o as [[k v]| | | | |]; cbn [finalq]; try reflexivity; [|apply IH]. destruct (entry_decode k v); try reflexivity. apply IH.
  - destruct (next f idx w) as [[o it1] w1]. destruct o as [[k v]| | | | |]; try reflexivity. destruct (index_lookup_key q tb k v) as [[fk|]| | | |]; try reflexivity; apply IH.
Qed.
Lemma qnext_kloop : forall f qi w, qnext f qi w =
  let '(r, k, w1) := kloop f f (qi_query qi) (qi_source qi) (qi_kind qi) (if is_timed (qi_query qi) then iter_set_deadline (qi_query qi) w else w) in
  (r, {| qi_query := qi_query qi; qi_source := qi_source qi; qi_kind := k |}, w1).
Proof.
  intros f qi w. unfold qnext. destruct (qi_kind qi) as [it|tb idx cur].
  - rewrite kloop_direct. destruct (direct_loop f f it _) as [[r it1] w1]. reflexivity.
  - rewrite kloop_indirect. destruct (indirect_loop f f _ _ tb idx cur _) as [[[r i1] c1] w1]. reflexivity.
Qed.

Lemma react_hang : forall q src k it, exists k', react q src k OHang it = inl (QHang, k').
Proof. intros q src [i|tb i [c|]] it; eexists; reflexivity. Qed.
Lemma react_expired : forall q src k it, exists k', react q src k OExpired it = inl (QTimeout, k') /\ active k' = it /\ forall q' src' o i, react q' src' k' o i = react q' src' k o i.
Proof. intros q src [i|tb i [c|]] it; eexists; (split; [reflexivity|]); auto. Qed.
Lemma react_timeout : forall q src k o it k', react q src k o it = inl (QTimeout, k') -> o = OExpired.
Proof.
  intros q src [i|tb i [c|]] o it k' H; destruct o as [[a b]| | | | |]; cbn [react finalq] in H; try reflexivity; try discriminate H;
  try (destruct (entry_decode a b); discriminate H). destruct (index_lookup_key q tb a b) as [[fk|]| | | |]; discriminate H.
Qed.

Definition allk (P : iter -> Prop) (k : kind) : Prop := match k with Direct it => P it | Indirect _ idx None => P idx | Indirect _ idx (Some it) => P idx /\ P it end.
Definition kind_of (x : qres * kind + kind) : kind := match x with inl (_, k) => k | inr k => k end.
Lemma active_all : forall (P : iter -> Prop) k, allk P k -> P (active k). Proof. intros P [i|tb i [c|]]; cbn; tauto. Qed.
Lemma react_all : forall (P : iter -> Prop) q src k o it, (forall h, P (open h src)) -> allk P k -> P it -> allk P (kind_of (react q src k o it)).
Proof.
  intros P q src [i|tb i [c|]] o it HS HK HI; cbn [react allk] in *; destruct o as [[a b]| | | | |]; cbn [kind_of allk finalq]; try tauto;
  try (destruct (entry_decode a b); cbn; tauto). destruct (index_lookup_key q tb a b) as [[fk|]| | | |]; cbn; auto.
Qed.
Definition barek (k : kind) : kind := match k with Direct it => Direct (bare it) | Indirect tb idx cur => Indirect tb (bare idx) (option_map bare cur) end.
Lemma active_bare : forall k, active (barek k) = bare (active k). Proof. intros [i|tb i [c|]]; reflexivity. Qed.
Definition bares_sum (x : qres * kind + kind) := match x with inl (r, k) => inl (r, barek k) | inr k => inr (barek k) end.
Definition same_keys (q q0 : query) : Prop := forall tb k v, index_lookup_key q tb k v = index_lookup_key q0 tb k v.
Lemma react_bare : forall q q0 src k o it, same_keys q q0 -> react q0 (bares src) (barek k) o (bare it) = bares_sum (react q src k o it).
Proof.
  intros q q0 src [i|tb i [c|]] o it HQ; cbn [react barek option_map]; destruct o as [[a b]| | | | |]; try reflexivity;
  try (unfold finalq; destruct (entry_decode a b); reflexivity). rewrite <- (HQ tb a b). destruct (index_lookup_key q tb a b) as [[fk|]| | | |]; try reflexivity.
  cbn [bares_sum barek option_map]. rewrite open_bares. reflexivity.
Qed.

Lemma kloop_mono : forall n f q src k w r k1 w1, kloop n f q src k w = (r, k1, w1) -> r <> QHang -> forall n' f', (n <= n')%nat -> (f <= f')%nat -> kloop n' f' q src k w = (r, k1, w1).
Proof.
  induction n as [|n IH]; intros f q src k w r k1 w1 E HR n' f' HN HF; [cbn in E; injection E; congruence|]. destruct n' as [|n']; [lia|]. cbn [kloop] in *.
  destruct (next f (active k) w) as [[o it1] w2] eqn:E1. assert (HO : o <> OHang) by (intros ->; destruct (react_hang q src k it1) as (k' & X); rewrite X in E; congruence).
  rewrite (next_mono _ _ _ _ _ _ E1 HO _ HF). destruct (react q src k o it1) as [[r' k']|k']; [exact E|]. apply (IH f); auto. lia.
Qed.

Section Bare.
Variables (q0 : query) (S0 : source).
Hypothesis HS1 : forall h, resp (open h S0).
Hypothesis HS2 : forall h, no_timer (open h S0).
Definition kruns (k : kind) (w : world) (r : qres) (k1 : kind) (wz : world) : Prop :=
  r <> QHang /\ exists n w1, kloop n n q0 S0 k w = (r, k1, w1) /\ weq wz w1.
Definition ready (k : kind) : Prop := allk resp k /\ allk no_timer k.

Lemma kloop_weq : forall n f k w w' r k1 w1, ready k -> weq w w' -> kloop n f q0 S0 k w = (r, k1, w1) -> r <> QHang -> exists w1', kloop n f q0 S0 k w' = (r, k1, w1') /\ weq w1 w1'.
Proof using HS1 HS2.
  induction n as [|n IH]; intros f k w w' r k1 w1 [HR HN] HW E HO; [cbn in E; injection E; congruence|]. cbn [kloop] in *.
  destruct (next f (active k) w) as [[o it1] w2] eqn:E1. assert (HO1 : o <> OHang) by (intros ->; destruct (react_hang q0 S0 k it1) as (k' & X); rewrite X in E; congruence).
  destruct (next_weq _ _ _ w' _ _ _ (active_all _ k HR) (active_all _ k HN) HW E1) as [->|(w2' & -> & W2 & R2 & N2)]; [congruence|].
  pose proof (react_all resp q0 S0 k o it1 HS1 HR R2) as A. pose proof (react_all no_timer q0 S0 k o it1 HS2 HN N2) as B.
  destruct (react q0 S0 k o it1) as [[r' k']|k']; [injection E as <- <- <-; eauto|]. apply (IH f k' w2 w2'); auto. split; assumption.
Qed.
Lemma kruns_weq : forall k w w' r k1 wz, ready k -> weq w w' -> kruns k w r k1 wz -> kruns k w' r k1 wz.
Proof using HS1 HS2.
  intros k w w' r k1 wz HK HW (HO & n & w1 & E & W1). destruct (kloop_weq n n k w w' r k1 w1 HK HW E HO) as (w2 & E2 & W2).
  split; [exact HO|]. exists n, w2. split; [exact E2|]. eapply weq_trans; eauto.
Qed.

Definition rest (k : kind) (o : out) (u1 : iter) (w1 : world) (r : qres) (k2 : kind) (wz : world) : Prop :=
  match react q0 S0 k o u1 with inl (r', k') => r = r' /\ k2 = k' /\ weq wz w1 | inr k' => kruns k' w1 r k2 wz end.

Lemma kjoin : forall k w o u1 w1 r k2 wz, ready k -> runs (active k) w o u1 w1 -> r <> QHang -> rest k o u1 w1 r k2 wz -> kruns k w r k2 wz.
Proof using HS1 HS2.
  intros k w o u1 w1 r k2 wz [HR HN] HU HO HX. destruct (runs_keep _ _ _ _ _ (active_all _ k HR) (active_all _ k HN) HU) as [R2 N2]. destruct HU as (HO1 & f & wa & E1 & WA).
  pose proof (react_all resp q0 S0 k o u1 HS1 HR R2) as A. pose proof (react_all no_timer q0 S0 k o u1 HS2 HN N2) as B.
  split; [exact HO|]. unfold rest in HX. destruct (react q0 S0 k o u1) as [[r' k']|k'] eqn:ER.
  - destruct HX as (-> & -> & W). exists (S f), wa. cbn [kloop]. rewrite (next_mono _ _ _ _ _ _ E1 HO1 (S f)) by lia. rewrite ER. split; [reflexivity|]. eapply weq_trans; eauto.
  - apply (kruns_weq k' w1 wa) in HX; [|split; assumption|exact WA]. destruct HX as (_ & n & wb & EB & WB). exists (S (Nat.max f n)), wb. split; [|exact WB].
    cbn [kloop]. rewrite (next_mono _ _ _ _ _ _ E1 HO1 (S (Nat.max f n))) by lia. rewrite ER. apply (kloop_mono _ _ _ _ _ _ _ _ _ EB HO); lia.
Qed.
Lemma ksplit : forall k w r k2 wz, kruns k w r k2 wz -> exists o u1 w1, runs (active k) w o u1 w1 /\ rest k o u1 w1 r k2 wz.
Proof.
  intros k w r k2 wz (HO & n & wa & E & WA). destruct n as [|n]; [cbn in E; injection E; congruence|]. cbn [kloop] in E.
  destruct (next (S n) (active k) w) as [[o it1] w2] eqn:E1. assert (HO1 : o <> OHang) by (intros ->; destruct (react_hang q0 S0 k it1) as (k' & X); rewrite X in E; congruence).
  exists o, it1, w2. split; [split; [exact HO1|exists (S n), w2; auto with weq]|]. unfold rest. destruct (react q0 S0 k o it1) as [[r' k']|k'].
  - injection E as <- <- <-. auto.
  - split; [exact HO|]. exists (S n), wa. split; [|exact WA]. apply (kloop_mono _ _ _ _ _ _ _ _ _ E HO); lia.
Qed.
End Bare.

(** A call against the iterator without timeout sources. *)
Lemma kgoes : forall q q0 src, same_keys q q0 -> resps src -> forall n f k w w' r k1 w1, allk resp k -> weq w w' -> kloop n f q src k w = (r, k1, w1) -> r <> QHang ->
  allk resp k1 /\ (r <> QTimeout -> kruns q0 (bares src) (barek k) w' r (barek k1) w1) /\
  (r = QTimeout -> forall w2 r2 k2 w3, weq w1 w2 -> kruns q0 (bares src) (barek k1) w2 r2 k2 w3 -> kruns q0 (bares src) (barek k) w' r2 k2 w3).
Proof.
  intros q q0 src HQ HS.
  assert (S1 : forall h, resp (open h src)) by (intro h; apply open_resp; exact HS).
  assert (B1 : forall h, resp (open h (bares src))) by (intro h; rewrite open_bares; apply bare_resp, S1).
  assert (B2 : forall h, no_timer (open h (bares src))) by (intro h; rewrite open_bares; apply bare_no_timer).
  assert (RD : forall k, allk resp k -> ready (barek k)) by (intros [i|tb i [c|]] H; cbn in *; split; cbn; try split; try apply bare_resp; try apply bare_no_timer; tauto).
  induction n as [|n IH]; intros f k w w' r k1 w1 HK HW E HO; [cbn in E; injection E; congruence|]. cbn [kloop] in E.
  destruct (next f (active k) w) as [[o it1] w2] eqn:E1. assert (HO1 : o <> OHang) by (intros ->; destruct (react_hang q src k it1) as (k' & X); rewrite X in E; congruence).
  destruct (next_goes f (active k) w w' o it1 w2 (active_all _ k HK) HW E1 HO1) as [R1 [G1 G2]].
  pose proof (react_all resp q src k o it1 S1 HK R1) as K1. pose proof (react_bare q q0 src k o it1 HQ) as EB.
  assert (JOIN : forall o' u' wx r2 k2 w3, runs (bare (active k)) w' o' u' wx -> r2 <> QHang -> rest q0 (bares src) (barek k) o' u' wx r2 k2 w3 -> kruns q0 (bares src) (barek k) w' r2 k2 w3).
  { intros o' u' wx r2 k2 w3 A B C. eapply kjoin; [exact B1|exact B2|apply RD; exact HK|rewrite active_bare; exact A|exact B|exact C]. }
  destruct (react q src k o it1) as [[r' k']|k'] eqn:ER; cbn [kind_of bares_sum] in *.
  - injection E as <- <- <-. split; [exact K1|]. split.
    + intro HT. assert (NE : o <> OExpired). { intros ->. destruct (react_expired q src k it1) as (kx & X & _). rewrite ER in X. injection X; congruence. }
      eapply JOIN; [exact (G1 NE)|exact HO|]. unfold rest. rewrite EB. auto with weq.
    + intros -> wx r2 k2 w3 WX HX. pose proof (react_timeout q src k o it1 k' ER) as ->. destruct (react_expired q src k it1) as (kx & X & AX & RX). rewrite ER in X. injection X as <-.
      destruct (react_expired q0 (bares src) (barek k) (bare it1)) as (ky & Y & AY & RY). rewrite EB in Y. injection Y as <-.
      destruct (ksplit q0 (bares src) _ _ _ _ _ HX) as (o2 & u2 & w4 & A & B). rewrite AY in A.
      eapply JOIN; [exact (G2 eq_refl wx o2 u2 w4 WX A)|apply HX|]. unfold rest in *. rewrite RY in B. exact B.
  - destruct (IH f k' w2 w2 r k1 w1 K1 (weq_refl _) E HO) as (A & B & C). split; [exact A|].
    assert (NE : o <> OExpired). { intros ->. destruct (react_expired q src k it1) as (kx & X & _). rewrite ER in X. discriminate X. }
    assert (P : forall r2 k2 w3, kruns q0 (bares src) (barek k') w2 r2 k2 w3 -> kruns q0 (bares src) (barek k) w' r2 k2 w3).
    { intros r2 k2 w3 HX. eapply JOIN; [exact (G1 NE)|apply HX|]. unfold rest. rewrite EB. exact HX. }
    split; [auto|]. intros HT wx r2 k2 w3 WX HX. apply P. exact (C HT wx r2 k2 w3 WX HX).
Qed.

(** ** Calls *)

Lemma deadline_weq : forall q w w', weq w w' -> weq (iter_set_deadline q w) w'.
Proof. intros q w w' [A B]. unfold iter_set_deadline. destruct (negb (q_do_timeout q)); [split; assumption|]. cbn [gettime]. split; assumption. Qed.

Definition bareq (q0 : query) (qi : qiter) : qiter := {| qi_query := q0; qi_source := bares (qi_source qi); qi_kind := barek (qi_kind qi) |}.
Definition follows (q0 : query) (qi qi0 : qiter) (w w0 : world) : Prop :=
  forall r k2 w3, kruns q0 (bares (qi_source qi)) (barek (qi_kind qi)) w r k2 w3 -> kruns q0 (qi_source qi0) (qi_kind qi0) w0 r k2 w3.
Definition followed (q0 : query) (qi : qiter) : Prop := same_keys (qi_query qi) q0 /\ resps (qi_source qi) /\ allk resp (qi_kind qi).

Lemma retime_keys : forall tm q q0, same_keys q q0 -> same_keys (retime tm q) q0.
Proof. intros tm q q0 H tb k v. rewrite <- (H tb k v). destruct tm; reflexivity. Qed.

Lemma calls_follow : forall q0 fuel ts qi qi0 w w0, is_timed q0 = false -> followed q0 qi -> qi_query qi0 = q0 -> qi_source qi0 = bares (qi_source qi) -> follows q0 qi qi0 w w0 ->
  ~ In QHang (timed_calls fuel ts qi w) ->
  eventually (fun fuel' => answered (timed_calls fuel ts qi w) = calls fuel' (length (answered (timed_calls fuel ts qi w))) qi0 w0).
Proof.
  intros q0 fuel ts. induction ts as [|tm ts IH]; intros qi qi0 w w0 HT HF EQ ES HL HH; [exists O; intros; reflexivity|].
  cbn [timed_calls] in *. destruct HF as (F1 & F2 & F3). rewrite qnext_kloop in *. cbn [set_timing qi_query qi_source qi_kind] in *.
  set (q := retime tm (qi_query qi)) in *. assert (FQ : same_keys q q0) by (apply retime_keys; exact F1). clearbody q.
  assert (WQ : weq (if is_timed q then iter_set_deadline q w else w) w) by (destruct (is_timed q); [apply deadline_weq|]; apply weq_refl).
  revert HH. generalize dependent (if is_timed q then iter_set_deadline q w else w). intros wq WQ HH.
  destruct (kloop fuel fuel q (qi_source qi) (qi_kind qi) wq) as [[r k1] w1] eqn:EK.
  set (qi1 := {| qi_query := q; qi_source := qi_source qi; qi_kind := k1 |}) in *.
  assert (HO : r <> QHang) by (intros ->; apply HH; left; reflexivity). assert (HH' : ~ In QHang (timed_calls fuel ts qi1 w1)) by (intro X; apply HH; right; exact X).
  destruct (kgoes q q0 (qi_source qi) FQ F2 fuel fuel (qi_kind qi) wq w r k1 w1 F3 WQ EK HO) as (K1 & A & B).
  assert (F1' : followed q0 qi1) by (split; [exact FQ|split; assumption]).
  assert (TIME : r = QTimeout \/ r <> QTimeout) by (destruct r; auto; right; discriminate). destruct TIME as [->|NT].
  - cbn [answered filter]. change (filter _ (timed_calls fuel ts qi1 w1)) with (answered (timed_calls fuel ts qi1 w1)).
    apply (IH qi1 qi0 w1 w0 HT F1' EQ ES); [|exact HH']. intros r2 k2 w3 HX. apply HL. exact (B eq_refl w1 r2 k2 w3 (weq_refl _) HX).
  - assert (EA : answered (r :: timed_calls fuel ts qi1 w1) = r :: answered (timed_calls fuel ts qi1 w1)) by (destruct r; try reflexivity; congruence).
    rewrite EA. cbn [length calls]. destruct (HL _ _ _ (A NT)) as (_ & n & w2 & E2 & W2).
    set (qj := {| qi_query := q0; qi_source := qi_source qi0; qi_kind := barek k1 |}).
    assert (QN : forall f, (n <= f)%nat -> qnext f qi0 w0 = (r, qj, w2)).
    { intros f Hf. rewrite qnext_kloop, EQ, HT. rewrite (kloop_mono _ _ _ _ _ _ _ _ _ E2 HO f f Hf Hf). reflexivity. }
    assert (FL : follows q0 qi1 qj w1 w2).
    { intros r2 k2 w3 HX. cbn [qi1 qj qi_source qi_kind] in *. rewrite ES. eapply kruns_weq; [| | |exact W2|exact HX].
      - intro h. rewrite open_bares. apply bare_resp, open_resp. exact F2.
      - intro h. rewrite open_bares. apply bare_no_timer.
      - destruct k1 as [i|tb i [c|]]; cbn in *; split; cbn; try split; try apply bare_resp; try apply bare_no_timer; tauto. }
    destruct (IH qi1 qj w1 w2 HT F1' eq_refl ES FL HH') as (n2 & IHn). exists (Nat.max n n2). intros f Hf. rewrite QN by lia. f_equal. apply IHn. lia.
Qed.

(** ** Queries *)

Lemma plain_resp : forall g : bytes -> bytes -> fres, resp_filter (fun w k v => (g k v, w)). Proof. intros g w w' k v H. split; [reflexivity|exact H]. Qed.
Lemma offset_resp : resp_filter filter_offset.
Proof. intros w w' k v [A B]. unfold filter_offset. rewrite A. destruct (0 <? w_offset w'); cbn [fst snd]; split; try reflexivity; split; cbn; congruence. Qed.
Lemma cond_resp : forall c st f s, resp_filter f -> resps s -> resps (filter_set_cond c st f s). Proof. intros [|] st f s; cbn; auto. Qed.
Lemma cond_bare : forall c st f s, filter_set_cond c st f (bares s) = bares (filter_set_cond c st f s). Proof. intros [|] st f s; reflexivity. Qed.
Lemma bw_resp : forall q s, resps s -> resps (opt_filter_bailiwick q s).
Proof. intros q s H. unfold opt_filter_bailiwick. destruct (q_bailiwick q) as [bw|]; [|exact H]. split; [apply (plain_resp (fun k _ => bailiwick_res bw k))|exact H]. Qed.
Lemma bw_bare : forall q s, opt_filter_bailiwick q (bares s) = bares (opt_filter_bailiwick q s). Proof. intros q s. unfold opt_filter_bailiwick. destruct (q_bailiwick q); reflexivity. Qed.

Definition barep (p : plan) : plan := {| p_key := p_key p; p_key2 := p_key2 p; p_source := bares (p_source p); p_index := option_map (fun x => (fst x, bare (snd x))) (p_index p) |}.
Definition respp (p : plan) : Prop := resps (p_source p) /\ match p_index p with Some (_, it) => resp it | None => True end.

Lemma init_bare : forall q s idx p, resps s -> resps idx -> query_init q s idx = Ok p -> query_init q (bares s) (bares idx) = Ok (barep p) /\ respp p.
Proof.
  intros q s idx p HS HI H.
  assert (F1 : forall n, resp_filter (filter_single_label n)) by (intro n; apply (plain_resp (fun k _ => single_label_res n k))).
  assert (F2 : resp_filter (filter_rrtype q)) by apply (plain_resp (fun k _ => rrtype_res (q_rrtype q) k)).
  assert (F3 : resp_filter filter_rrtype_rdata_name) by apply (plain_resp (fun k _ => rdata_name_res k)).
  assert (F4 : forall n, resp_filter (filter_rrtype_ip q n)) by (intro n; apply (plain_resp (fun k _ => rrtype_ip_res q n k))).
  unfold query_init in *. destruct (q_type q).
  - unfold init_rrset, init_rrset_left_wildcard, init_rrset_right_wildcard in *. destruct (is_left_wildcard (name_data q)) as [wp|].
    + destruct (reverse_buf _ _); cbn [bind] in *; inversion H; subst. rewrite !cond_bare, bw_bare. split; [reflexivity|]. split; [|exact I]. apply bw_resp. repeat apply cond_resp; auto.
    + destruct (is_right_wildcard (name_data q)) as [wp|].
      * inversion H; subst. rewrite !cond_bare, bw_bare, open_bares. split; [reflexivity|]. split; [apply bw_resp, cond_resp; auto|]. cbn [p_index]. apply open_resp, cond_resp; auto.
      * destruct (reverse_buf _ _); try discriminate. cbn [bind] in *. destruct (q_do_rrtype q).
        { destruct (add_rrtype_to_key _ _); cbn [bind] in *; inversion H; subst. split; [reflexivity|]. split; [exact HS|exact I]. }
        inversion H; subst. rewrite bw_bare. split; [reflexivity|]. split; [apply bw_resp; exact HS|exact I].
  - unfold init_rdata_name in *. set (ff := if q_do_rrtype q then filter_rrtype q else filter_rrtype_rdata_name) in *. assert (FF : resp_filter ff) by (unfold ff; destruct (q_do_rrtype q); assumption). clearbody ff.
    cbv zeta in *. change (SFilter StRrtype ff (bares s)) with (bares (SFilter StRrtype ff s)). assert (S1 : resps (SFilter StRrtype ff s)) by (split; assumption). set (s1 := SFilter StRrtype ff s) in *. clearbody s1.
    destruct (is_right_wildcard (name_data q)) as [wp|].
    + unfold init_rdata_right_wildcard in *. inversion H; subst. rewrite cond_bare. split; [reflexivity|]. split; [apply cond_resp; auto|exact I].
    + destruct (is_left_wildcard (name_data q)) as [wp|].
      * unfold init_rdata_left_wildcard in *. destruct (reverse_buf _ _); cbn [bind] in *; inversion H; subst. rewrite cond_bare, open_bares. split; [reflexivity|]. split; [exact S1|]. cbn [p_index]. apply open_resp, cond_resp; auto.
      * destruct (if q_do_rrtype q && name_type_standalone (q_rrtype q) then _ else _); cbn [bind] in *; inversion H; subst. split; [reflexivity|]. split; [exact S1|exact I].
  - unfold init_rdata_ip in *. destruct (negb (q_do_rrtype q)); [discriminate|]. destruct (q_len_ip1 q =? 0); [discriminate|].
    destruct (add_rrtype_to_key _ _); try discriminate. cbn [bind] in *.
    match type of H with (let* _ := ?x in _) = _ => destruct x end; cbn [bind] in *; inversion H; subst. split; [reflexivity|]. split; [split; auto|exact I].
  - unfold init_rdata_raw in *. match type of H with (if ?x then _ else _) = _ => destruct x end; inversion H; subst.
    rewrite cond_bare. split; [reflexivity|]. split; [apply cond_resp; auto|exact I].
  - inversion H; subst. split; [reflexivity|]. split; [exact HS|exact I].
  - inversion H; subst. split; [reflexivity|]. split; [exact HS|exact I].
  - inversion H; subst. split; [reflexivity|]. split; [exact HS|exact I].
Qed.

Lemma stack_bare : forall q fc s, resps s -> stack_filters q fc (bares s) = bares (stack_filters q fc s) /\ resps (stack_filters q fc s).
Proof.
  intros q fc s H. unfold stack_filters.
  assert (P : resp_filter (filter_time_prefilter q)) by apply (plain_resp (fun _ v => time_res q true v)).
  assert (T : resp_filter (filter_time q)) by apply (plain_resp (fun _ v => time_res q false v)).
  pose proof offset_resp.
  destruct (has_time_bound q), (f_remove fc), (f_fill fc), (0 <? q_offset q); (split; [reflexivity|]); cbn; auto.
Qed.

Lemma common_follow : forall q fc t u qi, query_iter_common q fc (SBase t) (SBase u) = Ok qi ->
  exists qi0, query_iter_common (untimed q) fc (SBase t) (SBase u) = Ok qi0 /\ bareq (untimed q) qi = qi0 /\ followed (untimed q) qi.
Proof.
  intros q fc t u qi H. unfold query_iter_common in *. cbv zeta in *.
  set (s0 := if is_timed q then STimeout (SBase t) else SBase t) in *. set (i0 := if is_timed q then STimeout (SBase u) else SBase u) in *.
  assert (A : bares s0 = SBase t /\ resps s0) by (unfold s0; destruct (is_timed q); split; reflexivity || exact I). assert (B : bares i0 = SBase u /\ resps i0) by (unfold i0; destruct (is_timed q); split; reflexivity || exact I).
  clearbody s0 i0. destruct A as [A1 A2], B as [B1 B2]. change (is_timed (untimed q)) with false. cbv iota.
  destruct (query_init q s0 i0) as [p| | | |] eqn:EP; try discriminate. cbn [bind] in H. destruct (init_bare q s0 i0 p A2 B2 EP) as [E0 [R1 R2]]. rewrite A1, B1 in E0.
  change (query_init (untimed q) (SBase t) (SBase u)) with (query_init q (SBase t) (SBase u)). rewrite E0. cbn [bind].
  destruct (stack_bare q fc (p_source p) R1) as [C1 C2]. injection H as <-. eexists. split; [reflexivity|].
  change (stack_filters (untimed q) fc (p_source (barep p))) with (stack_filters q fc (bares (p_source p))). rewrite C1. unfold bareq, followed. cbn [qi_query qi_source qi_kind p_index p_key p_key2 barep].
  destruct (p_index p) as [[tb it]|]; cbn [option_map fst snd].
  - split; [reflexivity|]. split; [intros ? ? ?; reflexivity|]. split; [exact C2|exact R2].
  - destruct (p_key2 p); cbn [barek]; rewrite open_bares; (split; [reflexivity|]); (split; [intros ? ? ?; reflexivity|]); (split; [exact C2|]); apply open_resp; exact C2.
Qed.
