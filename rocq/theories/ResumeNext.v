(** Continuation of ResumeProofs.v: calls that time out resume. *)
From Verif Require Import Base ModelEntry ModelIter SpecIter ModelQuery SpecQuery FuelProofs ResumeProofs.

(** With rounds enough, the iterator answers [o] and becomes [i]. *)
Definition runs (it : iter) (w : world) (o : out) (i : iter) (wz : world) : Prop :=
  o <> OHang /\ exists f w1, next f it w = (o, i, w1) /\ weq wz w1.

Lemma runs_weq : forall it w w' o i wz, resp it -> no_timer it -> weq w w' -> runs it w o i wz -> runs it w' o i wz.
Proof.
  intros it w w' o i wz HR HN HW (HO & f & w1 & E & W1). destruct (next_weq f it w w' o i w1 HR HN HW E) as [->|(w2 & E2 & W2 & _)]; [congruence|].
  split; [exact HO|]. exists f, w2. split; [exact E2|]. eapply weq_trans; eauto.
Qed.
Lemma runs_keep : forall it w o i wz, resp it -> no_timer it -> runs it w o i wz -> resp i /\ no_timer i.
Proof. intros it w o i wz HR HN (HO & f & w1 & E & W1). destruct (next_weq f it w w o i w1 HR HN (weq_refl w) E) as [->|(w2 & _ & _ & A & B)]; [congruence|auto]. Qed.

(** What the stage does once the one under it has answered. *)
Definition under (it : iter) : iter := match it with IFilter _ _ u | ITimeout u | IRemove _ _ u | ILjoin _ _ _ _ u => u | IBase b => IBase b end.
Definition composite (it : iter) : Prop := match it with IBase _ | ITimeout _ => False | _ => True end.
Definition after (f : nat) (it : iter) (o : out) (u1 : iter) (w1 : world) : out * iter * world :=
  match it with
  | IFilter s ff _ =>
      match o with
      | OOk (k, v) =>
          match ff w1 k v with
          | (FMatch, w2) => (OOk (k, v), IFilter s ff u1, w2)
          | (FSkip, w2) => next f (IFilter s ff u1) (note (EvReject s k v) (bump s CFiltered w2))
          | (FSeek k', w2) =>
              let '(ok, u2, w3) := seek k' u1 (note (EvSeek s k') (bump s CSeek w2)) in
              if ok then next f (IFilter s ff u2) (note (EvReject s k v) (bump s CFiltered w3)) else (OFail, IFilter s ff u2, w3)
          | (FStop, w2) => (OFail, IFilter s ff u1, w2)
          | (FAbort, w2) => (OAbort, IFilter s ff u1, w2)
          | (FUB, w2) => (OUB, IFilter s ff u1, w2)
          end
      | _ => (o, IFilter s ff u1, w1)
      end
  | IRemove h rms _ =>
      match o with
      | OOk (k, v) =>
          match match_key f h k v rms w1 with
          | None => (OHang, u1, w1)
          | Some (true, rms', w2) => next f (IRemove h rms' u1) w2
          | Some (false, rms', w2) => (OOk (k, v), IRemove h rms' u1, w2)
          end
      | _ => (o, IRemove h rms u1, w1)
      end
  | ILjoin mf rb rkv fin _ =>
      match o with
      | OOk (k, v) => let '(o, rb', rkv', fin', w2) := join_right f mf rb rkv fin k v w1 in (o, ILjoin mf rb' rkv' fin' u1, w2)
      | _ => (o, ILjoin mf rb rkv fin u1, w1)
      end
  | _ => (OHang, it, w1)
  end.

Lemma next_after : forall f it w o u1 w1 o2 i2 w2, composite it -> next f (under it) w = (o, u1, w1) -> o2 <> OHang ->
  (next (S f) it w = (o2, i2, w2) <-> after f it o u1 w1 = (o2, i2, w2)).
Proof.
  intros f it w o u1 w1 o2 i2 w2 HC E HO. destruct it as [b|s ff u|u|h rms u|mf rb rk fin u]; try contradiction; cbn [next under after] in *; rewrite E.
  - destruct o as [[k v]| | | | |]; reflexivity.
  - destruct o as [[k v]| | | | |]; try reflexivity. destruct (match_key f h k v rms w1) as [[[m r] w3]|]; [reflexivity|]. split; intro H; injection H; congruence.
  - destruct o as [[k v]| | | | |]; reflexivity.
Qed.
Lemma after_hang : forall f it u1 w1, composite it -> fst (fst (after f it OHang u1 w1)) = OHang.
Proof. intros f it u1 w1 H. destruct it; try contradiction; reflexivity. Qed.

Lemma after_mono : forall f f' it o u1 w1 o2 i2 w2, composite it -> (f <= f')%nat -> after f it o u1 w1 = (o2, i2, w2) -> o2 <> OHang -> after f' it o u1 w1 = (o2, i2, w2).
Proof.
  intros f f' it o u1 w1 o2 i2 w2 HC HL E HO. destruct it as [b|s ff u|u|h rms u|mf rb rk fin u]; try contradiction; cbn [after] in *; destruct o as [[k v]| | | | |]; try exact E.
  - destruct (ff w1 k v) as [[| |k'| | |] w3]; try exact E.
    + exact (next_mono _ _ _ _ _ _ E HO _ HL).
    + destruct (seek k' u1 (note (EvSeek s k') (bump s CSeek w3))) as [[[] u2] w4]; [exact (next_mono _ _ _ _ _ _ E HO _ HL)|exact E].
  - destruct (match_key f h k v rms w1) as [[[m r] w3]|] eqn:EM; [|injection E; congruence]. rewrite (match_key_mono _ _ _ _ _ _ _ EM _ HL).
    destruct m; [exact (next_mono _ _ _ _ _ _ E HO _ HL)|exact E].
  - destruct (join_right f mf rb rk fin k v w1) as [[[[o3 a] b] c] w3] eqn:EJ. injection E as <- <- <-. rewrite (join_right_mono _ _ _ _ _ _ _ _ _ _ _ _ _ EJ HO _ HL). reflexivity.
Qed.

Lemma next_runs : forall f it w w' o i w1, resp it -> no_timer it -> weq w w' -> next f it w = (o, i, w1) -> o <> OHang -> exists w1', next f it w' = (o, i, w1') /\ weq w1 w1'.
Proof. intros f it w w' o i w1 HR HN HW E HO. destruct (next_weq f it w w' o i w1 HR HN HW E) as [->|(w2 & A & B & _)]; [congruence|eauto]. Qed.

Lemma bare_id : forall it, no_timer it -> bare it = it.
Proof. induction it; cbn; intros; try contradiction; f_equal; auto. Qed.
Lemma seek_weq : forall k it w w' ok it1 w1, resp it -> no_timer it -> weq w w' -> seek k it w = (ok, it1, w1) -> exists w1', seek k it w' = (ok, it1, w1') /\ weq w1 w1' /\ resp it1 /\ no_timer it1.
Proof.
  intros k it w w' ok it1 w1 HR HN HW E. pose proof (seek_resp k it w HR) as R1. rewrite E in R1. cbn [fst snd] in R1.
  destruct (seek_bare k it w w _ _ _ (weq_refl w) E) as (wa & EA & WA). rewrite (bare_id it HN), E in EA. injection EA as EB ->.
  destruct (seek_bare k it w w' _ _ _ HW E) as (wb & EC & WB). rewrite (bare_id it HN) in EC. exists wb. rewrite <- EB in EC. split; [exact EC|]. split; [exact WB|]. split; [exact R1|]. rewrite EB. apply bare_no_timer.
Qed.

Lemma after_weq : forall f it o u1 w1 w1' o2 i2 w2, composite it -> resp it -> resp u1 -> no_timer u1 -> weq w1 w1' -> after f it o u1 w1 = (o2, i2, w2) -> o2 <> OHang ->
  exists w2', after f it o u1 w1' = (o2, i2, w2') /\ weq w2 w2'.
Proof.
  intros f it o u1 w1 w1' o2 i2 w2 HC HR R1 N1 HW E HO. destruct it as [b|s ff u|u|h rms u|mf rb rk fin u]; try contradiction; cbn [after resp] in *; destruct o as [[k v]| | | | |]; try (injection E as <- <- <-; eauto).
  - destruct HR as [HF HR]. destruct (HF w1 w1' k v HW) as [F1 F2]. destruct (ff w1 k v) as [fr w3]. destruct (ff w1' k v) as [fr' w3']. cbn [fst snd] in F1, F2. subst fr'.
    destruct fr as [| |k'| | |]; try (injection E as <- <- <-; eauto).
    + eapply next_runs; [| | |exact E|exact HO]; [cbn; auto|exact N1|auto with weq].
    + destruct (seek k' u1 (note (EvSeek s k') (bump s CSeek w3))) as [[ok u2] w4] eqn:ES.
      destruct (seek_weq k' u1 _ (note (EvSeek s k') (bump s CSeek w3')) _ _ _ R1 N1 (weq_nb _ _ _ _ _ F2) ES) as (w4' & -> & W4 & R2 & N2).
      destruct ok; [|injection E as <- <- <-; eauto]. eapply next_runs; [| | |exact E|exact HO]; [cbn; auto|exact N2|auto with weq].
  - pose proof (match_key_weq f h k v rms w1 w1' HW) as M. destruct (match_key f h k v rms w1) as [[[m r] w3]|]; destruct (match_key f h k v rms w1') as [[[m' r'] w3']|]; cbn [oeq] in M; try contradiction; [|injection E; congruence].
    destruct M as [M W3]. injection M as <- <-. destruct m; [|injection E as <- <- <-; eauto]. eapply next_runs; [| | |exact E|exact HO]; auto.
  - destruct (join_weq f mf rb rk fin k v w1 w1' HW) as [J1 J2]. destruct (join_right f mf rb rk fin k v w1) as [[[[o3 a] b] c] w3]. destruct (join_right f mf rb rk fin k v w1') as [x w3']. cbn [fst snd] in J1, J2. subst x.
    injection E as <- <- <-. eauto.
Qed.

Lemma resp_under : forall it, resp it -> resp (under it). Proof. destruct it; cbn; tauto. Qed.
Lemma no_timer_under : forall it, no_timer it -> no_timer (under it). Proof. destruct it; cbn; tauto. Qed.

Lemma runs_join : forall f it w o u1 w1 o2 i2 w2, composite it -> resp it -> no_timer it -> runs (under it) w o u1 w1 -> after f it o u1 w1 = (o2, i2, w2) -> o2 <> OHang -> runs it w o2 i2 w2.
Proof.
  intros f it w o u1 w1 o2 i2 w2 HC HR HN HU E HO. destruct (runs_keep _ _ _ _ _ (resp_under it HR) (no_timer_under it HN) HU) as [R1 N1].
  destruct HU as (HO1 & f1 & wa & E1 & WA). destruct (after_weq f it o u1 w1 wa o2 i2 w2 HC HR R1 N1 WA E HO) as (w3 & E3 & W3).
  split; [exact HO|]. exists (S (Nat.max f f1)), w3. split; [|exact W3].
  apply (next_after (Nat.max f f1) it w o u1 wa o2 i2 w3 HC); [|exact HO|].
  - apply (next_mono _ _ _ _ _ _ E1 HO1). lia.
  - apply (after_mono f); auto. lia.
Qed.
Lemma runs_split : forall it w o2 i2 w2, composite it -> runs it w o2 i2 w2 ->
  exists o u1 w1 f w3, runs (under it) w o u1 w1 /\ after f it o u1 w1 = (o2, i2, w3) /\ weq w2 w3.
Proof.
  intros it w o2 i2 w2 HC (HO & f & w3 & E & W). destruct f as [|f]; [cbn [next] in E; injection E; congruence|].
  destruct (next f (under it) w) as [[o u1] w1] eqn:E1. pose proof (proj1 (next_after f it w o u1 w1 o2 i2 w3 HC E1 HO) E) as EA.
  exists o, u1, w1, f, w3. split; [|auto]. split; [|exists f, w1; auto with weq].
  intros ->. pose proof (after_hang f it u1 w1 HC) as H. rewrite EA in H. cbn in H. congruence.
Qed.
Lemma runs_shift : forall it w o i w1 w2, weq w1 w2 -> runs it w o i w1 -> runs it w o i w2.
Proof. intros it w o i w1 w2 H (A & f & w3 & B & C). split; [exact A|]. exists f, w3. split; [exact B|]. eapply weq_trans; [apply weq_sym; exact H|exact C]. Qed.

(** The call against the iterator without timeout sources: the same answer, or, when it
    timed out, the next call goes on from where the first one started. *)
Definition resumes (it : iter) (w' : world) (it1 : iter) (w1 : world) : Prop :=
  forall w2 o2 i2 w3, weq w1 w2 -> runs (bare it1) w2 o2 i2 w3 -> runs (bare it) w' o2 i2 w3.
Definition goes (it : iter) (w' : world) (o : out) (it1 : iter) (w1 : world) : Prop :=
  (o <> OExpired -> runs (bare it) w' o (bare it1) w1) /\ (o = OExpired -> resumes it w' it1 w1).

(** A stage that takes one more round on the bare side. *)
Lemma goes_more : forall it itn w' o1 u1 wa o it1 w1 wn wn', composite (bare it) -> resp (bare it) -> resp (bare itn) ->
  runs (under (bare it)) w' o1 u1 wa -> weq wn wn' ->
  (forall f, after f (bare it) o1 u1 wa = next f (bare itn) wn') ->
  goes itn wn o it1 w1 -> goes it w' o it1 w1.
Proof.
  intros it itn w' o1 u1 wa o it1 w1 wn wn' HC HR HRn HU HW HA [G1 G2].
  assert (P : forall o2 i2 w3, runs (bare itn) wn o2 i2 w3 -> runs (bare it) w' o2 i2 w3).
  { intros o2 i2 w3 H. apply (runs_weq _ wn wn') in H; auto using bare_no_timer. destruct H as (HO & f & w4 & E & W4). rewrite <- HA in E.
    apply (runs_shift _ _ _ _ w4); [apply weq_sym; exact W4|]. eapply (runs_join f); eauto using bare_no_timer. }
  split; intro H; [apply P; auto|]. intros w2 o2 i2 w3 W2 HRu. apply P. exact (G2 H w2 o2 i2 w3 W2 HRu).
Qed.

Lemma join_no_expired : forall f mf rb rkv fin lk lv w o a b c w1, join_right f mf rb rkv fin lk lv w = (o, a, b, c, w1) -> o <> OExpired.
Proof.
  induction f as [|f IH]; intros mf rb rkv fin lk lv w o a b c w1 E; cbn [join_right] in E; [injection E; congruence|]. destruct fin; [injection E; congruence|].
  destruct (match rkv with Some e => (Some e, rb) | None => base_next rb end) as [[[rk rv]|] rb1]; [|injection E; congruence].
  destruct (bytes_compare rk lk); [| |injection E; congruence].
  - destruct (mf lk lv rv); injection E; congruence.
  - destruct (base_seek lk rb1 w) as [[] rb2]; [eapply IH; exact E|injection E; congruence].
Qed.

Lemma next_goes : forall f it w w' o it1 w1, resp it -> weq w w' -> next f it w = (o, it1, w1) -> o <> OHang -> resp it1 /\ goes it w' o it1 w1.
Proof.
  induction f as [|f IH]; intros it w w' o it1 w1 HR HW E HO; [cbn [next] in E; injection E; congruence|].
  assert (BASE : forall b, it = IBase b -> resp it1 /\ goes it w' o it1 w1).
  { intros b ->. cbn [next] in E. destruct (base_next b) as [[e|] b1] eqn:EB; injection E as <- <- <-; (split; [exact I|]); split; intro H; try discriminate H; (split; [discriminate|]); exists 1%nat, w'; cbn [next bare]; rewrite EB; auto. }
  assert (TIMER : forall u, it = ITimeout u -> resp it1 /\ goes it w' o it1 w1).
  { intros u ->. cbn [next] in E. destruct (gettime w) as [now wg] eqn:EG. assert (WG : weq wg w') by (unfold gettime in EG; injection EG as <- <-; destruct HW; split; assumption).
    assert (EX : (OExpired, ITimeout u, wg) = (o, it1, w1) -> resp it1 /\ goes (ITimeout u) w' o it1 w1).
    { intro X. injection X as <- <- <-. split; [exact HR|]. split; [congruence|]. intros _ w2 o2 i2 w3 W2 HU. cbn [bare] in *. eapply runs_weq; [apply bare_resp; exact HR|apply bare_no_timer| |exact HU].
      eapply weq_trans; [apply weq_sym; exact W2|exact WG]. }
    destruct (ts_cmp now (w_deadline wg)); auto.
    destruct (next f u wg) as [[o1 u1] w2] eqn:E1. injection E as <- <- <-. exact (IH u wg w' o1 u1 w2 HR WG E1 HO). }
  destruct it as [b|s ff u|u|h rms u|mf rb rk fin u]; try (eapply BASE; reflexivity); try (eapply TIMER; reflexivity); clear BASE TIMER.
  - cbn [next] in E. destruct HR as [HF HR]. destruct (next f u w) as [[o1 u1] w2] eqn:E1.
    assert (HO1 : o1 <> OHang) by (intros ->; congruence). destruct (IH _ _ _ _ _ _ HR HW E1 HO1) as [R1 [G1 G2]].
    set (it := IFilter s ff u) in *. assert (BC : composite (bare it)) by exact I. assert (BR : resp (bare it)) by (split; [exact HF|apply bare_resp; exact HR]).
    assert (OUT : forall o3 w3, (forall f, after f (bare it) o1 (bare u1) w2 = (o3, IFilter s ff (bare u1), w3)) -> o3 <> OHang -> o3 <> OExpired -> o1 <> OExpired -> goes it w' o3 (IFilter s ff u1) w3).
    { intros o3 w3 HA H1 H2 H3. split; [|congruence]. intros _. eapply (runs_join O); [exact BC|exact BR|apply bare_no_timer|exact (G1 H3)|apply HA|exact H1]. }
    destruct o1 as [[k v]| | | | |]; try (exfalso; apply HO1; reflexivity); try (injection E as <- <- <-; split; [split; assumption|apply OUT; [reflexivity|discriminate..]]).
    + specialize (G1 ltac:(discriminate)). destruct (ff w2 k v) as [fr w3] eqn:EF.
      destruct fr as [| |k'| | |]; try (injection E as <- <- <-; split; [split; assumption|apply OUT; [intro; cbn [after bare it]; rewrite EF; reflexivity|discriminate..]]).
      * assert (RN : resp (IFilter s ff u1)) by (split; assumption).
        destruct (IH _ _ _ _ _ _ RN (weq_refl _) E HO) as [R3 G3]. split; [exact R3|].
        eapply (goes_more it (IFilter s ff u1)); [exact BC|exact BR|apply bare_resp; exact RN|exact G1|apply weq_refl| |exact G3]. intro f0. cbn [after bare it]. rewrite EF. reflexivity.
      * destruct (seek k' u1 (note (EvSeek s k') (bump s CSeek w3))) as [[ok u2] w4] eqn:ES.
        destruct (seek_bare k' u1 _ _ _ _ _ (weq_refl _) ES) as (w4' & ES' & W4). pose proof (seek_resp k' u1 (note (EvSeek s k') (bump s CSeek w3)) R1) as R2. rewrite ES in R2. cbn [fst snd] in R2.
        destruct ok.
        -- assert (RN : resp (IFilter s ff u2)) by (split; assumption).
           destruct (IH _ _ _ _ _ _ RN (weq_refl _) E HO) as [R3 G3]. split; [exact R3|].
           eapply (goes_more it (IFilter s ff u2)); [exact BC|exact BR|apply bare_resp; exact RN|exact G1|apply (weq_nb (EvReject s k v) s CFiltered); exact W4| |exact G3]. intro f0. cbn [after bare it]. rewrite EF, ES'. reflexivity.
        -- injection E as <- <- <-. split; [split; assumption|]. split; [|discriminate]. intros _.
           apply (runs_shift _ _ _ _ w4'); [apply weq_sym; exact W4|]. eapply (runs_join O); [exact BC|exact BR|apply bare_no_timer|exact G1| |discriminate]. cbn [after bare it]. rewrite EF, ES'. reflexivity.
    + injection E as <- <- <-. split; [split; assumption|]. split; [congruence|]. intros _ wx o2 i2 w3 WX HX. cbn [bare] in HX.
      destruct (runs_split _ _ _ _ _ (I : composite (IFilter s ff (bare u1))) HX) as (o & ux & wy & fx & wz & A & B & C). cbn [under] in A.
      apply (runs_shift _ _ _ _ wz); [apply weq_sym; exact C|]. eapply (runs_join fx (bare it)); [exact BC|exact BR|apply bare_no_timer|exact (G2 eq_refl _ _ _ _ WX A)|exact B|apply HX].
  - cbn [next] in E. cbn [resp] in HR. destruct (next f u w) as [[o1 u1] w2] eqn:E1.
    assert (HO1 : o1 <> OHang) by (intros ->; congruence). destruct (IH _ _ _ _ _ _ HR HW E1 HO1) as [R1 [G1 G2]].
    set (it := IRemove h rms u) in *. assert (BC : composite (bare it)) by exact I. assert (BR : resp (bare it)) by (apply bare_resp; exact HR).
    assert (OUT : o1 <> OExpired -> (forall e, o1 <> OOk e) -> goes it w' o1 (IRemove h rms u1) w2).
    { intros H1 H2. split; [|congruence]. intros _. eapply (runs_join O); [exact BC|exact BR|apply bare_no_timer|exact (G1 H1)| |exact HO1]. destruct o1 as [e| | | | |]; try reflexivity. exfalso. eapply H2. reflexivity. }
    destruct o1 as [[k v]| | | | |]; try (exfalso; apply HO1; reflexivity); try (injection E as <- <- <-; split; [assumption|apply OUT; discriminate]).
    + specialize (G1 ltac:(discriminate)). destruct (match_key f h k v rms w2) as [[[m r] w3]|] eqn:EM; [|injection E; congruence]. destruct m.
      * assert (RN : resp (IRemove h r u1)) by exact R1.
        destruct (IH _ _ _ _ _ _ RN (weq_refl _) E HO) as [R3 [G3 G4]]. split; [exact R3|].
        assert (P : forall o2 i2 w4, runs (bare (IRemove h r u1)) w3 o2 i2 w4 -> runs (bare it) w' o2 i2 w4).
        { intros o2 i2 w4 (HO2 & fx & w5 & EX & WX). apply (runs_shift _ _ _ _ w5); [apply weq_sym; exact WX|].
          eapply (runs_join (Nat.max f fx)); [exact BC|exact BR|apply bare_no_timer|exact G1| |exact HO2]. cbn [after bare it]. rewrite (match_key_mono _ _ _ _ _ _ _ EM (Nat.max f fx)) by lia.
          apply (next_mono _ _ _ _ _ _ EX HO2). lia. }
        split; intro H; [apply P; auto|]. intros wx o2 i2 w4 WX HX. apply P. exact (G4 H wx o2 i2 w4 WX HX).
      * injection E as <- <- <-. split; [exact R1|]. split; [|discriminate]. intros _. eapply (runs_join f); [exact BC|exact BR|apply bare_no_timer|exact G1| |discriminate]. cbn [after bare it]. rewrite EM. reflexivity.
    + injection E as <- <- <-. split; [assumption|]. split; [congruence|]. intros _ wx o2 i2 w3 WX HX. cbn [bare] in HX.
      destruct (runs_split _ _ _ _ _ (I : composite (IRemove h rms (bare u1))) HX) as (o & ux & wy & fx & wz & A & B & C). cbn [under] in A.
      apply (runs_shift _ _ _ _ wz); [apply weq_sym; exact C|]. eapply (runs_join fx (bare it)); [exact BC|exact BR|apply bare_no_timer|exact (G2 eq_refl _ _ _ _ WX A)|exact B|apply HX].
  - cbn [next] in E. cbn [resp] in HR. destruct (next f u w) as [[o1 u1] w2] eqn:E1.
    assert (HO1 : o1 <> OHang) by (intros ->; congruence). destruct (IH _ _ _ _ _ _ HR HW E1 HO1) as [R1 [G1 G2]].
    set (it := ILjoin mf rb rk fin u) in *. assert (BC : composite (bare it)) by exact I. assert (BR : resp (bare it)) by (apply bare_resp; exact HR).
    assert (OUT : o1 <> OExpired -> (forall e, o1 <> OOk e) -> goes it w' o1 (ILjoin mf rb rk fin u1) w2).
    { intros H1 H2. split; [|congruence]. intros _. eapply (runs_join O); [exact BC|exact BR|apply bare_no_timer|exact (G1 H1)| |exact HO1]. destruct o1 as [e| | | | |]; try reflexivity. exfalso. eapply H2. reflexivity. }
    destruct o1 as [[k v]| | | | |]; try (exfalso; apply HO1; reflexivity); try (injection E as <- <- <-; split; [assumption|apply OUT; discriminate]).
    + specialize (G1 ltac:(discriminate)). destruct (join_right f mf rb rk fin k v w2) as [[[[o3 a] b] c] w3] eqn:EJ. injection E as <- <- <-. split; [exact R1|].
      assert (NE : o3 <> OExpired) by (eapply join_no_expired; exact EJ).
      split; [|congruence]. intros _. eapply (runs_join f); [exact BC|exact BR|apply bare_no_timer|exact G1| |exact HO]. cbn [after bare it]. rewrite EJ. reflexivity.
    + injection E as <- <- <-. split; [assumption|]. split; [congruence|]. intros _ wx o2 i2 w3 WX HX. cbn [bare] in HX.
      destruct (runs_split _ _ _ _ _ (I : composite (ILjoin mf rb rk fin (bare u1))) HX) as (o & ux & wy & fx & wz & A & B & C). cbn [under] in A.
      apply (runs_shift _ _ _ _ wz); [apply weq_sym; exact C|]. eapply (runs_join fx (bare it)); [exact BC|exact BR|apply bare_no_timer|exact (G2 eq_refl _ _ _ _ WX A)|exact B|apply HX].
Qed.
