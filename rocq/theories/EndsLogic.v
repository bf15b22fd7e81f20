(** * Every call comes to an end

    [E x m c Q]: from the memory [m], the program [c] (given its fuel) has one outcome from
    some fuel on, which is not [Hang]; if it is a result, [Q] holds of it and of the memory
    then, which is again [good].  Nothing is said about outcomes like [UB] here: that there are
    none is shown in MemoryProofs.v.

    [good]: sources lie on top of sources that were made earlier, iterators on top of
    iterators that were made earlier; where this is not so (what a remove filter is put on,
    the iterators of its files) they lie on something simple. *)
From Coq Require Import Permutation Wf_nat.
From Verif Require Import Base ModelMemory SpecMemory HeapLogic.

Notation at_ m p := (lookup p (cells m)).
Definition ch (m : memory) : nat := length (choices m).

Definition flat (m : memory) (u : N) : Prop :=
  u < next m /\ (forall i, at_ m u = Some (OSource i) -> i = SBase) /\ (forall i, at_ m u = Some (OIter i) -> exists s, i = IBase s).
(** A source on top of others, no remove filter or join among them. *)
Inductive plain (m : memory) : N -> Prop :=
| plain_none u : u < next m -> (forall i, at_ m u <> Some (OSource i)) -> plain m u
| plain_base u : at_ m u = Some (OSource SBase) -> plain m u
| plain_filter u f : at_ m u = Some (OSource (SFilter f)) -> f < next m ->
    (forall a s fn d, at_ m f = Some (OFilter a s fn d) -> plain m a) -> plain m u
| plain_timeout u f : at_ m u = Some (OSource (STimeout f)) -> f < next m ->
    (forall a s d, at_ m f = Some (OTimeout a s d) -> plain m a) -> plain m u.

Definition fine (m : memory) (a : N) (o : obj) : Prop :=
  match o with
  | OSource (SFilter x | STimeout x | SLjoin x | SRemove x) => x < a
  | OFilter u s _ _ => u < a /\ s < next m /\ (forall i, at_ m s = Some (OSource i) -> i = SFilter a)
  | OTimeout u s _ => u < a /\ s < next m /\ (forall i, at_ m s = Some (OSource i) -> i = STimeout a)
  | OLjoin l r s => l < a /\ r < a /\ s < next m
  | ORemove u s v => plain m u /\ s < next m
  | OFileset s l => flat m s /\ Forall (flat m) l
  | OMerger s => flat m s
  | OVec _ l => Forall (flat m) l
  | OIter (IFilter i | IWrap i | ITimeout i | ILjoin i | IRemove i) => i < a
  | OFilterIter _ it w => it < a /\ w < next m /\ (forall i, at_ m w = Some (OIter i) -> exists j, i = IWrap j)
  | OTimeoutIter _ it => it < a
  | OLjoinIter _ l r _ => l < a /\ r < a
  | ORemoveIter _ it _ _ _ => it < a
  | OEntries l => Forall (fun x => flat m (fst x) /\ flat m (snd x)) l
  | OQueryIter t => t_source t < next m /\ t_source_index t < next m
  | OReader s _ => flat m s
  | _ => True
  end.
Definition good (m : memory) : Prop := wf m /\ forall p o, at_ m p = Some o -> fine m p o.

(** What a block can become. *)
Definition evolves (o o' : obj) : Prop :=
  match o' with
  | OSource _ | OIter _ => o = o'
  | OFilter a s f d => exists s', o = OFilter a s' f d
  | OTimeout a s d => exists s', o = OTimeout a s' d
  | _ => True
  end.
Record R (x : option N) (m m' : memory) : Prop := {
  R_next : next m <= next m';
  R_ch : (ch m' <= ch m)%nat;
  R_evol : forall p o', p < next m -> at_ m' p = Some o' -> exists o, at_ m p = Some o /\ evolves o o';
  R_keep : forall p t', Some p <> x -> p < next m -> at_ m' p = Some (OQueryIter t') ->
    exists t, at_ m p = Some (OQueryIter t) /\ (plain m (t_source t) -> plain m' (t_source t'))
}.
Lemma R_refl x m : R x m m.
Proof. constructor; auto; try lia. - intros p o _ H. exists o. split; [exact H|]. destruct o; simpl; eauto. - eauto. Qed.
Lemma evolves_trans a b c : evolves a b -> evolves b c -> evolves a c.
Proof.
  destruct c; simpl; auto; intros H1 H2; try (subst b; exact H1).
  - destruct H2 as [s' ->]. simpl in H1. exact H1.
  - destruct H2 as [s' ->]. simpl in H1. exact H1.
Qed.
Lemma R_trans x m1 m2 m3 : R x m1 m2 -> R x m2 m3 -> R x m1 m3.
Proof.
  intros [N1 C1 V1 K1] [N2 C2 V2 K2]. constructor; try lia.
  - intros p o' Hp H3. destruct (V2 p o') as (o2 & H2 & E2); [lia|exact H3|]. destruct (V1 p o2 Hp H2) as (o1 & H1 & E1).
    exists o1. split; [exact H1|]. eapply evolves_trans; eassumption.
  - intros p t' Hx Hp H3. destruct (K2 p t' Hx) as (t2 & H2 & E2); [lia|exact H3|]. destruct (K1 p t2 Hx Hp H2) as (t1 & H1 & E1). eauto.
Qed.
Lemma R_weak x m m' : R None m m' -> R x m m'.
Proof. intros [H1 H2 H3 H4]. constructor; auto. intros p t' _. apply H4. discriminate. Qed.

Lemma flat_mono x m m' u : R x m m' -> flat m u -> flat m' u.
Proof.
  intros HR (H0 & H1 & H2). split; [pose proof (R_next _ _ _ HR); lia|]. split; intros i Hi; destruct (R_evol _ _ _ HR u _ H0 Hi) as (o & Ho & Ev); simpl in Ev; subst o; auto.
Qed.
Lemma plain_lt m u : good m -> plain m u -> u < next m.
Proof.
  intros ((_ & _ & Hf) & _) H. assert (Hl : forall o, at_ m u = Some o -> u < next m).
  { intros o Ho. clear - Hf Ho. induction (cells m) as [|[a x] l IH]; simpl in Ho; [discriminate|]. apply Forall_cons_iff in Hf as [H1 H2].
    destruct (a =? u) eqn:E; [apply N.eqb_eq in E; subst; simpl in H1; lia|auto]. }
  destruct H; eauto.
Qed.
Lemma good_lt m p o : good m -> at_ m p = Some o -> 0 < p < next m.
Proof.
  intros ((_ & _ & Hf) & _) Ho. induction (cells m) as [|[a x] l IH]; simpl in Ho; [discriminate|]. apply Forall_cons_iff in Hf as [H1 H2].
  destruct (a =? p) eqn:E; [apply N.eqb_eq in E; subst; simpl in H1; lia|auto].
Qed.
Lemma plain_mono x m m' u : good m -> R x m m' -> plain m u -> plain m' u.
Proof.
  intros HG HR H. pose proof (R_next _ _ _ HR) as Hn. induction H as [u Hu Hs|u Hb|u f Hu Hf _ IH|u f Hu Hf _ IH].
  - apply plain_none; [lia|]. intros i Hi. destruct (R_evol _ _ _ HR u _ Hu Hi) as (o & Ho & Ev). simpl in Ev. subst o. exact (Hs _ Ho).
  - pose proof (good_lt _ _ _ HG Hb) as Hl. destruct (at_ m' u) as [o'|] eqn:E.
    + destruct (R_evol _ _ _ HR u o') as (o & Ho & Ev); [lia|exact E|]. rewrite Hb in Ho. injection Ho as <-. destruct o'; simpl in Ev; try (apply plain_none; [lia|intros i Hi; congruence]).
      * injection Ev as <-. apply plain_base, E.
    + apply plain_none; [lia|]. congruence.
  - pose proof (good_lt _ _ _ HG Hu) as Hl. destruct (at_ m' u) as [o'|] eqn:E.
    + destruct (R_evol _ _ _ HR u o') as (o & Ho & Ev); [lia|exact E|]. rewrite Hu in Ho. injection Ho as <-. destruct o'; simpl in Ev; try (apply plain_none; [lia|intros i Hi; congruence]).
      injection Ev as <-. apply plain_filter with f; [exact E|lia|]. intros a s fn d Ha. destruct (R_evol _ _ _ HR f _ Hf Ha) as (o & Ho & [s' ->]). eauto.
    + apply plain_none; [lia|]. congruence.
  - pose proof (good_lt _ _ _ HG Hu) as Hl. destruct (at_ m' u) as [o'|] eqn:E.
    + destruct (R_evol _ _ _ HR u o') as (o & Ho & Ev); [lia|exact E|]. rewrite Hu in Ho. injection Ho as <-. destruct o'; simpl in Ev; try (apply plain_none; [lia|intros i Hi; congruence]).
      injection Ev as <-. apply plain_timeout with f; [exact E|lia|]. intros a s d Ha. destruct (R_evol _ _ _ HR f _ Hf Ha) as (o & Ho & [s' ->]). eauto.
    + apply plain_none; [lia|]. congruence.
Qed.
Lemma flat_plain m u : flat m u -> plain m u.
Proof.
  intros (H0 & H1 & _). destruct (at_ m u) as [[]|] eqn:E; try (apply plain_none; [exact H0|congruence]).
  apply plain_base. rewrite (H1 _ eq_refl) in E. exact E.
Qed.
Lemma fine_mono x m m' a o : good m -> R x m m' -> fine m a o -> fine m' a o.
Proof.
  intros HG HR. pose proof (R_next _ _ _ HR) as Hn. destruct o; simpl; auto.
  - apply Forall_impl. intro. eapply flat_mono, HR.
  - intros (H1 & H2 & H3). repeat split; [lia|lia|]. intros i Hi. destruct (R_evol _ _ _ HR _ _ H2 Hi) as (o & Ho & Ev). simpl in Ev. subst. auto.
  - intros (H1 & H2 & H3). repeat split; [lia|lia|]. intros i Hi. destruct (R_evol _ _ _ HR _ _ H2 Hi) as (o & Ho & Ev). simpl in Ev. subst. auto.
  - intros (H1 & H2 & H3). repeat split; lia.
  - intros (H1 & H2). split; [eapply plain_mono; eassumption|lia].
  - intros (H1 & H2). split; [eapply flat_mono; eassumption|]. revert H2. apply Forall_impl. intro. eapply flat_mono, HR.
  - eapply flat_mono, HR.
  - intros (H1 & H2 & H3). repeat split; [lia|lia|]. intros i Hi. destruct (R_evol _ _ _ HR _ _ H2 Hi) as (o & Ho & Ev). simpl in Ev. subst. auto.
  - apply Forall_impl. intros y [Y1 Y2]. split; (eapply flat_mono; [exact HR|assumption]).
  - intros (H1 & H2). split; lia.
  - eapply flat_mono, HR.
Qed.

(** ** Programs *)

Definition E {A} (x : option N) (m : memory) (c : nat -> M A) (Q : A -> memory -> Prop) : Prop :=
  exists n0 r, (forall n, (n0 <= n)%nat -> c n m = r) /\
    match r with Ok (a, m') => good m' /\ R x m m' /\ Q a m' | Hang => False | _ => True end.

Section Rules.
  Context {A B : Type} (x : option N) (m : memory).
  Implicit Types (Q : B -> memory -> Prop).

  Lemma E_ret (a : A) (Q : A -> memory -> Prop) : good m -> Q a m -> E x m (fun _ => ret a) Q.
  Proof. intros HG HQ. exists O, (Ok (a, m)). split; [reflexivity|]. split; [exact HG|split; [apply R_refl|exact HQ]]. Qed.
  Lemma E_bad (Q : A -> memory -> Prop) : E x m (fun _ => bad) Q.
  Proof. exists O, UB. split; [reflexivity|exact I]. Qed.
  Lemma E_bad_bind k Q : E x m (fun n => mbind (bad (A := A)) (k n)) Q.
  Proof. exists O, UB. split; [reflexivity|exact I]. Qed.
  Lemma E_bind (c : nat -> M A) (k : nat -> A -> M B) (P : A -> memory -> Prop) Q :
    E x m c P -> (forall a m', good m' -> R x m m' -> P a m' -> E x m' (fun n => k n a) Q) -> E x m (fun n => mbind (c n) (k n)) Q.
  Proof.
    intros (n0 & r & Hc & Hr) Hk. destruct r as [[a m']| | | |].
    - destruct Hr as (HG & HR & HP). destruct (Hk a m' HG HR HP) as (n1 & r & Hk' & Hr). exists (Nat.max n0 n1), r. split.
      + intros n Hn. unfold mbind. rewrite Hc by lia. apply Hk'. lia.
      + destruct r as [[b m2]| | | |]; try exact Hr. destruct Hr as (H1 & H2 & H3). split; [exact H1|split; [eapply R_trans; eassumption|first [exact H3|apply HQ; assumption]]].
    - exists n0, Fail. split; [intros n Hn; unfold mbind; rewrite Hc by lia; reflexivity|exact I].
    - exists n0, Abort. split; [intros n Hn; unfold mbind; rewrite Hc by lia; reflexivity|exact I].
    - exists n0, UB. split; [intros n Hn; unfold mbind; rewrite Hc by lia; reflexivity|exact I].
    - contradiction.
  Qed.
  Lemma E_call (c : nat -> M A) (k : nat -> A -> M B) (P : A -> memory -> Prop) Q :
    E None m c P -> (forall a m', good m' -> R None m m' -> P a m' -> E x m' (fun n => k n a) Q) -> E x m (fun n => mbind (c n) (k n)) Q.
  Proof.
    intros (n0 & r & Hc & Hr) Hk. destruct r as [[a m']| | | |].
    - destruct Hr as (HG & HR & HP). destruct (Hk a m' HG HR HP) as (n1 & r & Hk' & Hr). exists (Nat.max n0 n1), r. split.
      + intros n Hn. unfold mbind. rewrite Hc by lia. apply Hk'. lia.
      + destruct r as [[b m2]| | | |]; try exact Hr. destruct Hr as (H1 & H2 & H3). split; [exact H1|split; [eapply R_trans; [apply R_weak|]; eassumption|first [exact H3|apply HQ; assumption]]].
    - exists n0, Fail. split; [intros n Hn; unfold mbind; rewrite Hc by lia; reflexivity|exact I].
    - exists n0, Abort. split; [intros n Hn; unfold mbind; rewrite Hc by lia; reflexivity|exact I].
    - exists n0, UB. split; [intros n Hn; unfold mbind; rewrite Hc by lia; reflexivity|exact I].
    - contradiction.
  Qed.
  Lemma E_post (c : nat -> M A) (P Q : A -> memory -> Prop) :
    E None m c P -> (forall a m', good m' -> R None m m' -> P a m' -> Q a m') -> E x m c Q.
  Proof.
    intros (n0 & r & Hc & Hr) HQ. exists n0, r. split; [exact Hc|]. destruct r as [[a m']| | | |]; try exact Hr.
    destruct Hr as (H1 & H2 & H3). split; [exact H1|split; [apply R_weak, H2|first [exact H3|apply HQ; assumption]]].
  Qed.
  Lemma E_tail (c : nat -> M A) (Q : A -> memory -> Prop) : E x m (fun n => mbind (c n) ret) Q -> E x m c Q.
  Proof.
    intros (n0 & r & Hc & Hr). exists n0, r. split; [|exact Hr]. intros n Hn. specialize (Hc n Hn). unfold mbind, ret in Hc.
    destruct (c n m) as [[a m']| | | |]; exact Hc.
  Qed.
  Lemma E_S (c : nat -> M A) (Q : A -> memory -> Prop) : E x m (fun n => c (S n)) Q -> E x m c Q.
  Proof.
    intros (n0 & r & Hc & Hr). exists (S n0), r. split; [|exact Hr]. intros [|n] Hn; [lia|]. apply Hc. lia.
  Qed.
  Lemma E_ret_bind (a : A) (k : nat -> A -> M B) Q : E x m (fun n => k n a) Q -> E x m (fun n => mbind (ret a) (k n)) Q.
  Proof. intro H. exact H. Qed.

  Lemma E_load p k Q : good m -> (forall o, at_ m p = Some o -> 0 < p < next m -> fine m p o -> E x m (fun n => k n o) Q) -> E x m (fun n => mbind (load p) (k n)) Q.
  Proof.
    intros HG Hk. destruct (at_ m p) as [o|] eqn:Eq.
    - destruct (Hk o eq_refl (good_lt _ _ _ HG Eq) (proj2 HG _ _ Eq)) as (n0 & r & H1 & H2). exists n0, r. split; [|exact H2].
      intros n Hn. unfold mbind, load. rewrite Eq. apply H1, Hn.
    - exists O, UB. split; [intros n _; unfold mbind, load; rewrite Eq; reflexivity|exact I].
  Qed.
  Lemma E_pick k Q : good m ->
    (forall c m', good m' -> R None m m' -> (forall q o, at_ m q = Some o -> at_ m' q = Some o) -> (c <> 0 -> (ch m' < ch m)%nat) -> E x m' (fun n => k n c) Q) ->
    E x m (fun n => mbind pick (k n)) Q.
  Proof.
    intros HG Hk. destruct (choices m) as [|c r] eqn:Ec.
    - destruct (Hk 0 m HG (R_refl _ _) (fun q o H => H) ltac:(congruence)) as (n0 & r & H1 & H2). exists n0, r. split; [|exact H2].
      intros n Hn. unfold mbind, pick. rewrite Ec. apply H1, Hn.
    - set (m' := {| next := next m; cells := cells m; choices := r |}).
      assert (Hp : forall u, plain m u -> plain m' u).
      { induction 1; [apply plain_none; assumption|apply plain_base; assumption|eapply plain_filter; eassumption|eapply plain_timeout; eassumption]. }
      assert (HR : R None m m').
      { constructor; simpl; [lia|unfold ch; simpl; rewrite Ec; simpl; lia| |].
        - intros p o Hl Ho. exists o. split; [exact Ho|]. destruct o; simpl; eauto.
        - intros p t _ Hl Ho. exists t. split; [exact Ho|]. apply Hp. }
      assert (HG' : good m').
      { split; [apply HG|]. intros p o Ho. eapply fine_mono; [exact HG|exact HR|]. apply HG. exact Ho. }
      destruct (Hk c m' HG' HR) as (n0 & r0 & H1 & H2); [auto|intros _; unfold ch; simpl; rewrite Ec; simpl; lia|].
      exists n0, r0. split; [intros n Hn; unfold mbind, pick; rewrite Ec; apply H1, Hn|].
      destruct r0 as [[b m2]| | | |]; try exact H2. destruct H2 as (G1 & G2 & G3). split; [exact G1|split; [|exact G3]]. eapply R_trans; [apply R_weak, HR|exact G2].
  Qed.
  Lemma E_malloc o k Q : good m -> fine m (next m) o ->
    (forall p m', good m' -> R None m m' -> p = next m -> p < next m' -> p <> 0 -> (forall q o, at_ m q = Some o -> at_ m' q = Some o) -> at_ m' p = Some o -> E x m' (fun n => k n p) Q) ->
    E x m (fun n => mbind (malloc o) (k n)) Q.
  Proof.
    intros HG Hf Hk. set (m' := {| next := next m + 1; cells := (next m, o) :: cells m; choices := choices m |}).
    assert (Hold : forall q o, at_ m q = Some o -> at_ m' q = Some o).
    { intros q o' Hq. pose proof (good_lt _ _ _ HG Hq). simpl. destruct (next m =? q) eqn:Eq; [lia|exact Hq]. }
    assert (Hback : forall q o', q < next m -> at_ m' q = Some o' -> at_ m q = Some o').
    { intros q o' Hq. simpl. destruct (next m =? q) eqn:Eq; [lia|auto]. }
    assert (Hp : forall u, plain m u -> plain m' u).
    { induction 1.
      - apply plain_none; [simpl; lia|]. intros i Hi. apply Hback in Hi; [congruence|assumption].
      - apply plain_base. auto.
      - eapply plain_filter; [apply Hold; eassumption|simpl; lia|]. intros a s fn d Ha. apply Hback in Ha; eauto.
      - eapply plain_timeout; [apply Hold; eassumption|simpl; lia|]. intros a s d Ha. apply Hback in Ha; eauto. }
    assert (HR : R None m m').
    { constructor; [simpl; lia|unfold ch; simpl; lia| |].
      - intros p o' Hl Ho. exists o'. split; [auto|]. destruct o'; simpl; eauto.
      - intros p t _ Hl Ho. exists t. split; [auto|]. apply Hp. }
    assert (HG' : good m').
    { destruct HG as ((W0 & Wd & Wf) & Wg). split.
      - split; [simpl; lia|]. simpl. split.
        + constructor; [|exact Wd]. intro Hi. apply in_map_iff in Hi as ([a y] & Ey & Hi). simpl in Ey. subst a. rewrite Forall_forall in Wf. specialize (Wf _ Hi). simpl in Wf. lia.
        + constructor; [simpl; lia|]. eapply Forall_impl; [|exact Wf]. simpl. intros; lia.
      - intros p o' Ho'. eapply fine_mono; [split; [split; [exact W0|split; eassumption]|exact Wg]|exact HR|]. simpl in Ho'. destruct (next m =? p) eqn:Eq.
        + injection Ho' as <-. apply N.eqb_eq in Eq. subst p. exact Hf.
        + apply Wg, Ho'. }
    destruct (Hk (next m) m' HG' HR) as (n0 & r0 & H1 & H2); try reflexivity; [simpl; lia|destruct HG as ((W0 & _) & _); lia|exact Hold|simpl; rewrite N.eqb_refl; reflexivity|].
    exists n0, r0. split; [exact H1|]. destruct r0 as [[b m2]| | | |]; try exact H2. destruct H2 as (G1 & G2 & G3). split; [exact G1|split; [|exact G3]]. eapply R_trans; [apply R_weak, HR|exact G2].
  Qed.
  Lemma lookup_delete p q l : NoDup (map fst l) -> lookup q (delete p l) = if p =? q then None else lookup q l.
  Proof.
    induction l as [|[a y] l IH]; intro Hd; simpl; [destruct (p =? q); reflexivity|]. apply NoDup_cons_iff in Hd as [Hn Hd]. simpl in Hn.
    destruct (a =? p) eqn:E1.
    - apply N.eqb_eq in E1. subst a. destruct (p =? q) eqn:E2; [|reflexivity]. apply N.eqb_eq in E2. subst q. destruct (lookup p l) as [o|] eqn:El; [|reflexivity].
      exfalso. apply Hn. clear - El. induction l as [|[b z] l IH]; simpl in *; [discriminate|]. destruct (b =? p) eqn:E; [left; apply N.eqb_eq, E|right; auto].
    - simpl. rewrite IH by assumption. destruct (a =? q) eqn:E2; [|reflexivity]. apply N.eqb_eq in E2. subst q. rewrite N.eqb_sym, E1. reflexivity.
  Qed.
  Lemma lookup_update p q o l : lookup q (update p o l) = if p =? q then match lookup q l with Some _ => Some o | None => None end else lookup q l.
  Proof.
    induction l as [|[a y] l IH]; simpl; [destruct (p =? q); reflexivity|]. destruct (a =? p) eqn:E1.
    - simpl. apply N.eqb_eq in E1. subst a. destruct (p =? q) eqn:E2; reflexivity.
    - simpl. destruct (a =? q) eqn:E2; [|exact IH]. apply N.eqb_eq in E2. subst q. rewrite N.eqb_sym, E1. reflexivity.
  Qed.
  Lemma keys_update p o l : map fst (update p o l) = map fst l.
  Proof. induction l as [|[a y] l IH]; simpl; [reflexivity|]. destruct (a =? p); simpl; congruence. Qed.
  Lemma keys_delete p l : incl (delete p l) l.
  Proof. induction l as [|[a y] l IH]; simpl; [apply incl_refl|]. destruct (a =? p); [apply incl_tl, incl_refl|]. apply incl_cons; [left; reflexivity|apply incl_tl, IH]. Qed.
  Lemma E_free p k Q : good m ->
    (forall m', good m' -> R None m m' -> (forall q o, q <> p -> at_ m q = Some o -> at_ m' q = Some o) -> E x m' (fun n => k n tt) Q) -> E x m (fun n => mbind (free p) (k n)) Q.
  Proof.
    intros HG Hk. destruct (p =? 0) eqn:Ez.
    { destruct (Hk m HG (R_refl _ _)) as (n0 & r & H1 & H2); [auto|]. exists n0, r. split; [|exact H2]. intros n Hn. unfold mbind, free. rewrite Ez. apply H1, Hn. }
    destruct (at_ m p) as [o|] eqn:Eo; [|exists O, UB; split; [intros n _; unfold mbind, free; rewrite Ez, Eo; reflexivity|exact I]].
    set (m' := with_cells (delete p (cells m)) m).
    pose proof HG as ((W0 & Wd & Wf) & Wg).
    assert (Hat : forall q, at_ m' q = if p =? q then None else at_ m q) by (intro q; apply lookup_delete, Wd).
    assert (Hback : forall q o', at_ m' q = Some o' -> at_ m q = Some o').
    { intros q o'. rewrite Hat. destruct (p =? q); [discriminate|auto]. }
    assert (Hp : forall u, plain m u -> plain m' u).
    { induction 1.
      - apply plain_none; [assumption|]. intros i Hi. apply Hback in Hi. congruence.
      - pose proof (good_lt _ _ _ HG H). destruct (at_ m' u) eqn:E; [|apply plain_none; [apply H0|congruence]]. apply plain_base. rewrite E. apply Hback in E. congruence.
      - pose proof (good_lt _ _ _ HG H). destruct (at_ m' u) eqn:E; [|apply plain_none; [apply H3|congruence]]. apply plain_filter with f; [rewrite E; apply Hback in E; congruence|assumption|]. eauto.
      - pose proof (good_lt _ _ _ HG H). destruct (at_ m' u) eqn:E; [|apply plain_none; [apply H3|congruence]]. apply plain_timeout with f; [rewrite E; apply Hback in E; congruence|assumption|]. eauto. }
    assert (HR : R None m m').
    { constructor; [simpl; lia|unfold ch; simpl; lia| |].
      - intros q o' Hl Ho. exists o'. split; [auto|]. destruct o'; simpl; eauto.
      - intros q t _ Hl Ho. exists t. split; [auto|]. apply Hp. }
    assert (HG' : good m').
    { split.
      - split; [exact W0|]. split.
        + simpl. pose proof (NoDup_map_inv _ _ Wd) as Hd0. clear - Wd. induction (cells m) as [|[a y] l IH]; simpl; [constructor|]. apply NoDup_cons_iff in Wd as [Hn Hd].
          destruct (a =? p); [exact Hd|]. simpl. constructor; [|auto]. intro Hi. apply Hn. apply in_map_iff in Hi as (z & Ez & Hi). apply in_map_iff. exists z. split; [exact Ez|]. apply keys_delete in Hi. exact Hi.
        + simpl. apply Forall_forall. intros c Hc. apply keys_delete in Hc. rewrite Forall_forall in Wf. exact (Wf c Hc).
      - intros q o' Ho'. eapply fine_mono; [exact HG|exact HR|]. apply Wg, Hback, Ho'. }
    destruct (Hk m' HG' HR) as (n0 & r0 & H1 & H2).
    { intros q o' Hq Ho'. rewrite Hat. destruct (p =? q) eqn:Eq; [lia|exact Ho']. }
    exists n0, r0. split; [intros n Hn; unfold mbind, free; rewrite Ez, Eo; apply H1, Hn|].
    destruct r0 as [[b m2]| | | |]; try exact H2. destruct H2 as (G1 & G2 & G3). split; [exact G1|split; [|exact G3]]. eapply R_trans; [apply R_weak, HR|exact G2].
  Qed.
  (** [y]: the query iterator whose source may become any. *)
  Lemma E_store y p o' k Q : good m -> (y = None \/ y = x) ->
    (forall o, at_ m p = Some o -> 0 < p < next m -> fine m p o' /\ evolves o o' /\
       (forall t', o' = OQueryIter t' -> Some p <> y -> exists t, o = OQueryIter t /\ (plain m (t_source t) -> plain m (t_source t')))) ->
    (forall m', good m' -> R y m m' -> (forall q o, q <> p -> at_ m q = Some o -> at_ m' q = Some o) -> at_ m' p = Some o' -> E x m' (fun n => k n tt) Q) ->
    E x m (fun n => mbind (store p o') (k n)) Q.
  Proof.
    intros HG Hy Ho Hk. destruct (at_ m p) as [o|] eqn:Eo; [|exists O, UB; split; [intros n _; unfold mbind, store; rewrite Eo; reflexivity|exact I]].
    pose proof (good_lt _ _ _ HG Eo) as Hlt. destruct (Ho o eq_refl Hlt) as (Hfine & Hev & Hkeep).
    set (m' := with_cells (update p o' (cells m)) m).
    pose proof HG as ((W0 & Wd & Wf) & Wg).
    assert (Hat : forall q, at_ m' q = if p =? q then Some o' else at_ m q).
    { intro q. simpl. rewrite lookup_update. destruct (p =? q) eqn:Eq; [|reflexivity]. apply N.eqb_eq in Eq. subst q. rewrite Eo. reflexivity. }
    assert (Hevol : forall q o2, q < next m -> at_ m' q = Some o2 -> exists o1, at_ m q = Some o1 /\ evolves o1 o2).
    { intros q o2 _. rewrite Hat. destruct (p =? q) eqn:Eq.
      - apply N.eqb_eq in Eq. subst q. intros [= <-]. eauto.
      - intro H. exists o2. split; [exact H|]. destruct o2; simpl; eauto. }
    assert (HR0 : R (Some p) m m' -> R y m m').
    { intros [A1 A2 A3 A4]. constructor; auto. intros q t' Hq Hl Hq'. destruct (N.eq_dec q p) as [->|Hn].
      - rewrite Hat, N.eqb_refl in Hq'. injection Hq' as ->. destruct (Hkeep t' eq_refl Hq) as (t & -> & Ht). exists t. split; [exact Eo|]. intro Hp. apply Ht in Hp.
        eapply plain_mono; [exact HG| |exact Hp]. constructor; eassumption.
      - apply A4; [congruence|exact Hl|exact Hq']. }
    assert (HR1 : R (Some p) m m').
    { assert (Hp : forall u, plain m u -> plain m' u).
      { induction 1.
        - apply plain_none; [assumption|]. intros i Hi. destruct (Hevol u _ ltac:(eassumption) Hi) as (o1 & H1 & Hx). simpl in Hx. subst. congruence.
        - pose proof (good_lt _ _ _ HG H). destruct (at_ m' u) eqn:Eu; [|apply plain_none; [apply H0|congruence]]. destruct (Hevol u _ ltac:(lia) Eu) as (o1 & H1 & Hx).
          rewrite H in H1. injection H1 as <-. destruct o0; simpl in Hx; try (apply plain_none; [simpl; lia|intros i Hi; congruence]). injection Hx as <-. apply plain_base, Eu.
        - pose proof (good_lt _ _ _ HG H). destruct (at_ m' u) eqn:Eu; [|apply plain_none; [apply H3|congruence]]. destruct (Hevol u _ ltac:(lia) Eu) as (o1 & H4 & Hx).
          rewrite H in H4. injection H4 as <-. destruct o0; simpl in Hx; try (apply plain_none; [simpl; lia|intros i Hi; congruence]). injection Hx as <-. apply plain_filter with f; [exact Eu|assumption|].
          intros a s fn d Ha. destruct (Hevol f _ H0 Ha) as (o1 & H5 & [s' ->]). eauto.
        - pose proof (good_lt _ _ _ HG H). destruct (at_ m' u) eqn:Eu; [|apply plain_none; [apply H3|congruence]]. destruct (Hevol u _ ltac:(lia) Eu) as (o1 & H4 & Hx).
          rewrite H in H4. injection H4 as <-. destruct o0; simpl in Hx; try (apply plain_none; [simpl; lia|intros i Hi; congruence]). injection Hx as <-. apply plain_timeout with f; [exact Eu|assumption|].
          intros a s d Ha. destruct (Hevol f _ H0 Ha) as (o1 & H5 & [s' ->]). eauto. }
      constructor; [simpl; lia|unfold ch; simpl; lia|exact Hevol|].
      intros q t' Hq Hl. rewrite Hat. destruct (p =? q) eqn:Eq; [apply N.eqb_eq in Eq; congruence|]. intro Ht. eauto. }
    pose proof (HR0 HR1) as HR.
    assert (HG' : good m').
    { split.
      - split; [exact W0|]. simpl. rewrite keys_update. split; [exact Wd|]. rewrite <- Forall_map with (f := fst) (P := fun a => 0 < a < next m) in *. rewrite keys_update. exact Wf.
      - intros q o2. rewrite Hat. destruct (p =? q) eqn:Eq.
        + apply N.eqb_eq in Eq. subst q. intros [= <-]. eapply fine_mono; [exact HG|exact HR|exact Hfine].
        + intro H. eapply fine_mono; [exact HG|exact HR|]. apply Wg, H. }
    destruct (Hk m' HG' HR) as (n0 & r0 & H1 & H2).
    { intros q o2 Hq Ho2. rewrite Hat. destruct (p =? q) eqn:Eq; [lia|exact Ho2]. }
    { rewrite Hat, N.eqb_refl. reflexivity. }
    exists n0, r0. split; [intros n Hn; unfold mbind, store; rewrite Eo; apply H1, Hn|].
    destruct r0 as [[b m2]| | | |]; try exact H2. destruct H2 as (G1 & G2 & G3). split; [exact G1|split; [|exact G3]]. eapply R_trans; [|exact G2].
    destruct Hy as [->| ->]; [apply R_weak, HR|exact HR].
  Qed.
End Rules.
Lemma E_assoc {A B C} x m (c : nat -> M A) (k : nat -> A -> M B) (k2 : nat -> B -> M C) Q :
  E x m (fun n => mbind (c n) (fun a => mbind (k n a) (k2 n))) Q -> E x m (fun n => mbind (mbind (c n) (k n)) (k2 n)) Q.
Proof.
  intros (n0 & r & H1 & H2). exists n0, r. split; [|exact H2]. intros n Hn. specialize (H1 n Hn). unfold mbind in *. destruct (c n m) as [[a m']| | | |]; exact H1.
Qed.

(** ** Steps *)

Definition flats (m : memory) (l : list N) : Prop := Forall (flat m) l.
Definition pairs (m : memory) (l : list (N * N)) : Prop := Forall (fun x => flat m (fst x) /\ flat m (snd x)) l.
Lemma flats_mono x m m' l : R x m m' -> flats m l -> flats m' l.
Proof. intro HR. apply Forall_impl. intro. eapply flat_mono, HR. Qed.
Lemma pairs_mono x m m' l : R x m m' -> pairs m l -> pairs m' l.
Proof. intro HR. apply Forall_impl. intros y [Y1 Y2]. split; (eapply flat_mono; [exact HR|assumption]). Qed.

Definition U {A} (_ : A) (_ : memory) : Prop := True.

Ltac adv HG HR :=
  let Hn := fresh "Hn" in let Hc := fresh "Hc" in
  pose proof (R_next _ _ _ HR) as Hn; pose proof (R_ch _ _ _ HR) as Hc;
  match type of HR with R _ ?m ?m' =>
    repeat match goal with
    | H : flat m _ |- _ => apply (flat_mono _ _ _ _ HR) in H
    | H : flats m _ |- _ => apply (flats_mono _ _ _ _ HR) in H
    | H : pairs m _ |- _ => apply (pairs_mono _ _ _ _ HR) in H
    | H : Forall (flat m) _ |- _ => apply (flats_mono _ _ _ _ HR) in H
    | H : plain m _ |- _ => apply (plain_mono _ _ _ _ HG HR) in H
    end
  end.
Ltac persist Hold := match type of Hold with forall q o, lookup q (cells ?m) = Some o -> _ => repeat match goal with H : lookup _ (cells m) = Some _ |- _ => apply Hold in H end end.
Ltac persist_ne Hold := match type of Hold with forall q o, _ -> lookup q (cells ?m) = Some o -> _ => repeat match goal with H : lookup _ (cells m) = Some _ |- _ => apply Hold in H; [|solve [lia|congruence]] end end.
Ltac ebeta := cbv beta iota.
Ltac good_m := match goal with HG : good ?m |- E _ ?m _ _ => constr:(HG) end.
Ltac eload := eapply E_load; [assumption|]; let o := fresh "o" in let Ho := fresh "Ho" in let Hlt := fresh "Hlt" in let Hf := fresh "Hf" in intros o Ho Hlt Hf; ebeta.
Ltac as_e u :=
  unfold u at 1; ebeta; apply E_assoc; eapply E_load; [assumption|];
  let o := fresh "o" in let Ho := fresh "Ho" in let Hlt := fresh "Hlt" in let Hf := fresh "Hf" in intros o Ho Hlt Hf; ebeta;
  destruct o; try apply E_bad_bind; apply E_ret_bind; simpl in Hf; ebeta.
Create HintDb ends.
Lemma at_zero m o (P : Prop) : good m -> at_ m 0 = Some o -> P.
Proof. intros HG H. pose proof (good_lt _ _ _ HG H). lia. Qed.
Lemma zero_lt m : good m -> 0 < next m.
Proof. intros ((H & _) & _). exact H. Qed.
Lemma flat_zero m : good m -> flat m 0.
Proof. intro HG. split; [apply zero_lt, HG|]. split; intros i Hi; eapply at_zero; eassumption. Qed.
Global Hint Resolve zero_lt flat_zero flat_plain plain_lt : ends.
Global Hint Extern 2 => match goal with HG : good ?m, H : lookup 0 (cells ?m) = Some _ |- _ => exact (at_zero m _ _ HG H) end : ends.
Global Hint Extern 1 (_ < _) => lia : ends.
Global Hint Extern 1 (_ <= _) => lia : ends.
Ltac side := solve [ assumption | lia | exact I | eauto 3 with ends ].
Ltac ands := repeat match goal with |- _ /\ _ => split end.
Ltac efine := solve [ simpl; ands; (assumption || lia || exact I || solve [eauto 3 with ends]) ].
Ltac is_call c := lazymatch c with mbind _ _ => fail | ret _ => fail | _ => idtac end.
Ltac eresult HG :=
  let a := fresh "a" in let m' := fresh "m" in let HG' := fresh "HG" in let HR := fresh "HR" in let HQ := fresh "HQ" in
  intros a m' HG' HR HQ; cbv beta in HQ; adv HG HR; ebeta.
Tactic Notation "ecall" uconstr(L) :=
  lazymatch goal with HG : good ?m |- E _ ?m _ _ => eapply E_call; [eapply L; try side|eresult HG] end.
Ltac e1 :=
  lazymatch goal with
  | |- E _ _ (fun n => ret _) _ => fail
  | |- E _ _ (fun n => mbind (mbind _ _) _) _ => apply E_assoc; ebeta
  | |- E _ _ (fun n => mbind (ret _) _) _ => apply E_ret_bind; ebeta
  | |- E _ _ (fun n => mbind bad _) _ => apply E_bad_bind
  | |- E _ _ (fun n => bad) _ => apply E_bad
  | HG : good ?m |- E _ ?m (fun n => mbind (malloc _) _) _ =>
      eapply E_malloc; [assumption|try efine|
      let p := fresh "p" in let m' := fresh "m" in let HG' := fresh "HG" in let HR := fresh "HR" in
      let Hp := fresh "Hp" in let Hlt := fresh "Hlt" in let Hz := fresh "Hz" in let Hold := fresh "Hold" in let Hat := fresh "Hat" in
      intros p m' HG' HR Hp Hlt Hz Hold Hat; ebeta; adv HG HR; persist Hold]
  | HG : good ?m |- E _ ?m (fun n => mbind (free _) _) _ =>
      eapply E_free; [assumption|];
      let m' := fresh "m" in let HG' := fresh "HG" in let HR := fresh "HR" in let Hold := fresh "Hold" in
      intros m' HG' HR Hold; ebeta; adv HG HR; persist_ne Hold
  | |- E _ _ (fun n => mbind (load _) _) _ => eload
  | HG : good ?m |- E _ ?m (fun n => mbind pick _) _ =>
      eapply E_pick; [assumption|];
      let c := fresh "c" in let m' := fresh "m" in let HG' := fresh "HG" in let HR := fresh "HR" in let Hold := fresh "Hold" in let Hch := fresh "Hch" in
      intros c m' HG' HR Hold Hch; ebeta; adv HG HR; persist Hold
  | HG : good ?m |- E _ ?m (fun n => mbind choose _) _ => unfold choose at 1
  | |- E _ _ (fun n => mbind (as_bytes _) _) _ => as_e @as_bytes
  | |- E _ _ (fun n => mbind (as_ubuf _) _) _ => as_e @as_ubuf
  | |- E _ _ (fun n => mbind (as_vec _) _) _ => as_e @as_vec
  | |- E _ _ (fun n => mbind (as_query _) _) _ => as_e @as_query
  | |- E _ _ (fun n => mbind (as_source _) _) _ => as_e @as_source
  | |- E _ _ (fun n => mbind (as_filter _) _) _ => as_e @as_filter
  | |- E _ _ (fun n => mbind (as_timeout _) _) _ => as_e @as_timeout
  | |- E _ _ (fun n => mbind (as_ljoin _) _) _ => as_e @as_ljoin
  | |- E _ _ (fun n => mbind (as_remove _) _) _ => as_e @as_remove
  | |- E _ _ (fun n => mbind (as_fileset _) _) _ => as_e @as_fileset
  | |- E _ _ (fun n => mbind (as_merger _) _) _ => as_e @as_merger
  | |- E _ _ (fun n => mbind (as_iter _) _) _ => as_e @as_iter
  | |- E _ _ (fun n => mbind (as_filter_iter _) _) _ => as_e @as_filter_iter
  | |- E _ _ (fun n => mbind (as_timeout_iter _) _) _ => as_e @as_timeout_iter
  | |- E _ _ (fun n => mbind (as_ljoin_iter _) _) _ => as_e @as_ljoin_iter
  | |- E _ _ (fun n => mbind (as_remove_iter _) _) _ => as_e @as_remove_iter
  | |- E _ _ (fun n => mbind (as_entries _) _) _ => as_e @as_entries
  | |- E _ _ (fun n => mbind (as_query_iter _) _) _ => as_e @as_query_iter
  | |- E _ _ (fun n => mbind (as_iterator _) _) _ => as_e @as_iterator
  | |- E _ _ (fun n => mbind (as_reader _) _) _ => as_e @as_reader
  | |- E _ _ (fun n => mbind (as_reader_iter _) _) _ => as_e @as_reader_iter
  | |- E _ _ (fun n => mbind (as_formatter _) _) _ => as_e @as_formatter
  | HG : good ?m |- E _ ?m (fun n => mbind (store _ _) _) _ =>
      eapply (E_store _ _ None); [assumption|left; reflexivity
        |let o := fresh "o" in let Ho := fresh "Ho" in let Hlt := fresh "Hlt" in intros o Ho Hlt;
         ands; try efine; try (intros ? ?; discriminate)
        |let m' := fresh "m" in let HG' := fresh "HG" in let HR := fresh "HR" in let Hold := fresh "Hold" in let Hat := fresh "Hat" in
         intros m' HG' HR Hold Hat; ebeta; adv HG HR; persist_ne Hold]
  | |- E _ _ (fun n => mbind (if ?b then _ else _) _) _ => destruct b eqn:?
  | |- E _ _ (fun n => if ?b then _ else _) _ => destruct b eqn:?
  | HG : good ?m |- E _ ?m (fun n => mbind _ _) _ =>
      eapply E_call; [solve [eauto 4 with ends]|eresult HG]
  | |- E _ _ _ _ => apply E_tail
  end.
Ltac eret := apply E_ret; [assumption|try exact I].
Ltac ego := repeat e1; try (eret; fail).
