(** * Every call comes to an end: the functions of the model *)
From Coq Require Import Permutation Wf_nat.
From Verif Require Import Base ModelMemory SpecMemory HeapLogic EndsLogic.

(** ** Without fuel *)

Lemma flat_bytes m p o : at_ m p = Some o -> p < next m -> (forall i, o <> OSource i) -> (forall i, o <> OIter i) -> flat m p.
Proof. intros H1 H2 H3 H4. split; [exact H2|]. split; intros i Hi; rewrite H1 in Hi; injection Hi as ->; exfalso; [eapply H3|eapply H4]; reflexivity. Qed.
Lemma flat_base m p : at_ m p = Some (OSource SBase) -> p < next m -> flat m p.
Proof. intros H1 H2. split; [exact H2|]. split; intros i Hi; congruence. Qed.

Lemma ubuf_init_e m : good m -> E None m (fun _ => ubuf_init) U.
Proof. intro HG. unfold ubuf_init. ego; eret. Qed.
Lemma ubuf_read_e m u : good m -> E None m (fun _ => ubuf_read u) U.
Proof. intro HG. unfold ubuf_read. ego; eret. Qed.
Lemma ubuf_write_e m u : good m -> E None m (fun _ => ubuf_write u) U.
Proof. intro HG. unfold ubuf_write. ego; eret. Qed.
Lemma ubuf_detach_e m u : good m -> E None m (fun _ => ubuf_detach u) U.
Proof. intro HG. unfold ubuf_detach. ego; eret. Qed.
Lemma ubuf_destroy_e m u : good m -> E None m (fun _ => ubuf_destroy u) U.
Proof. intro HG. unfold ubuf_destroy. ego; eret. Qed.
Lemma vec_init_e m : good m -> E None m (fun _ => vec_init) U.
Proof. intro HG. unfold vec_init. ego; eret. Qed.
Lemma vec_add_e m v x : good m -> flat m x -> E None m (fun _ => vec_add v x) U.
Proof.
  intros HG Hx. unfold vec_add. ego; try eret; simpl; apply Forall_app; (split; [assumption|]); constructor; (assumption || constructor).
Qed.
Lemma vec_destroy_e m v : good m -> E None m (fun _ => vec_destroy v) U.
Proof. intro HG. unfold vec_destroy. ego; eret. Qed.
Global Hint Resolve ubuf_init_e ubuf_read_e ubuf_write_e ubuf_detach_e ubuf_destroy_e vec_init_e vec_add_e vec_destroy_e : ends.

Lemma query_init_e m k : good m -> E None m (fun _ => query_init k) U.
Proof. intro HG. unfold query_init. ego; eret. Qed.
Lemma query_destroy_e m p : good m -> E None m (fun _ => query_destroy p) U.
Proof. intro HG. unfold query_destroy. ego; eret. Qed.
Lemma query_set_err_e m p : good m -> E None m (fun _ => query_set_err p) U.
Proof. intro HG. unfold query_set_err. ego; eret. Qed.
Lemma query_get_error_e m p : good m -> E None m (fun _ => query_get_error p) U.
Proof. intro HG. unfold query_get_error. ego; eret. Qed.
Global Hint Resolve query_init_e query_destroy_e query_set_err_e query_get_error_e : ends.
Lemma query_load_name_e m p get set null : good m -> E None m (fun _ => query_load_name p get set null) U.
Proof. intro HG. unfold query_load_name. ego; eret. Qed.
Global Hint Resolve query_load_name_e : ends.
Lemma query_set_bailiwick_e m p null : good m -> E None m (fun _ => query_set_bailiwick p null) U.
Proof. intro HG. unfold query_set_bailiwick. e1. e1. destruct (q_type q); ego; eret. Qed.
Lemma query_set_data_raw_e m p null : good m -> E None m (fun _ => query_set_data_raw p null) U.
Proof. intro HG. unfold query_set_data_raw. ego; eret. Qed.
Lemma query_set_data_ip_e m p null : good m -> E None m (fun _ => query_set_data_ip p null) U.
Proof. intro HG. unfold query_set_data_ip. ego; eret. Qed.
Global Hint Resolve query_set_bailiwick_e query_set_data_raw_e query_set_data_ip_e : ends.
Lemma query_set_data_e m p null : good m -> E None m (fun _ => query_set_data p null) U.
Proof. intro HG. unfold query_set_data. e1. e1. destruct (q_type q); ego; eret. Qed.
Lemma query_set_rrtype_e m p null : good m -> E None m (fun _ => query_set_rrtype p null) U.
Proof. intro HG. unfold query_set_rrtype. ego; eret. Qed.
Lemma query_set_e m p f : good m -> E None m (fun _ => query_set p f) U.
Proof. intro HG. unfold query_set. ego; eret. Qed.
Lemma query_filter_e m p e : good m -> E None m (fun _ => query_filter p e) U.
Proof. intro HG. unfold query_filter. e1. e1. e1. destruct o; try apply E_bad. destruct (q_type q); ego; try eret; destruct k; ego; eret. Qed.
Global Hint Resolve query_set_data_e query_set_rrtype_e query_set_e query_filter_e : ends.

Lemma source_destroy_e m s : good m -> E None m (fun _ => source_destroy s) U.
Proof. intro HG. unfold source_destroy. ego; eret. Qed.
Global Hint Resolve source_destroy_e : ends.
(** The filter, and what it lies on. *)
Lemma filter_mtbl_init_e m u f d : good m -> u < next m -> E None m (fun _ => filter_mtbl_init u f d) (fun p m' => next m <= p < next m' /\ exists s, at_ m' p = Some (OFilter u s f d)).
Proof.
  intros HG Hu. unfold filter_mtbl_init. repeat e1.
  - simpl. ands; [lia|lia|]. intros i Hi. congruence.
  - rewrite Hat in Ho. injection Ho as <-. simpl. eauto.
  - eret. split; [lia|]. eauto.
Qed.
Lemma timeout_mtbl_init_e m u d : good m -> u < next m -> E None m (fun _ => timeout_mtbl_init u d) (fun p m' => next m <= p < next m' /\ exists s, at_ m' p = Some (OTimeout u s d)).
Proof.
  intros HG Hu. unfold timeout_mtbl_init. repeat e1.
  - simpl. ands; [lia|lia|]. intros i Hi. congruence.
  - rewrite Hat in Ho. injection Ho as <-. simpl. eauto.
  - eret. split; [lia|]. eauto.
Qed.
Lemma ljoin_mtbl_init_e m l r : good m -> l < next m -> r < next m -> E None m (fun _ => ljoin_mtbl_init l r) U.
Proof. intros HG Hl Hr. unfold ljoin_mtbl_init. ego; eret. Qed.
Lemma remove_mtbl_init_e m : good m -> E None m (fun _ => remove_mtbl_init) U.
Proof. intros HG. unfold remove_mtbl_init. ego; eret. Qed.
Lemma remove_mtbl_add_source_e m p s : good m -> flat m s -> E None m (fun _ => remove_mtbl_add_source p s) U.
Proof. intros HG Hs. unfold remove_mtbl_add_source. ego; eret. Qed.
Lemma remove_mtbl_set_upstream_e m p u : good m -> plain m u -> E None m (fun _ => remove_mtbl_set_upstream p u) U.
Proof. intros HG Hs. unfold remove_mtbl_set_upstream. ego; eret. Qed.
Lemma filter_mtbl_destroy_e m p : good m -> E None m (fun _ => filter_mtbl_destroy p) U.
Proof. intro HG. unfold filter_mtbl_destroy. ego; eret. Qed.
Lemma timeout_mtbl_destroy_e m p : good m -> E None m (fun _ => timeout_mtbl_destroy p) U.
Proof. intro HG. unfold timeout_mtbl_destroy. ego; eret. Qed.
Lemma ljoin_mtbl_destroy_e m p : good m -> E None m (fun _ => ljoin_mtbl_destroy p) U.
Proof. intro HG. unfold ljoin_mtbl_destroy. ego; eret. Qed.
Lemma remove_mtbl_destroy_e m p : good m -> E None m (fun _ => remove_mtbl_destroy p) U.
Proof. intro HG. unfold remove_mtbl_destroy. ego; eret. Qed.
Global Hint Resolve filter_mtbl_init_e timeout_mtbl_init_e ljoin_mtbl_init_e remove_mtbl_init_e remove_mtbl_add_source_e remove_mtbl_set_upstream_e
  filter_mtbl_destroy_e timeout_mtbl_destroy_e ljoin_mtbl_destroy_e remove_mtbl_destroy_e : ends.

Lemma for_each_e {A} (I : memory -> A -> Prop) (f : nat -> A -> M unit) :
  (forall x m m' a, R x m m' -> I m a -> I m' a) -> (forall m a, good m -> I m a -> E None m (fun n => f n a) U) ->
  forall l m, good m -> Forall (I m) l -> E None m (fun n => for_each l (f n)) U.
Proof.
  intros Hmono Hf. induction l as [|a l IH]; intros m HG Hl; simpl; [eret|]. apply Forall_cons_iff in Hl as [Ha Hl].
  eapply E_call; [apply Hf; assumption|]. intros u m' HG' HR _. apply IH; [exact HG'|]. revert Hl. apply Forall_impl. intros b. eapply Hmono, HR.
Qed.
Lemma for_each_u {A} (f : nat -> A -> M unit) l m : (forall m a, good m -> E None m (fun n => f n a) U) -> good m -> E None m (fun n => for_each l (f n)) U.
Proof. intros Hf HG. apply (for_each_e (fun _ _ => True)); auto. apply Forall_forall. auto. Qed.

Lemma open_files_e n : forall m, good m -> E None m (fun _ => open_files n) (fun l m' => flats m' l).
Proof.
  induction n as [|n IH]; intros m HG; simpl; [eret; constructor|]. e1.
  assert (Hp0 : flat m0 p) by (apply flat_base; assumption).
  ecall IH. eret. constructor; assumption.
Qed.
Lemma fileset_init_e m n : good m -> E None m (fun _ => fileset_init n) U.
Proof.
  intro HG. unfold fileset_init. ecall open_files_e. e1.
  assert (Hp0 : flat m1 p) by (apply flat_base; assumption). ego; eret.
Qed.
Lemma fileset_destroy_e m p : good m -> E None m (fun _ => fileset_destroy p) U.
Proof.
  intro HG. unfold fileset_destroy. ego; try eret. ecall (for_each_u (fun _ => source_destroy)). ego; eret.
Qed.
Lemma merger_init_e m : good m -> E None m (fun _ => merger_init) U.
Proof. intro HG. unfold merger_init. e1. assert (Hp0 : flat m0 p) by (apply flat_base; assumption). ego; eret. Qed.
Lemma merger_destroy_e m p : good m -> E None m (fun _ => merger_destroy p) U.
Proof. intro HG. unfold merger_destroy. ego; eret. Qed.
Global Hint Resolve fileset_init_e fileset_destroy_e merger_init_e merger_destroy_e : ends.

(** ** Sources and iterators *)

Definition got (s : N) (m : memory) (p : N) (m' : memory) : Prop := p < next m' /\ (flat m s -> flat m' p).

Ltac iters := match goal with |- fine _ _ _ => simpl; ands; try lia; try (intros; congruence); eauto 3 with ends end.
Lemma filter_get_e m f it : good m -> it < next m -> E None m (fun _ => let! i := malloc (OFilterIter f it 0) in let! w := malloc (OIter (IWrap i)) in store i (OFilterIter f it w) ;; malloc (OIter (IFilter i))) (fun p m' => p < next m').
Proof.
  intros HG Hit. repeat e1; try (eret; lia).
  simpl. ands; [lia|lia|]. intros j Hj. rewrite Hat0 in Hj. injection Hj as <-. eauto.
Qed.
Global Hint Resolve filter_get_e : ends.

Ltac unflat Ho := let H := fresh in intros (_ & H & _); specialize (H _ Ho); discriminate.
Lemma plain_get m s : good m -> plain m s -> E None m (fun n => source_get n s) (got s m).
Proof.
  intros HG Hs. induction Hs as [s Hs Hn|s Hb|s f Hf Hl _ IH|s f Hf Hl _ IH]; apply E_S; simpl.
  - e1. exfalso. eapply Hn. eassumption.
  - e1. rewrite Hb in Ho. injection Ho as <-. repeat e1; eret.
    + split; [assumption|]. intros _. split; [assumption|]. split; intros i Hi; rewrite Hat in Hi; [discriminate|]. injection Hi as <-. eauto.
    + split; [eauto with ends|]. intros _. eauto with ends.
  - e1. rewrite Hf in Ho. injection Ho as <-. e1. eapply E_call; [eapply IH; eassumption|]. eresult HG. destruct HQ as [HQ _].
    eapply E_post; [apply filter_get_e; assumption|]. intros p m' _ _ Hp. split; [exact Hp|]. unflat Hf.
  - e1. rewrite Hf in Ho. injection Ho as <-. e1. eapply E_call; [eapply IH; eassumption|]. eresult HG. destruct HQ as [HQ _].
    repeat e1; eret. split; [lia|]. unflat Hf.
Qed.

Lemma source_get_e : forall s m, good m -> E None m (fun n => source_get n s) (got s m).
Proof.
  induction s as [s IH] using (well_founded_induction N.lt_wf_0). intros m HG. apply E_S. simpl. e1. destruct impl.
  - repeat e1; eret.
    + split; [assumption|]. intros _. split; [assumption|]. split; intros i Hi; rewrite Hat in Hi; [discriminate|]. injection Hi as <-. eauto.
    + split; [eauto with ends|]. intros _. eauto with ends.
  - e1. destruct Hf0 as (Hu & _ & _). eapply E_call; [apply IH; [lia|assumption]|]. eresult HG. destruct HQ as [HQ _].
    eapply E_post; [apply filter_get_e; assumption|]. intros p m' _ _ Hp. split; [exact Hp|]. unflat Ho.
  - e1. destruct Hf0 as (Hu & _ & _). eapply E_call; [apply IH; [lia|assumption]|]. eresult HG. destruct HQ as [HQ _].
    repeat e1; eret. split; [lia|]. unflat Ho.
  - e1. destruct Hf0 as (Hu & Hr & _). eapply E_call; [apply IH; [lia|assumption]|]. eresult HG. destruct HQ as [HQ _].
    eapply E_call; [apply IH; [lia|assumption]|]. eresult HG0. destruct HQ0 as [HQ0 _].
    repeat e1; eret. split; [lia|]. unflat Ho.
  - e1. destruct Hf0 as (Hu & _). eapply E_call; [apply plain_get; assumption|]. eresult HG. destruct HQ as [HQ _].
    repeat e1; try (eret; split; [lia|]; unflat Ho).
    all: simpl; unfold pairs; apply Forall_map; (eapply Forall_impl; [|eassumption]); simpl; intros; split; eauto with ends.
Qed.

(** ** Iterators *)

Definition wrapped (m : memory) (w : N) : Prop := w < next m /\ forall i, at_ m w = Some (OIter i) -> exists j, i = IWrap j.
Lemma wrapped_mono x m m' w : R x m m' -> wrapped m w -> wrapped m' w.
Proof.
  intros HR (H0 & H1). split; [pose proof (R_next _ _ _ HR); lia|]. intros i Hi. destruct (R_evol _ _ _ HR w _ H0 Hi) as (o & Ho & Ev). simpl in Ev. subst o. auto.
Qed.
Lemma flat_destroy m p : good m -> flat m p -> E None m (fun n => iter_destroy n p) U.
Proof.
  intros HG (H0 & _ & H2). apply E_S. simpl. repeat e1; try eret. destruct (H2 _ Ho) as [s ->]. repeat e1; eret.
Qed.
Lemma wrap_destroy m p : good m -> wrapped m p -> E None m (fun n => iter_destroy n p) U.
Proof.
  intros HG (H0 & H2). apply E_S. simpl. repeat e1; try eret. destruct (H2 _ Ho) as [s ->]. repeat e1; eret.
Qed.
Lemma iter_destroy_e : forall p m, good m -> E None m (fun n => iter_destroy n p) U.
Proof.
  induction p as [p IH] using (well_founded_induction N.lt_wf_0). intros m HG. apply E_S. simpl. e1; [eret|]. e1. destruct impl.
  - repeat e1; eret.
  - e1. e1. destruct Hf0 as (Hi & Hw). e1. eapply E_call; [apply IH; [lia|assumption]|]. eresult HG. repeat e1. eapply E_call; [apply wrap_destroy; [assumption|eapply wrapped_mono; eassumption]|]. eresult HG0. repeat e1; eret.
  - repeat e1; eret.
  - repeat e1; eret.
  - e1. e1. destruct Hf0 as (Hl & Hr). repeat e1; eret.
  - repeat e1.
    eapply E_call; [apply (for_each_e (fun m y => flat m (fst y) /\ flat m (snd y)) (fun n y => iter_destroy n (snd y)))|].
    + intros x m1 m2 y HR1 [Y1 Y2]. split; eapply flat_mono; eassumption.
    + intros m1 y HG1 [_ Y2]. apply flat_destroy; assumption.
    + assumption.
    + assumption.
    + eresult HG0. repeat e1; eret.
Qed.
Global Hint Resolve source_get_e iter_destroy_e : ends.

Lemma flat_seek m p : good m -> flat m p -> E None m (fun n => iter_seek n p) U.
Proof. intros HG (H0 & _ & H2). apply E_S. simpl. repeat e1; try eret. destruct (H2 _ Ho) as [s ->]. repeat e1; eret. Qed.
(** An entry costs a choice. *)
Definition paid (m : memory) (r : step) (m' : memory) : Prop := r = Got -> (ch m' < ch m)%nat.
Lemma flat_next m p : good m -> flat m p -> E None m (fun n => iter_next n p) (paid m).
Proof.
  intros HG (H0 & _ & H2). apply E_S. simpl. repeat e1; try (eret; discriminate). destruct (H2 _ Ho) as [s ->]. repeat e1; eret.
  intro E1. apply Hch. destruct (c =? 0) eqn:Ec; [discriminate|]. apply N.eqb_neq, Ec.
Qed.
Lemma iter_seek_e : forall p m, good m -> E None m (fun n => iter_seek n p) U.
Proof.
  induction p as [p IH] using (well_founded_induction N.lt_wf_0). intros m HG. apply E_S. simpl. e1; [eret|]. e1. destruct impl.
  - repeat e1; eret.
  - e1. destruct Hf0 as (Hi & _). apply IH; [lia|assumption].
  - e1. e1. destruct Hf0 as (Hi & _). apply IH; [lia|assumption].
  - e1. apply IH; [lia|assumption].
  - e1. destruct Hf0 as (Hl & Hr). eapply E_call; [apply IH; [lia|assumption]|]. eresult HG. destruct a; [|eret]. eapply E_call; [apply IH; [lia|assumption]|]. eresult HG0. eret.
  - e1. e1. eapply E_call.
    + eapply (for_each_e (fun m y => flat m (fst y) /\ flat m (snd y)) (fun n y =>
         if snd y =? 0 then ret tt
              else
                let! behind := choose in
                if behind then
                  let! ok := iter_seek n (snd y) in
                  if ok then let! _ := as_remove rm in iter_next n (snd y) ;; ret tt else ret tt
                else ret tt)); [| |assumption|assumption].
      * intros x m1 m2 y HR1 [Y1 Y2]. split; eapply flat_mono; eassumption.
      * intros m1 y HG1 [_ Y2]. repeat e1; try eret. eapply E_call; [apply flat_seek; assumption|]. eresult HG0. destruct a; [|eret]. repeat e1.
        eapply E_call; [apply flat_next; assumption|]. eresult HG2. eret.
    + eresult HG. apply IH; [lia|assumption].
Qed.
Global Hint Resolve iter_seek_e : ends.

Ltac keepq := let t := fresh "t" in let Ht := fresh in intros t Ht _; injection Ht as <-;
  match goal with H1 : lookup ?p (cells ?m) = Some ?o, H2 : lookup ?p (cells ?m) = Some (OQueryIter ?t0) |- exists _, ?o = _ /\ _ => exists t0; split; [congruence|simpl; eauto 3 with ends] end.
Lemma write_key2_e m it : good m -> E None m (fun _ => write_key2 it) U.
Proof.
  intro HG. unfold write_key2, ubuf_init. repeat e1; try eret; try keepq. 
Qed.
Global Hint Resolve write_key2_e : ends.
Lemma run_filter_e m fn it (seek : nat -> M bool) : good m -> (forall m, good m -> E None m seek U) -> E None m (fun n => run_filter fn it (seek n)) U.
Proof.
  intros HG Hs. unfold run_filter. destruct fn; repeat e1; eret.
Qed.

(** Stop at a conditional whose result is used. *)
Ltac estop := repeat (lazymatch goal with |- E _ _ (fun n => mbind (if _ then _ else _) _) _ => fail | _ => e1 end).

Lemma match_entry_e : forall C rm p m, (ch m <= C)%nat -> good m -> flat m p -> E None m (fun n => match_entry n rm p) U.
Proof.
  induction C as [C IH] using (well_founded_induction lt_wf). intros rm p m HC HG Hp. apply E_S. simpl. repeat e1; try eret.
  eapply E_call; [apply flat_next; assumption|]. eresult HG1. destruct a0; [|eret|eret].
  eapply IH; [|reflexivity|assumption|assumption]. specialize (HQ0 eq_refl). lia.
Qed.
Lemma match_key_e rm e k k2 : forall l done m, good m -> pairs m done -> pairs m l -> E None m (fun n => match_key n rm e k k2 done l) U.
Proof.
  induction l as [|[s it] l IH]; intros done m HG Hd Hl; apply E_S; simpl; [eret|]. apply Forall_cons_iff in Hl as [[Hs Hi] Hl]. simpl in Hs, Hi. change (pairs m l) in Hl.
  eapply E_bind with (P := fun y m' => flat m' s /\ flat m' (fst y) /\ pairs m' done /\ pairs m' l).
  - destruct (it =? 0); [|eret; auto].
    eapply E_call with (P := U); [destruct (k =? 0); repeat e1; eret|]. eresult HG.
    eapply E_call with (P := U); [destruct (k2 =? 0); repeat e1; eret|]. eresult HG0.
    assert (Hs1 : flat m1 s /\ True) by auto. ecall source_get_e. destruct HQ1 as [Hp Hfl]. specialize (Hfl (proj1 Hs1)).
    repeat e1.
    + simpl. apply Forall_app. split; [assumption|]. constructor; [split; assumption|assumption].
    + eapply E_call; [apply flat_next; assumption|]. eresult HG4. eret. auto.
    + eret. auto.
  - intros [p r] m1 HG1 HR1 (H1 & H2 & H3 & H4). simpl in H2.
    assert (Hnext : forall m', good m' -> R None m1 m' -> E None m' (fun n => match_key n rm e k k2 (done ++ [(s, p)]) l) U).
    { intros m' HG' HR'. adv HG1 HR'. apply IH; [assumption| |assumption]. apply Forall_app. split; [assumption|]. constructor; [split; assumption|constructor]. }
    destruct r; [|apply Hnext; [assumption|apply R_refl]|eret].
    eapply E_call; [eapply match_entry_e; [reflexivity|assumption|assumption]|]. eresult HG1. destruct a; [eret|apply Hnext; assumption|eret].
Qed.

Definition nexts (m : memory) (b : N) : Prop :=
  E None m (fun n => iter_next n b) (paid m) /\ E None m (fun n => filter_next n b) (paid m) /\
  E None m (fun n => ljoin_right n b) U /\ E None m (fun n => remove_next n b) (paid m).
Lemma nexts_e : forall C b m, (ch m <= C)%nat -> good m -> nexts m b.
Proof.
  induction C as [C IHC] using (well_founded_induction lt_wf). induction b as [b IHb] using (well_founded_induction N.lt_wf_0). intros m HC HG.
  assert (Hless : forall m' p, (ch m' < ch m)%nat -> good m' -> nexts m' p).
  { intros m' p Hl HG'. apply (IHC (ch m')); [lia|reflexivity|exact HG']. }
  assert (Hlow : forall m' p, (ch m' <= ch m)%nat -> good m' -> p < b -> nexts m' p).
  { intros m' p Hl HG' Hp. apply IHb; [exact Hp|lia|exact HG']. }
  clear IHC IHb. unfold nexts at 1. ands; apply E_S; simpl.
  - e1; [eret; discriminate|]. e1. destruct impl.
    + repeat e1; eret. intro E1. apply Hch. destruct (c =? 0) eqn:Ec; [discriminate|]. apply N.eqb_neq, Ec.
    + apply Hlow; [lia|assumption|assumption].
    + apply Hlow; [lia|assumption|assumption].
    + repeat e1; [eret; discriminate|]. eapply E_call; [apply Hlow; [lia|assumption|lia]|]. eresult HG0. eret. intro E1. specialize (HQ E1). lia.
    + e1. destruct Hf0 as (Hl & Hr). eapply E_call; [apply Hlow; [lia|assumption|lia]|]. eresult HG. destruct a; [|eret; discriminate|eret; discriminate].
      specialize (HQ eq_refl). eapply E_post; [apply Hless; [lia|assumption]|]. intros r m' _ HR' _ _. pose proof (R_ch _ _ _ HR'). lia.
    + apply Hlow; [lia|assumption|assumption].
  - e1. destruct Hf as (Hl & Hr). eapply E_call; [apply Hlow; [lia|assumption|lia]|]. eresult HG. destruct a; [|eret; discriminate|eret; discriminate].
    specialize (HQ eq_refl). e1. eapply E_call; [apply (run_filter_e _ _ _ (fun n => iter_seek n wrap)); [assumption|eauto with ends]|]. eresult HG0. destruct a as [ok matched].
    destruct ok; simpl; [|eret; discriminate]. destruct matched; [eret; intros _; lia|]. e1. eapply E_post; [apply Hless; [lia|assumption]|].
    intros r m' _ _ Hr' E1. specialize (Hr' E1). lia.
  - estop; [eret|]. destruct Hf as (Hl & Hr).
    eapply E_bind with (P := U).
    { destruct (negb (c0 =? 0)); [|eret]. eapply E_post; [apply Hlow; [lia|assumption|lia]|]. intros; exact I. }
    intros x m2 HG2 HR2 _. adv HG1 HR2. destruct x; [|eret|eret]. repeat e1.
    + eapply E_call; [apply Hless; [|assumption]|eresult HG4; eret].
      assert (c1 <> 0) by (intro; subst; discriminate). lia.
    + eret.
    + eret.
    + eret.
  - e1. eapply E_call; [apply Hlow; [lia|assumption|lia]|]. eresult HG. destruct a; [|eret; discriminate|eret; discriminate].
    specialize (HQ eq_refl). e1. eapply E_call; [apply match_key_e; [assumption|constructor|assumption]|]. eresult HG0. destruct a; [|eret; intros _; lia|eret; discriminate].
    eapply E_post; [apply Hless; [lia|assumption]|]. intros r m' _ _ Hr' E1. specialize (Hr' E1). lia.
Qed.
Lemma iter_next_e m p : good m -> E None m (fun n => iter_next n p) (paid m).
Proof. intro HG. apply (nexts_e (ch m)); [reflexivity|exact HG]. Qed.
Global Hint Resolve iter_next_e : ends.

(** ** Entries *)

Lemma flat_obytes m p : at_ m p = Some OBytes -> p < next m -> flat m p.
Proof. intros H1 H2. eapply flat_bytes; eauto; discriminate. Qed.
Global Hint Resolve flat_obytes : ends.
Lemma for_each_0 {A} (f : A -> M unit) l m : (forall m a, good m -> E None m (fun _ => f a) U) -> good m -> E None m (fun _ => for_each l f) U.
Proof. intros Hf HG. apply (for_each_u (fun _ => f)); assumption. Qed.
Lemma free_e m p : good m -> E None m (fun _ => free p) U.
Proof. intro HG. ego; eret. Qed.
Lemma as_bytes_e m p : good m -> E None m (fun _ => as_bytes p) U.
Proof. intro HG. ego; eret. Qed.
Global Hint Resolve for_each_0 free_e as_bytes_e : ends.
Lemma entry_destroy_e m p : good m -> E None m (fun _ => entry_destroy p) U.
Proof. intro HG. unfold entry_destroy. e1; [eret|]. e1. destruct o; try apply E_bad. ego; eret. Qed.
Lemma decode_rdatas_e v : forall C m, (ch m <= C)%nat -> good m -> E None m (fun n => decode_rdatas n v) U.
Proof.
  induction C as [C IH] using (well_founded_induction lt_wf). intros m HC HG. apply E_S. simpl. repeat e1; try eret.
  eapply E_call; [apply (IH (ch m3)); [|reflexivity|assumption]|]; [|eresult HG3; eret].
  assert (c <> 0) by (intro; subst; discriminate). lia.
Qed.
Lemma decode_rdatas_1 m v : good m -> E None m (fun n => decode_rdatas n v) U.
Proof. intro HG. eapply decode_rdatas_e; [reflexivity|exact HG]. Qed.
Global Hint Resolve entry_destroy_e decode_rdatas_1 : ends.
Lemma decode_as_e m k p v : good m -> E None m (fun n => decode_as n k p v) U.
Proof. intro HG. unfold decode_as. destruct k; ego; eret. Qed.
Global Hint Resolve decode_as_e : ends.
Lemma entry_decode_e m : good m -> E None m (fun n => entry_decode n) U.
Proof. intro HG. unfold entry_decode. ego; eret. Qed.
Lemma entry_read_e m p : good m -> E None m (fun _ => entry_read p) U.
Proof. intro HG. unfold entry_read. e1. destruct o; try apply E_bad. ego; eret. Qed.
Lemma format_rdata_e m u d : good m -> E None m (fun _ => format_rdata u d) U.
Proof. intro HG. unfold format_rdata. ego; eret. Qed.
Lemma format_raw_e m u d : good m -> E None m (fun _ => format_raw u d) U.
Proof. intro HG. unfold format_raw. ego; eret. Qed.
Global Hint Resolve entry_decode_e entry_read_e format_rdata_e format_raw_e : ends.
Lemma entry_format_e m json raw p : good m -> E None m (fun _ => entry_format json raw p) U.
Proof.
  intro HG. unfold entry_format. e1. e1. destruct o; try apply E_bad. e1. e1.
  eapply E_call with (P := U); [|eresult HG0; ego; eret].
  destruct k; [| | |destruct elems as [|d [|d2 l]]| | | | ]; ego; try eret; destruct elems as [|d [|d2 l]]; ego; eret.
Qed.
Global Hint Resolve entry_format_e : ends.

(** ** Query iterators *)

Definition keeps_sources (f : query_iter_data -> query_iter_data) : Prop := forall t, t_source (f t) = t_source t /\ t_source_index (f t) = t_source_index t.
Global Hint Extern 1 (keeps_sources _) => (intro; split; reflexivity) : ends.
Lemma set_iter_e m it f : good m -> keeps_sources f -> E None m (fun _ => set_iter it f) U.
Proof.
  intros HG Hf. unfold set_iter. repeat e1.
  - simpl. destruct (Hf t) as [-> ->]. assumption.
  - intros t' [= <-] _. exists t. split; [congruence|]. rewrite (proj1 (Hf t)). auto.
  - eret.
Qed.
Global Hint Resolve set_iter_e : ends.
Lemma destroy_owned_e m it i d : good m -> (forall m p, good m -> E None m (fun _ => d p) U) -> E None m (fun _ => destroy_owned it i d) U.
Proof. intros HG Hd. unfold destroy_owned. ego; eret. Qed.
Global Hint Resolve destroy_owned_e : ends.
Lemma query_iter_free_e m it : good m -> E None m (fun n => query_iter_free n it) U.
Proof. intro HG. unfold query_iter_free. ego; eret. Qed.
Global Hint Resolve query_iter_free_e : ends.
Lemma iter_init_e m n c : good m -> E None m (fun _ => iter_init n c) U.
Proof. intro HG. unfold iter_init. ego; eret. Qed.
Lemma query_of_e m it : good m -> E None m (fun _ => query_of it) U.
Proof. intro HG. unfold query_of. ego; eret. Qed.
Global Hint Resolve iter_init_e query_of_e : ends.
Lemma read_name_e m it : good m -> E None m (fun _ => read_name it) U.
Proof. intro HG. unfold read_name. ego; eret. Qed.
Lemma has_bailiwick_e m it : good m -> E None m (fun _ => has_bailiwick it) U.
Proof. intro HG. unfold has_bailiwick. ego; eret. Qed.
Lemma write_key_e m it : good m -> E None m (fun _ => write_key it) U.
Proof. intro HG. unfold write_key. ego; eret. Qed.
Lemma init_key_e m it : good m -> E None m (fun _ => init_key it) U.
Proof. intro HG. unfold init_key. ego; eret. Qed.
Lemma choose_e m : good m -> E None m (fun _ => choose) U.
Proof. intro HG. ego; eret. Qed.
Global Hint Resolve read_name_e has_bailiwick_e write_key_e init_key_e choose_e : ends.

(** A filter or a timeout on top of the source, or of the index. *)
Ltac on_top :=
  match goal with
  | |- fine _ _ _ => simpl; ands; [lia|lia|]; intros; congruence
  | H1 : lookup ?p (cells ?m) = Some ?o, H2 : lookup ?p (cells ?m) = Some (OFilter _ _ _ _) |- evolves ?o _ => rewrite H2 in H1; injection H1 as <-; simpl; eauto
  | H1 : lookup ?p (cells ?m) = Some ?o, H2 : lookup ?p (cells ?m) = Some (OTimeout _ _ _) |- evolves ?o _ => rewrite H2 in H1; injection H1 as <-; simpl; eauto
  | |- E _ _ _ _ => eret
  | |- _ => keepq
  end.
Lemma filter_set_e m it i f : good m -> E None m (fun _ => filter_set it i f) U.
Proof.
  intro HG. unfold filter_set, set_iter, filter_mtbl_init. repeat e1; try on_top.
  simpl. intro Hpl.
  assert (Et : t_source t = t_source t1) by (rewrite Hat2 in Ho2; injection Ho2 as <-; simpl; congruence).
  assert (Es : source = p0) by congruence. subst source. eapply plain_filter; [eassumption|lia|]. intros a s fn d Ha. rewrite Hat1 in Ha. injection Ha as <- <- <- <-. rewrite Et. exact Hpl.
Qed.
Lemma filter_set_index_e m it i f : good m -> E None m (fun _ => filter_set_index it i f) U.
Proof. intro HG. unfold filter_set_index, set_iter, filter_mtbl_init. repeat e1; on_top. Qed.
Global Hint Resolve filter_set_e filter_set_index_e : ends.
Lemma filter_set_if_e m c it i f : (forall m, good m -> E None m (fun _ => c) U) -> good m -> E None m (fun _ => filter_set_if c it i f) U.
Proof. intros Hc HG. unfold filter_set_if. ego; eret. Qed.
Global Hint Resolve filter_set_if_e : ends.
Lemma timeouts_e m it : good m -> E None m (fun _ =>
     let! t := as_query_iter it in
     let! p := timeout_mtbl_init (t_source t) it in
     set_iter it (with_owned I_TIMEOUT p) ;;
     let! (_, s, _) := as_timeout p in
     set_iter it (with_source s) ;;
     let! t := as_query_iter it in
     let! p := timeout_mtbl_init (t_source_index t) it in
     set_iter it (with_owned I_TIMEOUT_INDEX p) ;;
     let! (_, s, _) := as_timeout p in
     set_iter it (with_source_index s)) U.
Proof.
  intro HG. unfold set_iter, timeout_mtbl_init. repeat e1; try on_top.
  simpl. intro Hpl.
  assert (Et : t_source t = t_source t1) by (rewrite Hat2 in Ho2; injection Ho2 as <-; simpl; congruence).
  assert (Es : source = p0) by congruence. subst source. eapply plain_timeout; [eassumption|lia|]. intros a s d Ha. rewrite Hat1 in Ha. injection Ha as <- <- <-. rewrite Et. exact Hpl.
Qed.
Global Hint Resolve timeouts_e : ends.

Lemma query_init_rrset_e m it : good m -> E None m (fun n => query_init_rrset n it) U.
Proof. intro HG. unfold query_init_rrset. ego; eret. Qed.
Lemma query_init_rdata_name_e m it : good m -> E None m (fun n => query_init_rdata_name n it) U.
Proof. intro HG. unfold query_init_rdata_name. ego; eret. Qed.
Lemma query_init_rdata_ip_e m it : good m -> E None m (fun n => query_init_rdata_ip it) U.
Proof. intro HG. unfold query_init_rdata_ip. ego; eret. Qed.
Lemma query_init_rdata_raw_e m it : good m -> E None m (fun n => query_init_rdata_raw it) U.
Proof. intro HG. unfold query_init_rdata_raw. ego; eret. Qed.
Lemma query_init_other_e m it : good m -> E None m (fun n => query_init_other it) U.
Proof. intro HG. unfold query_init_other. ego; eret. Qed.
Global Hint Resolve query_init_rrset_e query_init_rdata_name_e query_init_rdata_ip_e query_init_rdata_raw_e query_init_other_e : ends.

(** The source of a query iterator has no remove filter in it. *)
Definition plain_at (m : memory) (it : N) : Prop := it < next m /\ forall t, at_ m it = Some (OQueryIter t) -> plain m (t_source t).
Lemma plain_at_mono m m' it : good m -> R None m m' -> plain_at m it -> plain_at m' it.
Proof.
  intros HG HR [H0 H1]. split; [pose proof (R_next _ _ _ HR); lia|]. intros t' Ht'. destruct (R_keep _ _ _ HR it t' ltac:(discriminate) H0 Ht') as (t & Ht & Hp). apply Hp, H1, Ht.
Qed.
(** Once the remove filter is in it, the source is only known to be there. *)
Lemma set_source_any m it s : good m -> s < next m -> E (Some it) m (fun _ => set_iter it (with_source s)) U.
Proof.
  intros HG Hs. unfold set_iter. e1. apply E_tail. eapply (E_store _ _ (Some it)); [assumption|right; reflexivity| |].
  - intros o Ho' _. ands; [simpl; split; [assumption|apply Hf]|exact I|]. intros t' _ Hn. congruence.
  - intros m' HG' _ _ _. eret.
Qed.
Lemma E_bindx {A B} x m (c : nat -> M A) (k : nat -> A -> M B) Q : E x m c U -> (forall a m', good m' -> R x m m' -> E x m' (fun n => k n a) Q) -> E x m (fun n => mbind (c n) (k n)) Q.
Proof. intros Hc Hk. eapply E_bind; [exact Hc|]. intros a m' HG HR _. apply Hk; assumption. Qed.
Lemma query_iter_common_e m it : good m -> plain_at m it -> E (Some it) m (fun n => query_iter_common n it) U.
Proof.
  intros HG Hp. unfold query_iter_common.
  ecall query_of_e. apply (plain_at_mono _ _ _ HG HR) in Hp.
  eapply E_call with (P := U).
  { destruct (q_do_timeout a || q_do_deadline a); [apply timeouts_e; assumption|eret]. }
  eresult HG0. apply (plain_at_mono _ _ _ HG0 HR0) in Hp.
  eapply E_call with (P := U).
  { destruct (q_type a); eauto with ends. }
  eresult HG1. apply (plain_at_mono _ _ _ HG1 HR1) in Hp.
  e1; [repeat e1; eret|].
  eapply E_bindx.
  { destruct (q_tfa a || q_tlb a || q_tfb a || q_tla a); [|eret]. eapply E_call; [apply filter_set_e; assumption|]. eresult HG2. apply (plain_at_mono _ _ _ HG2 HR2) in Hp.
    e1. e1; [eret|]. apply (proj2 Hp) in Ho as Hpl. ecall remove_mtbl_set_upstream_e. e1. apply set_source_any; [assumption|apply Hf0]. }
  intros u m3 HG3 HR3. adv HG2 HR3. e1. eapply E_bindx.
  { destruct (owned I_FILL_MERGER t =? 0); [eret|]. e1. destruct Hf as [Hf _]. ecall ljoin_mtbl_init_e. ecall set_iter_e. e1. apply set_source_any; [assumption|apply Hf1]. }
  intros u2 m4 HG4 HR4. adv HG3 HR4. ego; eret.
Qed.
(** A query iterator that was made just now: what becomes of its source matters to nobody. *)
Lemma E_drop {A} y m (c : nat -> M A) Q : next m <= y -> E (Some y) m c Q -> E None m c Q.
Proof.
  intros Hy (n0 & r & H1 & H2). exists n0, r. split; [exact H1|]. destruct r as [[a m']| | | |]; try exact H2. destruct H2 as (G & [R1 R2 R3 R4] & HQ). split; [exact G|split; [|exact HQ]].
  constructor; auto. intros p t' _ Hp. apply R4; [|exact Hp]. intros [= ->]. lia.
Qed.
Lemma E_fresh {A} m o (k : nat -> N -> M A) Q : good m -> fine m (next m) o ->
  (forall p m', good m' -> R None m m' -> p = next m -> at_ m' p = Some o -> E (Some p) m' (fun n => k n p) Q) ->
  E None m (fun n => mbind (malloc o) (k n)) Q.
Proof.
  intros HG Hf Hk. apply E_drop with (next m); [lia|]. eapply E_malloc; [exact HG|exact Hf|]. intros p m' HG' HR Hp Hlt Hz Hold Hat. subst p. apply Hk; auto.
Qed.
Ltac pl := match goal with HG : good ?m, HR : R None ?m ?m', Hp : plain_at ?m ?it |- _ => apply (plain_at_mono _ _ _ HG HR) in Hp end.
Lemma plain_at_new m it o s : it < next m -> at_ m it = Some (new_query_iter o s s) -> plain m s -> plain_at m it.
Proof. intros Hl Ha Hp. split; [exact Hl|]. intros t Ht. rewrite Ha in Ht. injection Ht as <-. exact Hp. Qed.
Lemma query_iter_e m q s : good m -> plain m s -> E None m (fun n => query_iter n q s) U.
Proof.
  intros HG Hs. unfold query_iter. eapply E_fresh; [exact HG| |].
  - split; simpl; eapply plain_lt; eassumption.
  - intros p m' HG' HR Hp Hat. eapply query_iter_common_e; [assumption|]. eapply plain_at_new; [|exact Hat|exact (plain_mono _ _ _ _ HG HR Hs)]. apply (good_lt _ _ _ HG' Hat).
Qed.
Global Hint Resolve query_iter_e : ends.

(** ** Iterators *)

(** An entry that is returned costs a choice. *)
Definition pays (m : memory) (r : step * N) (m' : memory) : Prop := fst r = Got -> (ch m' < ch m)%nat.
Ltac epay := apply E_ret; [assumption|let Hpay := fresh "Hpay" in intro Hpay; first [discriminate Hpay|lia]].
Ltac eagain IH := eapply E_post; [eapply IH; [|reflexivity|assumption]; lia|let Hpay := fresh "Hpay" in let Hgot := fresh "Hgot" in intros [? ?] ? _ _ Hpay Hgot; specialize (Hpay Hgot); lia].
Lemma next_loop_e it : forall C m, (ch m <= C)%nat -> good m -> E None m (fun n => next_loop n it) (pays m).
Proof.
  induction C as [C IH] using (well_founded_induction lt_wf). intros m HC HG. apply E_S. simpl. e1. ecall iter_next_e. destruct a; [|epay|epay].
  specialize (HQ eq_refl). ecall entry_decode_e. destruct (a =? 0); [|epay]. eagain IH.
Qed.
Lemma next_loop_1 m it : good m -> E None m (fun n => next_loop n it) (pays m).
Proof. intro HG. eapply next_loop_e; [reflexivity|exact HG]. Qed.
Lemma arm_e m it : good m -> E None m (fun _ => arm it) U.
Proof. intro HG. unfold arm. ego; eret. Qed.
Global Hint Resolve arm_e : ends.
Lemma query_iter_next_e m it : good m -> E None m (fun n => query_iter_next n it) (pays m).
Proof. intro HG. unfold query_iter_next. e1. ecall next_loop_1. e1. eret. intro Hgot. specialize (HQ0 Hgot). lia. Qed.

Lemma indirect_loop_e it : forall C m, (ch m <= C)%nat -> good m -> E None m (fun n => indirect_loop n it) (pays m).
Proof.
  induction C as [C IH] using (well_founded_induction lt_wf).
  assert (HA : forall m, (ch m <= C)%nat -> good m -> (forall t, at_ m it = Some (OQueryIter t) -> t_m_iter t = 0) -> E None m (fun n => indirect_loop n it) (pays m)).
  { intros m HC HG H0. apply E_S. simpl. e1. rewrite (H0 _ Ho). simpl.
    eapply E_bind with (P := fun r m' => match r with None | Some Got => (ch m' < ch m)%nat | _ => True end).
    - ecall iter_next_e. destruct a; [|eret|eret]. specialize (HQ eq_refl). ego; eret; try match goal with |- context [if ?b then _ else _] => destruct b end; lia.
    - intros r m' HG' HR HP. adv HG HR. destruct r as [[]|]; [|epay|epay|eagain IH].
      e1. ecall iter_next_e. destruct a; [| |epay].
      + ecall entry_decode_e. destruct (a =? 0); [|epay]. eagain IH.
      + ecall iter_destroy_e. ecall set_iter_e. eagain IH. }
  intros m HC HG.
  assert (Hz : (forall t, at_ m it = Some (OQueryIter t) -> t_m_iter t = 0) \/ (forall t, at_ m it = Some (OQueryIter t) -> t_m_iter t =? 0 = false)).
  { destruct (at_ m it) as [[]|]; try (left; congruence). destruct (t_m_iter t =? 0) eqn:E0; [left|right]; intros t' [= <-]; [apply N.eqb_eq, E0|exact E0]. }
  destruct Hz as [Hz|Hz]; [apply HA; assumption|]. apply E_S. simpl. e1. rewrite (Hz _ Ho).
  e1. e1. ecall iter_next_e. destruct a; [| |epay].
  - specialize (HQ eq_refl). ecall entry_decode_e. destruct (a =? 0); [|epay]. eagain IH.
  - ecall iter_destroy_e. unfold set_iter. repeat e1.
    + keepq.
    + eapply E_call; [apply HA; [lia|assumption|]|eresult HG2; eret].
      * intros t2 Ht2. rewrite Hat in Ht2. injection Ht2 as <-. reflexivity.
      * intro Hgot. specialize (HQ1 Hgot). lia.
Qed.
Lemma indirect_loop_1 m it : good m -> E None m (fun n => indirect_loop n it) (pays m).
Proof. intro HG. eapply indirect_loop_e; [reflexivity|exact HG]. Qed.
Lemma query_iter_next_indirect_e m it : good m -> E None m (fun n => query_iter_next_indirect n it) (pays m).
Proof. intro HG. unfold query_iter_next_indirect. e1. ecall indirect_loop_1. e1. eret. intro Hgot. specialize (HQ0 Hgot). lia. Qed.
Lemma reader_next_loop_e it : forall C m, (ch m <= C)%nat -> good m -> E None m (fun n => reader_next_loop n it) (pays m).
Proof.
  induction C as [C IH] using (well_founded_induction lt_wf). intros m HC HG. apply E_S. simpl. e1. ecall iter_next_e. destruct a; [|epay|epay].
  specialize (HQ eq_refl). ecall entry_decode_e. destruct (a =? 0); [|epay]. eagain IH.
Qed.
Lemma reader_next_loop_1 m it : good m -> E None m (fun n => reader_next_loop n it) (pays m).
Proof. intro HG. eapply reader_next_loop_e; [reflexivity|exact HG]. Qed.
Lemma reader_iter_free_e m it : good m -> E None m (fun n => reader_iter_free n it) U.
Proof. intro HG. unfold reader_iter_free. ego; eret. Qed.
Global Hint Resolve query_iter_next_e query_iter_next_indirect_e reader_next_loop_1 reader_iter_free_e : ends.
Lemma iterator_next_e m d : good m -> E None m (fun n => iterator_next n d) (pays m).
Proof. intro HG. unfold iterator_next. e1; [epay|]. e1. match goal with |- E _ _ (fun _ => match ?n with _ => _ end) _ => destruct n end; eauto with ends. Qed.
Lemma iterator_destroy_e m d : good m -> E None m (fun n => iterator_destroy n d) U.
Proof. intro HG. unfold iterator_destroy. e1; [eret|]. e1. match goal with |- E _ _ ?f _ => match f with context [match ?n with NextQuery => _ | _ => _ end] => destruct n end end; ego; eret. Qed.
Lemma iterator_get_count_e m d : good m -> E None m (fun n => iterator_get_count d) U.
Proof. intro HG. unfold iterator_get_count. e1; [eret|]. e1. match goal with |- E _ _ ?f _ => match f with context [match ?n with NextQuery => _ | _ => _ end] => destruct n end end; ego; eret. Qed.
Global Hint Resolve iterator_next_e iterator_destroy_e iterator_get_count_e : ends.

(** ** Set files *)

Lemma reader_time_filter_e m it s : good m -> flat m s -> E None m (fun n => reader_time_filter n it s) U.
Proof.
  intros HG Hs. unfold reader_time_filter. ecall query_init_e. ecall query_iter_e. ecall iterator_next_e. destruct a1 as [r e]. ego; eret.
Qed.
Lemma fileset_dup_e m it : good m -> E None m (fun n => fileset_dup n it) U.
Proof.
  intro HG. unfold fileset_dup. e1. e1. e1. eapply E_call; [apply (for_each_e flat (fun n => reader_time_filter n it)); [| |assumption|apply Hf]|].
  - intros x m2 m3 y HR2. apply flat_mono with x. exact HR2.
  - intros m2 y. apply reader_time_filter_e.
  - eresult HG1. eret.
Qed.
Global Hint Resolve reader_time_filter_e fileset_dup_e : ends.
Lemma set_source_plain m it s : good m -> plain m s -> E None m (fun _ => set_iter it (with_source s)) U.
Proof.
  intros HG Hs. unfold set_iter. repeat e1.
  - keepq.
  - eret.
Qed.
Lemma set_source_index_e m it s : good m -> s < next m -> E None m (fun _ => set_iter it (with_source_index s)) U.
Proof.
  intros HG Hs. unfold set_iter. repeat e1.
  - keepq.
  - eret.
Qed.
Lemma query_iter_fileset_e m q fs : good m -> E None m (fun n => query_iter_fileset n q fs) U.
Proof.
  intro HG. unfold query_iter_fileset. eapply E_fresh; [exact HG|split; simpl; apply zero_lt, HG|]. intros p m0 HG0 HR Hp Hat.
  assert (Hpl : plain_at m0 p). { eapply plain_at_new; [|exact Hat|]; [apply (good_lt _ _ _ HG0 Hat)|apply flat_plain, flat_zero, HG0]. }
  clear HR Hat Hp HG m.
  e1. pl. e1. eapply E_call with (P := U); [repeat e1; eret|]. eresult HG. pl. e1.
  ecall fileset_dup_e. pl. ecall set_iter_e. pl. e1. destruct Hf1 as [Hf1 _]. ecall set_source_index_e. pl. ecall set_source_plain. pl.
  eapply E_call with (P := U).
  { e1; [eret|]. e1. ecall fileset_dup_e. ecall set_iter_e. e1. apply set_source_plain; [assumption|]. apply flat_plain, Hf3. }
  eresult HG5. pl. e1. pl. apply query_iter_common_e; assumption.
Qed.
Global Hint Resolve query_iter_fileset_e : ends.

(** ** Readers and clients *)

Lemma reader_init_e m s : good m -> flat m s -> E None m (fun _ => reader_init s) U.
Proof. intros HG Hs. unfold reader_init. ego; eret. Qed.
Lemma reader_init_setfile_e m : good m -> E None m (fun _ => reader_init_setfile) U.
Proof. intro HG. unfold reader_init_setfile. ego; eret. Qed.
Lemma reader_reload_e m r : good m -> E None m (fun _ => reader_reload r) U.
Proof. intro HG. unfold reader_reload. ego; eret. Qed.
Lemma reader_destroy_e m r : good m -> E None m (fun _ => reader_destroy r) U.
Proof. intro HG. unfold reader_destroy. ego; eret. Qed.
Lemma reader_iter_e m r : good m -> E None m (fun n => reader_iter n r) U.
Proof. intro HG. unfold reader_iter. ego; eret. Qed.
Lemma reader_query_e m r q : good m -> E None m (fun n => reader_query n r q) U.
Proof. intro HG. unfold reader_query. ego; eret. Qed.
Lemma entry_known_e m e : good m -> E None m (fun _ => entry_known e) U.
Proof. intro HG. unfold entry_known. e1. destruct o; try apply E_bad. destruct k; eret. Qed.
Global Hint Resolve reader_init_e reader_init_setfile_e reader_reload_e reader_destroy_e reader_iter_e reader_query_e entry_known_e : ends.

(** The sources that the client holds are files. *)
Definition files (m : memory) (c : client) : Prop := forall s, In (HSource s) c -> flat m s.
Lemma files_mono x m m' c : R x m m' -> files m c -> files m' c.
Proof. intros HR H s Hs. eapply flat_mono; [exact HR|auto]. Qed.
Lemma drop_in f c h : In h (drop f c) -> In h c.
Proof. induction c as [|a c IH]; simpl; [auto|]. destruct (f a); [auto|]. simpl. tauto. Qed.
Lemma files_drop m f c : files m c -> files m (drop f c).
Proof. intros H s Hs. apply H. eapply drop_in, Hs. Qed.
Lemma files_know m q f c : files m c -> files m (know q f c).
Proof.
  intros H s Hs. apply H. clear H. induction c as [|[] c IH]; simpl in *; try (destruct Hs as [Hs|Hs]; auto; fail); auto.
  destruct (q0 =? q); simpl in Hs; destruct Hs as [Hs|Hs]; auto; discriminate.
Qed.
Lemma files_cons m h c : (forall s, h <> HSource s) -> files m c -> files m (h :: c).
Proof. intros Hh H s [Hs|Hs]; [exfalso; exact (Hh _ Hs)|auto]. Qed.
Global Hint Resolve files_drop files_know : ends.
Global Hint Extern 1 (files _ (_ :: _)) => (apply files_cons; [intro; discriminate|]) : ends.
Global Hint Extern 1 (files _ (if ?b then _ else _)) => destruct b : ends.
Ltac fl := match goal with HR : R ?x ?m ?m', Hp : files ?m ?c |- _ => apply (files_mono _ _ _ _ HR) in Hp end.
Lemma make_e m c a : good m -> files m c -> allowed c a = true -> E None m (fun n => make n c a) (fun c' m' => files m' c').
Proof.
  intros HG Hc Ha. destruct a; simpl; try (repeat (e1; try fl); eret; eauto 6 with ends; fail).
  - e1. fl. eret. intros s [Hs|Hs]; [|auto]. injection Hs as <-. split; [assumption|]. split; intros i Hi; congruence.
  - simpl in Ha. apply existsb_exists in Ha as (h & Hi & Hh). destruct h; try discriminate. apply N.eqb_eq in Hh. subst s0. pose proof (Hc s Hi) as Hs.
    ecall reader_init_e. fl. eret. eauto with ends.
  - e1. fl. destruct (find_reader r c); eret; eauto with ends.
  - e1. fl. destruct (find_reader r c); [destruct (find_query q c)|]; eret; eauto with ends.
  - ecall iterator_next_e. fl. destruct a as [[] e]; [|eret; eauto with ends|eret; eauto with ends]. ecall entry_known_e. fl. eret. eauto with ends.
Qed.

(** Calls that follow the rules come to an end, whatever the fuel, if there is enough. *)
Lemma make_all_ends : forall l c m, good m -> files m c ->
  exists n0 P r, r <> Hang /\ forall n, (n0 <= n)%nat -> (follows n c m l <-> P) /\ (P -> make_all n c l m = r).
Proof.
  induction l as [|a l IH]; intros c m HG Hc.
  - exists O, True, (Ok (c, m)). split; [discriminate|]. intros n _. simpl. tauto.
  - destruct (allowed c a) eqn:Ea.
    + destruct (make_e m c a HG Hc Ea) as (n1 & r1 & H1 & H2). destruct r1 as [[c' m']| | | |]; try contradiction.
      * destruct H2 as (HG' & _ & Hc'). destruct (IH c' m' HG' Hc') as (n2 & P & r & Hr & H3). exists (Nat.max n1 n2), P, r. split; [exact Hr|]. intros n Hn.
        destruct (H3 n ltac:(lia)) as [H4 H5]. specialize (H1 n ltac:(lia)). simpl. unfold mbind. rewrite H1. rewrite Ea. split; [|exact H5]. rewrite <- H4. split.
        -- intros [_ H]. apply H. reflexivity.
        -- intro H. split; [reflexivity|]. intros c2 m2 [= <- <-]. exact H.
      * exists n1, True, Fail. split; [discriminate|]. intros n Hn. specialize (H1 n Hn). simpl. unfold mbind. rewrite H1, Ea. split; [|reflexivity]. split; [auto|]. split; [reflexivity|congruence].
      * exists n1, True, Abort. split; [discriminate|]. intros n Hn. specialize (H1 n Hn). simpl. unfold mbind. rewrite H1, Ea. split; [|reflexivity]. split; [auto|]. split; [reflexivity|congruence].
      * exists n1, True, UB. split; [discriminate|]. intros n Hn. specialize (H1 n Hn). simpl. unfold mbind. rewrite H1, Ea. split; [|reflexivity]. split; [auto|]. split; [reflexivity|congruence].
    + exists O, False, UB. split; [discriminate|]. intros n _. simpl. rewrite Ea. split; [|contradiction]. split; [intros [H _]; discriminate|contradiction].
Qed.
Lemma good_start choices : good (start choices).
Proof. split; [split; [reflexivity|split; constructor]|]. intros p o H. discriminate. Qed.
Lemma calls_stable choices l : exists n0 P r, r <> Hang /\ forall n, (n0 <= n)%nat -> (follows n [] (start choices) l <-> P) /\ (P -> make_all n [] l (start choices) = r).
Proof. apply make_all_ends; [apply good_start|]. intros s []. Qed.
