(** * Memory: making, advancing and destroying the iterators of query.c *)
From Coq Require Import Permutation.
From Verif Require Import Base ModelMemory HeapLogic MemoryBasics MemoryIters MemoryQuery.

(** ** Destroying *)

Definition destroy_of (k : kind) : N -> M unit :=
  match k with
  | KLjoin => ljoin_mtbl_destroy | KFileset => fileset_destroy | KMerger => merger_destroy | KTimeout => timeout_mtbl_destroy
  | KFilter => filter_mtbl_destroy | KRemove => remove_mtbl_destroy
  end.
Lemma source_destroy_bind {B} rm s i H R k (Q : B -> list cell -> Prop) :
  focus (s, OSource i) H R -> tri rm R (k tt) Q -> tri rm H (mbind (source_destroy s) k) Q.
Proof.
  intros HF Hk. unfold focus in HF. eapply tri_perm; [exact HF|]. eapply tri_nz; [left; reflexivity|]. intro Hz. apply N.eqb_neq in Hz. unfold source_destroy. rewrite Hz. go. exact Hk.
Qed.
Lemma base_destroy rm l : forall H R, Permutation H (base_cells l ++ R) -> tri rm H (for_each l source_destroy) (fun _ H' => Permutation H' R).
Proof.
  induction l as [|s l IH]; intros H R HP; simpl.
  - fin. exact HP.
  - start HP. simpl app. eapply source_destroy_bind; [focus|]. apply IH. reflexivity.
Qed.
Lemma fileset_destroy_ok rm p s l H R : p <> 0 -> Permutation H ((p, OFileset s l) :: (s, OSource SBase) :: base_cells l ++ R) ->
  tri rm H (fileset_destroy p) (fun _ H' => Permutation H' R).
Proof.
  intros Hp HP. apply N.eqb_neq in Hp. start HP. unfold fileset_destroy. rewrite Hp. go.
  eapply tri_bind; [apply (base_destroy _ l _ ((p, OFileset s l) :: (s, OSource SBase) :: R)); perm|]. intros u H' HP'. start HP'.
  eapply source_destroy_bind; [focus|]. go. fin. reflexivity.
Qed.
Lemma stage_destroy rm k p C H R : stage k p C -> Permutation H (C ++ R) -> tri rm H (destroy_of k p) (fun _ H' => Permutation H' R).
Proof.
  intros HS HP. destruct HS as [k|p l r s Hp|p s l Hp|p s Hp|p u s e Hp|p u s f e Hp|p u s v d l Hp].
  - destruct k; fin; exact HP.
  - apply N.eqb_neq in Hp. start HP. simpl. unfold ljoin_mtbl_destroy. rewrite Hp. go. eapply source_destroy_bind; [focus|]. go. fin. reflexivity.
  - simpl destroy_of. apply (fileset_destroy_ok _ p s l); [exact Hp|]. rewrite HP. perm.
  - apply N.eqb_neq in Hp. start HP. simpl. unfold merger_destroy. rewrite Hp. go. eapply source_destroy_bind; [focus|]. go. fin. reflexivity.
  - apply N.eqb_neq in Hp. start HP. simpl. unfold timeout_mtbl_destroy. rewrite Hp. go. eapply source_destroy_bind; [focus|]. go. fin. reflexivity.
  - apply N.eqb_neq in Hp. start HP. simpl. unfold filter_mtbl_destroy. rewrite Hp. go. eapply source_destroy_bind; [focus|]. go. fin. reflexivity.
  - apply N.eqb_neq in Hp. start HP. simpl destroy_of. unfold remove_mtbl_destroy. rewrite Hp. simpl app. go.
    eapply tri_bind; [apply (vec_destroy_ok _ v d l _ ((p, ORemove u s v) :: (s, OSource (SRemove p)) :: R)); unfold vec; simpl app; perm|].
    intros x H' HP'. start HP'. eapply source_destroy_bind; [focus|]. go. fin. reflexivity.
Qed.
Lemma stage_destroy_bind {B} rm k p C H R c (Q : B -> list cell -> Prop) :
  stage k p C -> takes C H R -> (forall H', Permutation H' R -> tri rm H' (c tt) Q) -> tri rm H (mbind (destroy_of k p) c) Q.
Proof. intros HS HT Hc. eapply tri_bind; [eapply stage_destroy; [exact HS|exact HT]|]. intros [] H' HP. apply Hc, HP. Qed.

Lemma destroy_owned_bind {B} rm k it i t p C H0 R (c : M B) Q :
  owned i t = p -> stage k p C -> takes C H0 R -> tri rm ((it, OQueryIter (with_owned i 0 t)) :: R) c Q ->
  tri rm ((it, OQueryIter t) :: H0) (destroy_owned it i (destroy_of k) ;; c) Q.
Proof.
  intros <- HS HT Hc. unfold destroy_owned. go. eapply stage_destroy_bind; [exact HS|apply takes_cons; exact HT|]. intros H' HP. start HP. unfold set_iter. go. exact Hc.
Qed.

Lemma query_iter_free_ok fl it q F X CR t C n H R :
  G fl it q F X CR t C -> incl X (CR ++ R) -> Permutation H (C ++ R) -> tri (f_rm fl) H (query_iter_free n it) (fun _ H' => Permutation H' R).
Proof.
  intros HG HX HP. destruct HG as [K1 K2 T1 T2 S ps r Gq GK1 GK2 GT1 GT2 Go GS Gr Gi].
  assert (HF : incl F (S ++ CR ++ R)). { eapply incl_tran; [exact Gi|]. apply incl_app; [inclu|]. eapply incl_tran; [exact HX|]. inclu. }
  start HP. simpl app. unfold query_iter_free. go.
  destruct (tree0_tree _ _ _ _ _ GT1) as (sT & _ & HtT). eapply tri_bind; [apply (iter_destroy_ok fl F it n sT (t_m_iter t) T1 _ ((it, OQueryIter t) :: K1 ++ K2 ++ T2 ++ S ++ CR ++ R)); [exact HtT| |perm]|].
  { eapply incl_tran; [exact HF|]. inclu. }
  intros u1 H1 HP1. start HP1. unfold set_iter. go.
  clear sT HtT. destruct (tree0_tree _ _ _ _ _ GT2) as (sT & _ & HtT). eapply tri_bind; [apply (iter_destroy_ok fl F it n sT (t_m_iter2 t) T2 _ ((it, OQueryIter (with_m_iter 0 t)) :: K1 ++ K2 ++ S ++ CR ++ R)); [exact HtT| |perm]|].
  { eapply incl_tran; [exact HF|]. inclu. }
  intros u2 H2 HP2. start HP2. go. clear - GK1 GK2 Go GS Gr.
  do 12 (inversion GS as [|? ? ? ? ? ? ?HS GS1]; subst; clear GS; rename GS1 into GS). inversion GS. subst. clear GS.
  Ltac dest K Go := eapply (destroy_owned_bind _ K); [unfold owned; simpl t_owned; rewrite Go; cbn; reflexivity|eassumption|takes|].
  dest KLjoin Go. dest KFileset Go. dest KFileset Go. dest KMerger Go. dest KTimeout Go. dest KTimeout Go.
  dest KFilter Go. dest KFilter Go. dest KFilter Go. dest KFilter Go. dest KFilter Go. dest KFilter Go. dest KRemove Go.
  go. simpl t_key. simpl t_key2.
  eapply tri_bind; [eapply ubuf_destroy_ok; [exact GK1|takes]|]. intros u1 H1 HP1. start HP1.
  eapply tri_bind; [eapply ubuf_destroy_ok; [exact GK2|takes]|]. intros u2 H2 HP2. start HP2. go. fin. reflexivity.
Qed.

(** ** Making *)

Lemma G_query fl it q F X CR t C : G fl it q F X CR t C -> t_query t = q.
Proof. intros []. assumption. Qed.
Lemma G_owned fl it q F X CR t C i k p : G fl it q F X CR t C -> nth_error kinds i = Some k -> owned i t = p -> p <> 0 ->
  exists Cp, stage k p Cp /\ incl Cp C /\
    forall F', incl F F' -> incl F' (Cp ++ F) -> G fl it q F' X CR t C.
Proof.
  intros [K1 K2 T1 T2 S ps r Gq GK1 GK2 GT1 GT2 Go GS Gr Gi] Hk Hp Hz.
  assert (Hl : (i < length ps)%nat). { rewrite (stages_length _ _ _ GS). apply nth_error_Some. congruence. }
  destruct (stages_take _ _ _ _ _ GS Hk) as (Cp & S' & H1 & H2 & _). unfold owned in Hp. rewrite Go, app_nth1 in Hp by exact Hl. rewrite Hp in H1.
  exists Cp. repeat apply conj; [exact H1| |].
  - intros x Hx. right. rewrite !in_app_iff. do 4 right. left. rewrite H2. mem.
  - intros F' Hi Hi'. apply (G_intro fl it q F' X CR t K1 K2 T1 T2 S ps r); auto.
    + eapply tree0_mono; eassumption.
    + eapply tree0_mono; eassumption.
    + eapply incl_tran; [exact Hi'|]. apply incl_app; [|exact Gi]. intros x Hx. rewrite in_app_iff, H2. left. mem.
Qed.

Definition shape (fl : flags) (it q : N) (R0 R : list cell) (t : query_iter_data) (H : list cell) : Prop :=
  exists F X CR C, G fl it q F X CR t C /\ sources fl F it t /\ incl X (CR ++ R0) /\ incl R0 R /\ Permutation H (C ++ R).
Definition later (zs : list nat) (t : query_iter_data) : Prop :=
  t_armed t = false /\ t_key t <> 0 /\ t_m_iter t = 0 /\ forall i, In i zs -> owned i t = 0.

Lemma shape_in fl it q R0 R t H : shape fl it q R0 R t H -> In (it, OQueryIter t) H /\ incl R H.
Proof.
  intros (F & X & CR & C & HG & _ & _ & _ & HP). destruct (G_head _ _ _ _ _ _ _ _ HG) as (C0 & ->). split; [rewrite HP; mem|]. intros x Hx. rewrite HP. mem.
Qed.
Lemma later_filter zs zs' i t t' : later zs t -> same_keys t t' -> grew [i] t t' -> incl zs' zs -> ~ In i zs' -> later zs' t'.
Proof.
  intros (H1 & H2 & H3 & H4) (E1 & E2 & E3 & E4) [E5 E6] Hi Hn. repeat apply conj; try congruence.
  intros j Hj. rewrite E6; [auto|]. intros [E|[]]. subst j. auto.
Qed.
Lemma shape_filter fl it q R0 R t H i fn zs zs' : shape fl it q R0 R t H -> later zs t -> nth_error kinds i = Some KFilter -> In i zs -> incl zs' zs -> ~ In i zs' -> fn <> FBailiwick ->
  tri (f_rm fl) H (filter_set it i fn) (fun _ H' => exists t', shape fl it q R0 R t' H' /\ later zs' t' /\ t_m_iter2 t' = t_m_iter2 t /\ forall j, j <> i -> owned j t' = owned j t).
Proof.
  intros (F & X & CR & C & HG & HS & HX & HR0 & HP) Hl Hk Hi Hzs Hn Hf. eapply tri_post.
  - eapply filter_set_ok; try eassumption; [apply Hl, Hi|congruence].
  - intros u H' (t' & Hk' & F' & C' & HF' & HG' & HS' & Hg' & HP'). exists t'. split; [|split; [|split]].
    + exists F', X, CR, C'. auto.
    + eapply later_filter; eassumption.
    + apply Hk'.
    + intros j Hj. apply Hg'. intros [E|[]]. auto.
Qed.

(** What the query and the state before must be like. *)
Record start_ok (fl : flags) (it q : N) (F X CR R0 R : list cell) (d : query_data) (t : query_iter_data) : Prop := {
  so_query : In (q, OQuery d) R;
  so_name : incl (blk (q_name d)) R;
  so_rdata : incl (blk (q_rdata d)) R;
  so_bailiwick : incl (blk (q_bailiwick d)) R;
  so_data : has_data d;
  so_bw : q_bailiwick d <> 0 -> f_bw fl = true;
  so_tm : q_do_timeout d || q_do_deadline d = true -> f_tm fl = true;
  so_X : incl X R0;
  so_R0 : incl R0 R;
  so_armed : t_armed t = false;
  so_key : t_key t = 0;
  so_m_iter : t_m_iter t = 0;
  so_m_iter2 : t_m_iter2 t = 0;
  so_owned : forall i, In i [0; 4; 5; 6; 7; 8; 9; 10; 11]%nat -> owned i t = 0;
  so_remove : owned I_REMOVE_STRICT t <> 0 ->
    f_rm fl = true /\ exists s v dv l, CR = (owned I_REMOVE_STRICT t, ORemove 0 s v) :: (s, OSource (SRemove (owned I_REMOVE_STRICT t))) :: vec v dv l /\
      Forall (fun x => In (x, OSource SBase) F) l
}.
Definition made (fl : flags) (it q : N) (R0 R : list cell) (p : N) (H' : list cell) : Prop :=
  (p = 0 /\ Permutation H' R) \/
  (p <> 0 /\ exists nf t H1, nf <> NextReader /\ t_key t <> 0 /\ t_armed t = false /\ Permutation H' ((p, OIterator nf it) :: H1) /\ shape fl it q R0 R t H1).

Lemma query_iter_common_ok fl it q F X CR R0 R d t C n H :
  G fl it q F X CR t C -> sources fl F it t -> start_ok fl it q F X CR R0 R d t -> Permutation H (C ++ R) ->
  tri (f_rm fl) H (query_iter_common n it) (made fl it q R0 R).
Proof.
  intros HG HS SO HP. pose proof (G_query _ _ _ _ _ _ _ _ HG) as Hq. destruct (G_head _ _ _ _ _ _ _ _ HG) as (C0 & EC). destruct SO.
  assert (HX : incl X (CR ++ R)) by (apply (incl_tran so_X0); inclu).
  assert (HX0 : incl X (CR ++ R0)) by (apply (incl_tran so_X0); inclu).
  unfold query_iter_common.
  assert (Hit : In (it, OQueryIter t) H) by (rewrite HP, EC; mem). assert (HR : incl R H) by (intros x Hx; rewrite HP; mem).
  eapply tri_bind with (P := fun r H' => H' = H /\ r = d).
  { unfold query_of. go. rewrite Hq. go. fin. auto. }
  intros r H' [-> ->]. clear Hit HR. 
  eapply tri_bind with (P := fun _ H' => exists t1, same_keys t t1 /\ BS fl it q X CR R F t TM t1 H').
  { destruct (q_do_timeout d || q_do_deadline d) eqn:Etm.
    - subst C. start HP. simpl app. unfold timeout_mtbl_init, set_iter. go. fin. simpl t_source_index.
      match goal with |- exists t1, _ /\ BS _ _ _ _ _ _ _ _ _ t1 ((it, OQueryIter ?x) :: _) => exists x end. split; [repeat split|].
      destruct (G_stage fl it q F X CR t _ I_TIMEOUT KTimeout p [(p, OTimeout (t_source t) p0 it); (p0, OSource (STimeout p))] p0
         ((it, OQueryIter (with_source p0 (with_owned I_TIMEOUT p t))) :: (p, OTimeout (t_source t) p0 it) :: (p0, OSource (STimeout p)) :: C0 ++ R) R HG HS) as (C1 & HG1 & HS1 & HP1).
      1: reflexivity. 1: apply so_owned0; simpl; auto 12. 1: constructor; assumption.
      1: { eapply src_timeout; [auto|mem|mem|]. eapply src_mono; [|apply HS]. inclu. }
      1: { simpl tl. perm. }
      destruct (G_head _ _ _ _ _ _ _ _ HG1) as (C2 & ->).
      set (t1 := with_source p0 (with_owned I_TIMEOUT p t)) in *. set (F1 := [(p, OTimeout (t_source t) p0 it); (p0, OSource (STimeout p))] ++ F) in *.
      destruct (G_stage_index fl it q F1 X CR t1 _ I_TIMEOUT_INDEX KTimeout p1 [(p1, OTimeout (t_source_index t) p2 it); (p2, OSource (STimeout p1))] p2
         ((it, OQueryIter (with_source_index p2 (with_owned I_TIMEOUT_INDEX p1 t1))) :: (p1, OTimeout (t_source_index t) p2 it) :: (p2, OSource (STimeout p1)) :: C2 ++ R) R HG1 HS1) as (C3 & HG3 & HS3 & HP3).
      1: reflexivity. 1: { transitivity (owned I_TIMEOUT_INDEX t); [apply (owned_with I_TIMEOUT p t); discriminate|apply so_owned0; simpl; auto 12]. } 1: constructor; assumption.
      1: { eapply src_timeout; [auto|mem|mem|]. eapply src_mono; [|apply HS1]. inclu. }
      1: { simpl tl. perm. }
      eexists. exists C3. repeat apply conj; [|exact HG3|apply HS3|apply HS3|reflexivity| |].
      + unfold F1. inclu.
      + intros j Hj. unfold t1. etransitivity; [apply (owned_with I_TIMEOUT_INDEX p1 (with_source p0 (with_owned I_TIMEOUT p t)))|apply (owned_with I_TIMEOUT p t)]; intro E; apply Hj; subst j; cbv; tauto.
      + rewrite <- HP3. simpl app in HP1. apply Permutation_cons_inv in HP1. rewrite <- HP1. perm.
    - fin. exists t. split; [apply same_keys_refl|]. exists F, C. repeat apply conj; auto; try apply HS; apply incl_refl. }
  intros u1 H1 (t1 & (E1 & E2 & E3 & E4) & HB1).
  eapply tri_bind with (P := init_post fl it q X CR R F t).
  { unfold has_data in so_data0. destruct (q_type d).
    - eapply query_init_rrset_ok; eauto; try congruence; apply so_owned0; simpl; auto 12.
    - eapply query_init_rdata_name_ok; eauto; try congruence; apply so_owned0; simpl; auto 12.
    - eapply query_init_rdata_ip_ok; eauto; try congruence; apply so_owned0; simpl; auto 12.
    - eapply query_init_rdata_raw_ok; eauto; try congruence; apply so_owned0; simpl; auto 12.
    - eapply query_init_other_ok; eauto; congruence.
    - eapply query_init_other_ok; eauto; congruence.
    - eapply query_init_other_ok; eauto; congruence. }
  clear dependent H1. clear E1 E2 E3 E4 t1.
  intros p H1 (t1 & Em & [(-> & F1 & C1 & HF1 & HG1 & HS1 & Hg1 & HP1)|(Hp & Hk1 & nf & H1' & Hnf & -> & F1 & C1 & HF1 & HG1 & HS1 & Hg1 & HP1)]).
  { simpl. eapply tri_bind; [eapply query_iter_free_ok; [exact HG1|exact HX|exact HP1]|]. intros u H' HP'. fin. left. split; [reflexivity|exact HP']. }
  rewrite (proj2 (N.eqb_neq p 0) Hp). set (R2 := (p, OIterator nf it) :: R). assert (HR2 : incl R R2) by (unfold R2; inclu). assert (HR02 : incl R0 R2) by (eapply incl_tran; eassumption).
  assert (HPR : Permutation ((p, OIterator nf it) :: H1') (C1 ++ R2)) by (rewrite HP1; unfold R2; perm).
  assert (HL : later [0; 9; 10; 11]%nat t1).
  { repeat apply conj; auto; [rewrite (proj1 Hg1); assumption|]. intros i [<-|[<-|[<-|[<-|[]]]]]; (rewrite (proj2 Hg1); [apply so_owned0; simpl; auto 12|]; cbv; intuition discriminate). }
  eapply tri_bind with (P := fun _ H' => exists t', shape fl it q R0 R2 t' H' /\ later [0; 10; 11]%nat t').
  { destruct (q_tfa d || q_tlb d || q_tfb d || q_tla d).
    - eapply tri_bind; [eapply filter_set_ok with (R := R2); [exact HG1|exact HS1|exact HPR|reflexivity|apply HL; simpl; tauto|discriminate]|].
      intros u2 H2 (t2 & Hk2 & F2 & C2 & HF2 & HG2 & HS2 & Hg2 & HP2). assert (HL2 : later [0; 10; 11]%nat t2).
      { eapply later_filter; [exact HL|exact Hk2|exact Hg2|intros i [<-|[<-|[<-|[]]]]; simpl; auto 6|]. cbv. intuition discriminate. }
      destruct HG2 as [K1 K2 T1 T2 S ps r Gq GK1 GK2 GT1 GT2 Go GS Gr Gi].
      assert (Hlen : length ps = 12%nat) by (rewrite (stages_length _ _ _ GS); reflexivity).
      assert (Er : owned I_REMOVE_STRICT t2 = r). { unfold owned. rewrite Go, app_nth2 by (rewrite Hlen; cbv; lia). rewrite Hlen. reflexivity. }
      assert (Er0 : owned I_REMOVE_STRICT t2 = owned I_REMOVE_STRICT t). { rewrite (proj2 Hg2), (proj2 Hg1); [reflexivity| |]; cbv; intuition discriminate. }
      start HP2. simpl app. go. rewrite Er. destruct (r =? 0) eqn:Ez.
      + fin. exists t2. split; [|exact HL2]. exists F2, X, CR. eexists. repeat apply conj; [apply (G_intro fl it q F2 X CR t2 K1 K2 T1 T2 S ps r); assumption|apply HS2|apply HS2|exact HX0|exact HR02|]. perm.
      + apply N.eqb_neq in Ez. rewrite <- Er0, Er in so_remove0. destruct (so_remove0 Ez) as (Hrm & s & v & dv & l & ECR & Hl).
        unfold remove_mtbl_set_upstream, set_iter. rewrite ECR. unfold vec. simpl app. go. fin. exists (with_source s t2). split; [|exact HL2].
        set (CR' := (r, ORemove (t_source t2) s v) :: (s, OSource (SRemove r)) :: vec v dv l).
        assert (Hsub : incl F2 (CR' ++ F2)) by inclu.
        exists (CR' ++ F2), (CR' ++ X), CR'. eexists. repeat apply conj.
        * apply (G_intro fl it q (CR' ++ F2) (CR' ++ X) CR' (with_source s t2) K1 K2 T1 T2 S ps r); auto.
          -- eapply tree0_mono; [|exact GT1]. exact Hsub.
          -- eapply tree0_mono; [|exact GT2]. exact Hsub.
          -- constructor. exact Ez.
          -- apply incl_app; [inclu|]. eapply incl_tran; [exact Gi|]. inclu.
        * simpl. apply (src_remove fl _ it s r (t_source t2) v dv l); auto.
          -- unfold CR'. right. left. reflexivity.
          -- unfold CR'. left. reflexivity.
          -- unfold CR'. intros x [<-|[<-|[]]]; simpl; auto.
          -- eapply Forall_impl; [|exact Hl]. intros x Hx. apply Hsub, HF2, HF1, Hx.
          -- eapply src_mono; [exact Hsub|]. apply HS2.
        * simpl. eapply src_mono; [exact Hsub|]. apply HS2.
        * apply incl_app; [inclu|]. eapply incl_tran; [exact so_X0|]. inclu.
        * exact HR02.
        * unfold CR', vec. simpl app. perm.
    - fin. exists t1. split; [|destruct HL as (L1 & L2 & L3 & L4); repeat apply conj; auto; intros i Hi; apply L4; simpl in *; tauto].
      exists F1, X, CR, C1. auto. }
  clear - Hp Hnf so_R1. intros u2 H2 (t2 & HS2 & HL2). destruct (shape_in _ _ _ _ _ _ _ HS2) as [Hi2 _]. go.
  (* the left join *)
  eapply tri_bind with (P := fun _ H' => exists t', shape fl it q R0 R2 t' H' /\ later [10; 11]%nat t').
  { destruct (owned I_FILL_MERGER t2 =? 0) eqn:Ez.
    - fin. exists t2. split; [exact HS2|]. destruct HL2 as (L1 & L2 & L3 & L4); repeat apply conj; auto; intros i Hi; apply L4; simpl in *; tauto.
    - apply N.eqb_neq in Ez. destruct HS2 as (F & X & CR & C & HG & HS & HX & HR & HP).
      destruct (G_owned fl it q F X CR t2 C I_FILL_MERGER KMerger _ HG eq_refl eq_refl Ez) as (Cp & HC & HCC & Hmore).
      inversion HC; subst; [congruence|]. specialize (Hmore ((s, OSource SBase) :: F)).
      assert (HG1 : G fl it q ((s, OSource SBase) :: F) X CR t2 C). { apply Hmore; [inclu|]. intros x [<-|Hx]; [mem|mem]. } clear Hmore.
      assert (HS1 : sources fl ((s, OSource SBase) :: F) it t2). { split; (eapply src_mono; [|apply HS]); inclu. }
      assert (Hm : In (owned I_FILL_MERGER t2, OMerger s) H2). { rewrite HP. apply in_or_app. left. apply HCC. left. reflexivity. }
      destruct (G_head _ _ _ _ _ _ _ _ HG) as (C0 & ->). go. start HP. simpl app. unfold ljoin_mtbl_init, set_iter. go. fin.
      match goal with |- exists t1, shape _ _ _ _ _ t1 ((it, OQueryIter ?x) :: _) /\ _ => exists x end. split.
      + set (Fj := (s, OSource SBase) :: F) in *.
        destruct (G_stage fl it q Fj X CR t2 _ I_LJOIN KLjoin p0 [(p0, OLjoin (t_source t2) s p1); (p1, OSource (SLjoin p0))] p1
         ((it, OQueryIter (with_source p1 (with_owned I_LJOIN p0 t2))) :: (p0, OLjoin (t_source t2) s p1) :: (p1, OSource (SLjoin p0)) :: C0 ++ R2) R2 HG1 HS1) as (C1 & HG2 & HS2 & HP1).
        1: reflexivity. 1: apply HL2; simpl; tauto. 1: constructor; assumption.
        1: { eapply src_ljoin; [mem|mem| |]. - eapply src_mono; [|apply HS1]. inclu. - apply src_base. unfold Fj. mem. }
        1: { simpl tl. perm. }
        eexists. exists X, CR, C1. repeat apply conj; [exact HG2|apply HS2|apply HS2|exact HX|exact HR|]. rewrite <- HP1. perm.
      + destruct HL2 as (L1 & L2 & L3 & L4). repeat apply conj; auto. intros i Hi.
        etransitivity; [apply (owned_with I_LJOIN p0 t2); intro E; subst i; cbv in Hi; intuition discriminate|]. apply L4. simpl in *; tauto. }
  clear - Hp Hnf so_R1. intros u3 H3 (t3 & HS3 & HL3). destruct (shape_in _ _ _ _ _ _ _ HS3) as [Hi3 _]. go.
  eapply tri_bind with (P := fun _ H' => exists t', shape fl it q R0 R2 t' H' /\ later [11]%nat t').
  { destruct (owned I_FILTER_TIME_PREFILTER t3 =? 0).
    - fin. exists t3. split; [exact HS3|]. destruct HL3 as (L1 & L2 & L3 & L4); repeat apply conj; auto; intros i Hi; apply L4; simpl in *; tauto.
    - eapply tri_post; [eapply shape_filter with (zs' := [11%nat]); [exact HS3|exact HL3|reflexivity| | | |discriminate]; cbv; intuition discriminate|].
      intros u H' (t' & H1 & H2 & _). eauto. }
  clear - Hp Hnf so_R1. intros u4 H4 (t4 & HS4 & HL4). unfold filter_set_if. go.
  eapply tri_bind with (P := fun _ H' => exists t', shape fl it q R0 R2 t' H' /\ later []%nat t').
  { destruct b.
    - eapply tri_post; [eapply shape_filter with (zs' := []); [exact HS4|exact HL4|reflexivity| | | |discriminate]; cbv; intuition discriminate|].
      intros u H' (t' & H1 & H2 & _). eauto.
    - fin. exists t4. split; [exact HS4|]. destruct HL4 as (L1 & L2 & L3 & L4); repeat apply conj; auto; intros i []. }
  clear - Hp Hnf so_R1. intros u5 H5 (t5 & HS5 & L1 & L2 & L3 & _). destruct (shape_in _ _ _ _ _ _ _ HS5) as [Hi5 _]. go.
  eapply tri_bind with (P := fun _ H' => exists t', shape fl it q R0 R2 t' H' /\ t_key t' <> 0 /\ t_armed t' = false).
  { destruct (t_m_iter2 t5 =? 0) eqn:Ez; [|fin; eauto]. destruct HS5 as (F & X & CR & C & HG & HS & HX & HR & HP).
    destruct HG as [K1 K2 T1 T2 S ps r Gq GK1 GK2 GT1 GT2 Go GS Gr Gi].
    rewrite L3 in GT1. destruct GT1 as [[_ ->]|[Hc _]]; [|congruence]. destruct GK1 as [[Hc _]|[_ [dk ->]]]; [congruence|].
    go. eapply tri_bind; [eapply ubuf_read_ok; intros x Hx; rewrite HP; mem|]. intros u H' ->.
    go. eapply tri_bind; [eapply kbuf_read_ok; [exact GK2|]; intros x Hx; rewrite HP; mem|]. intros u' H' ->.
    assert (HF : incl F H5). { intros x Hx. rewrite HP. apply Gi in Hx. apply in_app_or in Hx as [Hx|Hx]; [mem|]. apply HX in Hx. apply in_app_or in Hx as [Hx|Hx]; [mem|]. apply HR in Hx. mem. }
    eapply tri_bind; [eapply source_get_ok; [apply HS|exact HF]|]. intros i H' (T & HT & HP'). cbv beta in HP'. start HP'.
    eapply tri_tree0; [intros _; exact (proj1 HS)|exact HT|inclu|]. intro HT0. eapply tri_perm; [rewrite HP; reflexivity|]. unfold set_iter. simpl app. go. fin. exists (with_m_iter i t5). split; [|auto].
    exists F, X, CR. eexists. repeat apply conj; [apply (G_intro fl it q F X CR (with_m_iter i t5) (ubuf (t_key t5) dk) K2 T T2 S ps r); auto; right; eauto|apply HS|apply HS|exact HX|exact HR|].
    unfold ubuf. simpl app. perm. }
  intros u6 H6 (t6 & (F & X & CR & C & HG & HS & HX & HR & HP) & Hk & Ha). fin. right. split; [exact Hp|]. exists nf, t6, (C ++ R). repeat apply conj; auto.
  - rewrite HP. unfold R2. perm.
  - exists F, X, CR, C. repeat apply conj; auto; apply HS.
Qed.

