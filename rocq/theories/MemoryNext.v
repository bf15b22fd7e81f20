(** * Memory: using the iterators *)
From Coq Require Import Permutation.
From Verif Require Import Base ModelMemory HeapLogic MemoryBasics MemoryIters MemoryQuery MemoryQueryIter.

(** ** dnstable_query_iter *)

Lemma stages_none ks : stages ks (repeat 0 (length ks)) [].
Proof. induction ks as [|k ks IH]; simpl; [constructor|]. change (@nil cell) with (@nil cell ++ []). constructor; [constructor|exact IH]. Qed.

(** What a query must be like to be run. *)
Record runnable (fl : flags) (q : N) (d : query_data) (R : list cell) : Prop := {
  ru_query : In (q, OQuery d) R;
  ru_name : incl (blk (q_name d)) R;
  ru_rdata : incl (blk (q_rdata d)) R;
  ru_bailiwick : incl (blk (q_bailiwick d)) R;
  ru_data : has_data d;
  ru_bw : q_bailiwick d <> 0 -> f_bw fl = true;
  ru_tm : q_do_timeout d || q_do_deadline d = true -> f_tm fl = true
}.
Lemma query_iter_ok fl q s d n R : runnable fl q d R -> In (s, OSource SBase) R ->
  tri (f_rm fl) R (query_iter n q s) (fun p H' => exists it, made fl it q [(s, OSource SBase)] R p H').
Proof.
  intros Hr Hs. unfold query_iter, new_query_iter. go. rename p into it. destruct Hr.
  set (t := {| t_query := q; t_armed := false; t_source := s; t_source_index := s; t_m_iter := 0; t_m_iter2 := 0; t_key := 0; t_key2 := 0; t_owned := repeat 0 13 |}).
  eapply tri_post; [eapply (query_iter_common_ok fl it q [(s, OSource SBase)] [(s, OSource SBase)] [] [(s, OSource SBase)] R d t)|intros p H' Hm; exists it; exact Hm].
  - apply (G_intro fl it q _ _ [] t [] [] [] [] [] (repeat 0 12) 0); try reflexivity; try apply kbuf_0.
    + left. auto.
    + left. auto.
    + apply stages_none.
    + constructor.
    + inclu.
  - split; apply src_base; left; reflexivity.
  - constructor; auto; try apply incl_refl; try reflexivity.
    + intros x [<-|[]]. exact Hs.
    + intros i Hi. simpl in Hi. intuition (subst; reflexivity).
    + intros Hc. exfalso. apply Hc. reflexivity.
  - simpl app. perm.
Qed.

(** ** Running *)

Definition running (fl : flags) (it q : N) (R0 R : list cell) (t : query_iter_data) (H : list cell) : Prop :=
  shape fl it q R0 R t H /\ t_key t <> 0 /\ (f_tm fl = true -> t_armed t = true).

Lemma with_key2_id t : t = with_key2 (t_key2 t) t.
Proof. destruct t; reflexivity. Qed.

Lemma G_ready (it : N) (F X CR : list cell) t K1 K2 T1 T2 S R0 R : incl F (S ++ X) -> incl X (CR ++ R0) -> incl R0 R ->
  incl F (K1 ++ K2 ++ T1 ++ T2 ++ S ++ CR ++ R) /\ incl F (T2 ++ S ++ CR ++ R) /\ incl F (T1 ++ S ++ CR ++ R) /\ incl F ((it, OQueryIter t) :: K1 ++ K2 ++ T2 ++ S ++ CR ++ R).
Proof.
  intros H1 H2 H3. assert (HF : incl F (S ++ CR ++ R)).
  { intros x Hx. apply H1 in Hx. apply in_app_or in Hx as [Hx|Hx]; [mem|]. apply H2 in Hx. apply in_app_or in Hx as [Hx|Hx]; [mem|]. apply H3 in Hx. mem. }
  repeat apply conj; (eapply incl_tran; [exact HF|]); inclu.
Qed.

Lemma run_m_iter fl it q R0 R t H n : query_env fl q R -> running fl it q R0 R t H ->
  tri (f_rm fl) H (iter_next n (t_m_iter t)) (fun _ H' => exists k2, running fl it q R0 R (with_key2 k2 t) H').
Proof.
  intros HE ((F & X & CR & C & HG & HS & HX & HR & HP) & Hk & Ha). destruct HG as [K1 K2 T1 T2 S ps r Gq GK1 GK2 GT1 GT2 Go GS Gr Gi].
  destruct GK1 as [[Hc _]|[_ [dk ->]]]; [congruence|].
  destruct (G_ready it F X CR t (ubuf (t_key t) dk) K2 T1 T2 S R0 R Gi HX HR) as (_ & HF & _ & _).
  apply tri_tail. destruct (tree0_tree _ _ _ _ _ GT1) as (sT & HsT & HtT). eapply tri_bind; [eapply (proj1 (next_all fl F it t dk n) sT (t_m_iter t) T1 ((it, OQueryIter t) :: ubuf (t_key t) dk ++ K2) (T2 ++ S ++ CR ++ R))|].
  - exact HtT.
  - exists (t_key2 t), K2. split; [exact GK2|]. rewrite <- with_key2_id. reflexivity.
  - repeat apply conj; [exact HF| |exact Ha]. rewrite Gq. eapply query_env_mono; [|exact HE]. inclu.
  - rewrite HP. unfold ubuf. simpl app. perm.
  - intros x H' (T' & K' & HT' & (k2 & C2 & HC2 & ->) & HP'). cbv beta in HP'. start HP'. eapply tri_tree0; [exact HsT|exact HT'|inclu|]. intro HT0. fin. exists k2. split; [|auto].
    exists F, X, CR. eexists. repeat apply conj; [apply (G_intro fl it q F X CR (with_key2 k2 t) (ubuf (t_key t) dk) C2 T' T2 S ps r); auto; right; eauto|apply HS|apply HS|exact HX|exact HR|].
    unfold ubuf. simpl app. perm.
Qed.
Lemma run_m_iter2 fl it q R0 R t H n : query_env fl q R -> running fl it q R0 R t H ->
  tri (f_rm fl) H (iter_next n (t_m_iter2 t)) (fun _ H' => exists k2, running fl it q R0 R (with_key2 k2 t) H').
Proof.
  intros HE ((F & X & CR & C & HG & HS & HX & HR & HP) & Hk & Ha). destruct HG as [K1 K2 T1 T2 S ps r Gq GK1 GK2 GT1 GT2 Go GS Gr Gi].
  destruct GK1 as [[Hc _]|[_ [dk ->]]]; [congruence|].
  destruct (G_ready it F X CR t (ubuf (t_key t) dk) K2 T1 T2 S R0 R Gi HX HR) as (_ & _ & HF & _).
  apply tri_tail. destruct (tree0_tree _ _ _ _ _ GT2) as (sT & HsT & HtT). eapply tri_bind; [eapply (proj1 (next_all fl F it t dk n) sT (t_m_iter2 t) T2 ((it, OQueryIter t) :: ubuf (t_key t) dk ++ K2) (T1 ++ S ++ CR ++ R))|].
  - exact HtT.
  - exists (t_key2 t), K2. split; [exact GK2|]. rewrite <- with_key2_id. reflexivity.
  - repeat apply conj; [exact HF| |exact Ha]. rewrite Gq. eapply query_env_mono; [|exact HE]. inclu.
  - rewrite HP. unfold ubuf. simpl app. perm.
  - intros x H' (T' & K' & HT' & (k2 & C2 & HC2 & ->) & HP'). cbv beta in HP'. start HP'. eapply tri_tree0; [exact HsT|exact HT'|inclu|]. intro HT0. fin. exists k2. split; [|auto].
    exists F, X, CR. eexists. repeat apply conj; [apply (G_intro fl it q F X CR (with_key2 k2 t) (ubuf (t_key t) dk) C2 T1 T' S ps r); auto; right; eauto|apply HS|apply HS|exact HX|exact HR|].
    unfold ubuf. simpl app. perm.
Qed.
Lemma run_write_key2 fl it q R0 R t H : running fl it q R0 R t H ->
  tri (f_rm fl) H (write_key2 it) (fun _ H' => exists k2, k2 <> 0 /\ running fl it q R0 R (with_key2 k2 t) H').
Proof.
  intros ((F & X & CR & C & HG & HS & HX & HR & HP) & Hk & Ha). destruct HG as [K1 K2 T1 T2 S ps r Gq GK1 GK2 GT1 GT2 Go GS Gr Gi].
  destruct GK1 as [[Hc _]|[_ [dk ->]]]; [congruence|].
  eapply tri_post; [apply (write_key2_ok _ it t dk ((it, OQueryIter t) :: ubuf (t_key t) dk ++ K2) _ (T1 ++ T2 ++ S ++ CR ++ R))|].
  - exists (t_key2 t), K2. split; [exact GK2|]. rewrite <- with_key2_id. reflexivity.
  - rewrite HP. unfold ubuf. simpl app. perm.
  - intros u H' (K' & _ & HP' & k2 & d & Hz & ->). exists k2. split; [exact Hz|]. split; [|auto].
    exists F, X, CR. eexists. repeat apply conj; [apply (G_intro fl it q F X CR (with_key2 k2 t) (ubuf (t_key t) dk) (ubuf k2 d) T1 T2 S ps r); auto; right; eauto|apply HS|apply HS|exact HX|exact HR|].
    rewrite HP'. unfold ubuf. simpl app. perm.
Qed.
Lemma run_read_key2 fl it q R0 R t H : t_key2 t <> 0 -> running fl it q R0 R t H -> tri (f_rm fl) H (ubuf_read (t_key2 t)) (fun _ H' => H' = H).
Proof.
  intros Hz ((F & X & CR & C & HG & HS & HX & HR & HP) & Hk & Ha). destruct HG as [K1 K2 T1 T2 S ps r Gq GK1 GK2 GT1 GT2 Go GS Gr Gi].
  destruct GK2 as [[Hc _]|[_ [dk ->]]]; [congruence|]. apply (ubuf_read_ok _ _ dk). intros x Hx. rewrite HP. mem.
Qed.
Lemma run_in fl it q R0 R t H : running fl it q R0 R t H -> In (it, OQueryIter t) H /\ incl R H.
Proof. intros [HS _]. eapply shape_in, HS. Qed.
(** A new iterator in place of none. *)
Lemma run_source_get {A} fl it q R0 R t H n (k : N -> M A) Q : running fl it q R0 R t H -> t_m_iter t = 0 ->
  (forall i H', running fl it q R0 R (with_m_iter i t) H' -> tri (f_rm fl) H' (k i) Q) ->
  tri (f_rm fl) H (let! i := source_get n (t_source t) in set_iter it (with_m_iter i) ;; k i) Q.
Proof.
  intros ((F & X & CR & C & HG & HS & HX & HR & HP) & Hk & Ha) Hz Hc. destruct HG as [K1 K2 T1 T2 S ps r Gq GK1 GK2 GT1 GT2 Go GS Gr Gi].
  rewrite Hz in GT1. destruct GT1 as [[_ ->]|[Hn _]]; [|congruence].
  destruct (G_ready it F X CR t K1 K2 [] T2 S R0 R Gi HX HR) as (_ & _ & _ & HF). start HP. simpl app.
  eapply tri_bind; [eapply source_get_ok; [apply HS|eapply incl_tran; [exact HF|inclu]]|]. intros i H' (T & HT & HP'). cbv beta in HP'. start HP'.
  eapply tri_tree0; [intros _; exact (proj1 HS)|exact HT|inclu|]. intro HT0. unfold set_iter. go. apply Hc. split; [|auto].
  exists F, X, CR. eexists. repeat apply conj; [apply (G_intro fl it q F X CR (with_m_iter i t) K1 K2 T T2 S ps r); auto|apply HS|apply HS|exact HX|exact HR|].
  simpl app. perm.
Qed.
Lemma run_iter_destroy {A} fl it q R0 R t H n (k : M A) Q : running fl it q R0 R t H ->
  (forall H', running fl it q R0 R (with_m_iter 0 t) H' -> tri (f_rm fl) H' k Q) ->
  tri (f_rm fl) H (iter_destroy n (t_m_iter t) ;; set_iter it (with_m_iter 0) ;; k) Q.
Proof.
  intros ((F & X & CR & C & HG & HS & HX & HR & HP) & Hk & Ha) Hc. destruct HG as [K1 K2 T1 T2 S ps r Gq GK1 GK2 GT1 GT2 Go GS Gr Gi].
  destruct (G_ready it F X CR t K1 K2 T1 T2 S R0 R Gi HX HR) as (_ & _ & _ & HF).
  destruct (tree0_tree _ _ _ _ _ GT1) as (sT & HsT & HtT). eapply tri_bind; [apply (iter_destroy_ok fl F it n sT (t_m_iter t) T1 _ ((it, OQueryIter t) :: K1 ++ K2 ++ T2 ++ S ++ CR ++ R)); [exact HtT|exact HF|rewrite HP; perm]|].
  intros u H' HP'. start HP'. unfold set_iter. go. apply Hc. split; [|auto].
  exists F, X, CR. eexists. repeat apply conj; [apply (G_intro fl it q F X CR (with_m_iter 0 t) K1 K2 [] T2 S ps r); auto; left; auto|apply HS|apply HS|exact HX|exact HR|].
  simpl app. perm.
Qed.

(** After a step: the entry [E], if there is one, and the iterator. *)
Definition stepped (fl : flags) (it q : N) (R0 R : list cell) (r : step * N) (H' : list cell) : Prop :=
  exists E t' H1, Permutation H' (E ++ H1) /\ running fl it q R0 R t' H1 /\
    ((fst r = Got /\ snd r <> 0 /\ exists k, entry (snd r) k E) \/ (fst r <> Got /\ E = [])).

Lemma running_perm fl it q R0 R t H H' : Permutation H H' -> running fl it q R0 R t H -> running fl it q R0 R t H'.
Proof. intros HP ((F & X & CR & C & HG & HS & HX & HR & HP') & Hk). split; [|exact Hk]. exists F, X, CR, C. repeat apply conj; auto; try apply HS. rewrite <- HP. exact HP'. Qed.

Lemma next_loop_ok fl it q R0 R n : query_env fl q R -> forall t H, running fl it q R0 R t H -> tri (f_rm fl) H (next_loop n it) (stepped fl it q R0 R).
Proof.
  intro HE. induction n as [|n IH]; intros t H Hr; [apply tri_hang|]. simpl. destruct (run_in _ _ _ _ _ _ _ Hr) as [Hi _]. go.
  eapply tri_bind; [eapply run_m_iter; eassumption|]. intros x H1 (k2 & Hr1). destruct x.
  - eapply tri_bind; [apply entry_decode_ok|]. intros e H2 [(-> & HP2)|(Hz & k & C & HC & HP2)].
    + simpl. eapply IH. eapply running_perm; [symmetry; exact HP2|exact Hr1].
    + rewrite (proj2 (N.eqb_neq e 0) Hz). fin. exists C, (with_key2 k2 t), H1. repeat apply conj; [exact HP2|apply Hr1|apply Hr1|apply Hr1|]. left. simpl. eauto.
  - fin. exists [], (with_key2 k2 t), H1. repeat apply conj; [reflexivity|apply Hr1|apply Hr1|apply Hr1|]. right. split; [discriminate|reflexivity].
  - fin. exists [], (with_key2 k2 t), H1. repeat apply conj; [reflexivity|apply Hr1|apply Hr1|apply Hr1|]. right. split; [discriminate|reflexivity].
Qed.

Lemma indirect_loop_ok fl it q R0 R n : query_env fl q R -> forall t H, running fl it q R0 R t H -> tri (f_rm fl) H (indirect_loop n it) (stepped fl it q R0 R).
Proof.
  intro HE. induction n as [|n IH]; intros t H Hr; [apply tri_hang|]. simpl. destruct (run_in _ _ _ _ _ _ _ Hr) as [Hi HRH]. go.
  eapply tri_bind with (P := fun x H' => exists t', running fl it q R0 R t' H').
  { destruct (t_m_iter t =? 0) eqn:Ez; [|fin; eauto]. apply N.eqb_eq in Ez.
    eapply tri_bind; [eapply run_m_iter2; eassumption|]. intros x H1 (k2 & Hr1). destruct x; [|fin; eauto|fin; eauto].
    destruct (run_in _ _ _ _ _ _ _ Hr1) as [Hi1 HR1]. destruct HE as (d & Hd & Hd1 & Hd2).
    eapply tri_bind with (P := fun _ H' => H' = H1).
    { unfold query_of. go. assert (Eq : t_query (with_key2 k2 t) = q) by (destruct Hr1 as ((F & X & CR & C & HG & _) & _); eapply G_query, HG).
      rewrite Eq. go. fin. reflexivity. }
    intros u H' ->. go. destruct b; [|fin; eauto].
    eapply tri_bind; [eapply run_write_key2; eassumption|]. intros u1 H2 (k3 & Hk3 & Hr2). go. destruct b; [|fin; eauto].
    eapply tri_bind; [eapply run_write_key2; eassumption|]. intros u2 H3 (k4 & Hk4 & Hr3).
    destruct (run_in _ _ _ _ _ _ _ Hr3) as [Hi3 _]. go. eapply tri_bind; [eapply run_read_key2; [|eassumption]; exact Hk4|]. intros u3 H' ->.
    eapply run_source_get; [eassumption|exact Ez|]. intros i H4 Hr4. fin. eauto. }
  intros x H1 (t1 & Hr1). assert (Hend : forall y, y <> Got -> stepped fl it q R0 R (y, 0) H1).
  { intros y Hy. exists [], t1, H1. split; [reflexivity|]. split; [exact Hr1|]. right. auto. }
  destruct x as [[| |]|]; [|fin; apply Hend; discriminate|fin; apply Hend; discriminate|eapply IH; eassumption]. clear Hend.
  destruct (run_in _ _ _ _ _ _ _ Hr1) as [Hi1 _]. go.
  eapply tri_bind; [eapply run_m_iter; eassumption|]. intros y H2 (k2 & Hr2). destruct y.
  - eapply tri_bind; [apply entry_decode_ok|]. intros e H3 [(-> & HP2)|(Hz & k & C & HC & HP2)].
    + simpl. eapply IH. eapply running_perm; [symmetry; exact HP2|exact Hr2].
    + rewrite (proj2 (N.eqb_neq e 0) Hz). fin. exists C, (with_key2 k2 t1), H2. split; [exact HP2|]. split; [exact Hr2|]. left. simpl. eauto.
  - apply (run_iter_destroy fl it q R0 R (with_key2 k2 t1) H2); [exact Hr2|]. intros H3 Hr3. eapply IH; eassumption.
  - fin. exists [], (with_key2 k2 t1), H2. split; [reflexivity|]. split; [exact Hr2|]. right. split; [discriminate|reflexivity].
Qed.

(** ** The iterators of iter.c *)

(** An iterator of the query [q], with its blocks; it uses the blocks in [R0], too. *)
Inductive iterator (fl : flags) (R0 : list cell) (q p : N) : list cell -> Prop :=
| iterator_intro nf it t F X CR C :
    nf <> NextReader -> t_key t <> 0 -> t_armed t = false -> G fl it q F X CR t C -> sources fl F it t -> incl X (CR ++ R0) ->
    iterator fl R0 q p ((p, OIterator nf it) :: C).
(** An iterator over the whole of the source [s]. *)
Inductive whole (s p : N) : list cell -> Prop :=
| whole_intro it m T : simple [(s, OSource SBase)] m T -> whole s p ((p, OIterator NextReader it) :: (it, OReaderIter m) :: T).

Lemma made_iterator fl it q R0 R p H : made fl it q R0 R p H -> (p = 0 /\ Permutation H R) \/ (p <> 0 /\ exists C, iterator fl R0 q p C /\ Permutation H (C ++ R)).
Proof.
  intros [Hm|(Hp & nf & t & H1 & Hnf & Hk & Ha & HP & F & X & CR & C & HG & HS & HX & HR & HP1)]; [left; exact Hm|right]. split; [exact Hp|].
  exists ((p, OIterator nf it) :: C). split; [eapply iterator_intro; eassumption|]. rewrite HP, HP1. perm.
Qed.

(** What an iterator needs of its query while it is used. *)
Record usable (fl : flags) (q : N) (d : query_data) (R : list cell) : Prop := {
  us_query : In (q, OQuery d) R;
  us_bailiwick : incl (blk (q_bailiwick d)) R;
  us_bw : f_bw fl = true -> good_bailiwick d = true;
  us_tm : f_tm fl = true -> q_do_timeout d || q_do_deadline d = true
}.
Lemma usable_mono fl q d R R' : incl R R' -> usable fl q d R -> usable fl q d R'.
Proof. intros Hi []. constructor; auto. eapply incl_tran; eassumption. Qed.

Definition nexted (R : list cell) (rep : list cell -> Prop) (r : step * N) (H' : list cell) : Prop :=
  exists C', rep C' /\ ((fst r = Got /\ snd r <> 0 /\ exists k E, entry (snd r) k E /\ Permutation H' (E ++ C' ++ R)) \/ (fst r <> Got /\ Permutation H' (C' ++ R))).

Lemma query_next_ok fl R0 q d p C R H (loop : N -> M (step * N)) nf it t F X CR :
  usable fl q d R -> incl R0 R -> nf <> NextReader ->
  t_key t <> 0 -> t_armed t = false -> G fl it q F X CR t C -> sources fl F it t -> incl X (CR ++ R0) ->
  (forall R t H, query_env fl q R -> running fl it q R0 R t H -> tri (f_rm fl) H (loop it) (stepped fl it q R0 R)) ->
  Permutation H ((p, OIterator nf it) :: C ++ R) ->
  tri (f_rm fl) H (arm it ;; let! r := loop it in set_iter it (with_armed false) ;; ret r) (nexted R (iterator fl R0 q p)).
Proof.
  intros HU HR Hnf Hk Ha HG HS HX Hloop HP. destruct HU. set (R2 := (p, OIterator nf it) :: R).
  assert (HP2 : Permutation H (C ++ R2)) by (rewrite HP; unfold R2; perm). assert (HR2 : incl R0 R2) by (eapply incl_tran; [exact HR|unfold R2; inclu]).
  assert (HE : query_env fl q R2). { exists d. repeat apply conj; [unfold R2; mem|eapply incl_tran; [eassumption|unfold R2; inclu]|exact us_bw0]. }
  eapply tri_bind with (P := fun _ H' => exists t', running fl it q R0 R2 t' H').
  { destruct HG as [K1 K2 T1 T2 S ps r Gq GK1 GK2 GT1 GT2 Go GS Gr Gi]. start HP2. simpl app. unfold arm, query_of. go.
    rewrite Gq. unfold R2. go. destruct (q_do_timeout d || q_do_deadline d) eqn:E.
    - unfold set_iter. go. fin. exists (with_armed true t). split; [|auto]. exists F, X, CR. eexists.
      repeat apply conj; [apply (G_intro fl it q F X CR (with_armed true t) K1 K2 T1 T2 S ps r); auto|apply HS|apply HS|exact HX|exact HR2|]. perm.
    - fin. exists t. split; [|split; [exact Hk|]; intro Hc; specialize (us_tm0 Hc); congruence]. exists F, X, CR. eexists.
      repeat apply conj; [apply (G_intro fl it q F X CR t K1 K2 T1 T2 S ps r); auto|apply HS|apply HS|exact HX|exact HR2|]. perm. }
  intros u1 H1 (t1 & Hr1). eapply tri_bind; [eapply Hloop; eassumption|].
  intros r H2 (E & t2 & H3 & HP3 & ((F2 & X2 & CR2 & C2 & HG2 & HS2 & HX2 & _ & HP4) & Hk2 & Ha2) & Hres).
  destruct HG2 as [K1 K2 T1 T2 S ps x Gq GK1 GK2 GT1 GT2 Go GS Gr Gi].
  assert (HP5 : Permutation H2 ((it, OQueryIter t2) :: E ++ K1 ++ K2 ++ T1 ++ T2 ++ S ++ CR2 ++ (p, OIterator nf it) :: R)) by (rewrite HP3, HP4; unfold R2; perm).
  start HP5. unfold set_iter. go. fin.
  eexists. split.
  - eapply iterator_intro with (nf := nf) (t := with_armed false t2); [exact Hnf|exact Hk2|reflexivity|apply (G_intro fl it q F2 X2 CR2 (with_armed false t2) K1 K2 T1 T2 S ps x); auto|exact HS2|exact HX2].
  - destruct Hres as [(Hg & Hz & k & HC)|(Hg & ->)]; [left|right]; (split; [exact Hg|]).
    + split; [exact Hz|]. exists k, E. split; [exact HC|]. unfold R2. perm.
    + unfold R2. perm.
Qed.
Lemma iterator_next_ok fl R0 q d p C R H n : usable fl q d R -> incl R0 R -> iterator fl R0 q p C -> Permutation H (C ++ R) ->
  tri (f_rm fl) H (iterator_next n p) (nexted R (iterator fl R0 q p)).
Proof.
  intros HU HR HI HP. destruct HI as [nf it t F X CR C Hnf Hk Ha HG HS HX]. simpl app in HP. start HP. eapply tri_nz; [left; reflexivity|]. intro Hz.
  unfold iterator_next. rewrite (proj2 (N.eqb_neq p 0) Hz). go. destruct nf; [| |congruence].
  - unfold query_iter_next. eapply (query_next_ok fl R0 q d p C R _ (next_loop n)); try eassumption; [intros; eapply next_loop_ok; eassumption|reflexivity].
  - unfold query_iter_next_indirect. eapply (query_next_ok fl R0 q d p C R _ (indirect_loop n)); try eassumption; [intros; eapply indirect_loop_ok; eassumption|reflexivity].
Qed.
Lemma iterator_destroy_ok fl R0 q p C R H n : incl R0 R -> iterator fl R0 q p C -> Permutation H (C ++ R) ->
  tri (f_rm fl) H (iterator_destroy n p) (fun _ H' => Permutation H' R).
Proof.
  intros HR HI HP. destruct HI as [nf it t F X CR C Hnf Hk Ha HG HS HX]. simpl app in HP. start HP. eapply tri_nz; [left; reflexivity|]. intro Hz.
  unfold iterator_destroy. rewrite (proj2 (N.eqb_neq p 0) Hz). go.
  eapply tri_bind with (P := fun _ H' => Permutation H' ((p, OIterator nf it) :: R)).
  - assert (Hf : tri (f_rm fl) ((p, OIterator nf it) :: C ++ R) (query_iter_free n it) (fun _ H' => Permutation H' ((p, OIterator nf it) :: R))).
    { eapply query_iter_free_ok; [exact HG| |perm]. apply (incl_tran HX). apply incl_app; [inclu|]. apply (incl_tran HR). inclu. }
    destruct nf; [exact Hf|exact Hf|congruence].
  - intros u H' HP'. start HP'. go. fin. reflexivity.
Qed.
Lemma G_block fl it q F X CR t C i : G fl it q F X CR t C -> owned i t <> 0 -> exists o, In (owned i t, o) C.
Proof.
  intros HG Ez. destruct (nth_error kinds i) as [k|] eqn:Ek.
  - destruct (G_owned _ _ _ _ _ _ _ _ _ _ _ HG Ek eq_refl Ez) as (Cp & HCp & Hin & _). inversion HCp; subst; try congruence.
    all: eexists; apply Hin; left; reflexivity.
  - destruct HG as [K1 K2 T1 T2 S ps r Gq GK1 GK2 GT1 GT2 Go GS Gr Gi]. unfold owned in *. rewrite Go in *.
    assert (El : length ps = 12%nat) by (rewrite (stages_length _ _ _ GS); reflexivity).
    apply nth_error_None in Ek. simpl length in Ek. rewrite app_nth2 in * by lia. rewrite El in *.
    destruct (i - 12)%nat as [|[|]] eqn:Ex; simpl nth in *; [|congruence|congruence].
    inversion Gr; subst; [congruence|]. eexists. right. rewrite !in_app_iff. do 5 right. left. reflexivity.
Qed.
Lemma iterator_get_count_ok fl R0 q p C H : iterator fl R0 q p C -> incl C H -> tri (f_rm fl) H (iterator_get_count p) (fun _ H' => H' = H).
Proof.
  intros HI Hi. destruct HI as [nf it t F X CR C Hnf Hk Ha HG HS HX]. assert (Hp : In (p, OIterator nf it) H) by (apply Hi; mem).
  eapply tri_nz; [exact Hp|]. intro Hz. unfold iterator_get_count. rewrite (proj2 (N.eqb_neq p 0) Hz). go.
  assert (Hq : tri (f_rm fl) H (let! t := as_query_iter it in let! c := pick in
     if owned (N.to_nat c) t =? 0 then ret tt else let! _ := load (owned (N.to_nat c) t) in ret tt) (fun _ H' => H' = H)).
  { destruct (G_head _ _ _ _ _ _ _ _ HG) as (C0 & ->). assert (Hit : In (it, OQueryIter t) H) by (apply Hi; mem). go.
    destruct (owned (N.to_nat x) t =? 0) eqn:Ez; [fin; reflexivity|]. apply N.eqb_neq in Ez.
    destruct (G_block _ _ _ _ _ _ _ _ _ HG Ez) as [o Ho]. assert (Ho' : In (owned (N.to_nat x) t, o) H) by (apply Hi; right; exact Ho). go. fin. reflexivity. }
  destruct nf; [exact Hq|exact Hq|congruence].
Qed.

(** ** reader.c *)

Lemma reader_next_loop_ok rm s it m T n : simple [(s, OSource SBase)] m T -> forall H R, In (s, OSource SBase) R -> Permutation H ((it, OReaderIter m) :: T ++ R) ->
  tri rm H (reader_next_loop n it) (fun r H' => exists E, Permutation H' (E ++ (it, OReaderIter m) :: T ++ R) /\
    ((fst r = Got /\ snd r <> 0 /\ exists k, entry (snd r) k E) \/ (fst r <> Got /\ E = []))).
Proof.
  intro HT. induction n as [|n IH]; intros H R Hs HP; [apply tri_hang|]. simpl. start HP. go.
  eapply tri_bind; [eapply (simple_next_ok _ [(s, OSource SBase)] n m T); [exact HT| |]|].
  - intros x [<-|[]]. mem.
  - inclu.
  - intros x H' ->. destruct x.
    + eapply tri_bind; [apply entry_decode_ok|]. intros e H2 [(-> & HP2)|(Hz & k & C & HC & HP2)].
      * simpl. apply IH; [exact Hs|]. rewrite HP2. perm.
      * rewrite (proj2 (N.eqb_neq e 0) Hz). fin. exists C. split; [exact HP2|]. left. simpl. eauto.
    + fin. exists []. split; [reflexivity|]. right. split; [discriminate|reflexivity].
    + fin. exists []. split; [reflexivity|]. right. split; [discriminate|reflexivity].
Qed.
Lemma whole_next_ok rm s p C R H n : In (s, OSource SBase) R -> whole s p C -> Permutation H (C ++ R) -> tri rm H (iterator_next n p) (nexted R (whole s p)).
Proof.
  intros Hs HI HP. destruct HI as [it m T HT]. simpl app in HP. start HP. eapply tri_nz; [left; reflexivity|]. intro Hz.
  unfold iterator_next. rewrite (proj2 (N.eqb_neq p 0) Hz). go.
  eapply tri_post; [eapply (reader_next_loop_ok rm s it m T n HT _ ((p, OIterator NextReader it) :: R)); [mem|perm]|].
  intros r H' (E & HP' & Hr). exists ((p, OIterator NextReader it) :: (it, OReaderIter m) :: T). split; [constructor; exact HT|].
  destruct Hr as [(Hg & Hz' & k & HE)|(Hg & ->)]; [left|right]; (split; [exact Hg|]).
  - split; [exact Hz'|]. exists k, E. split; [exact HE|]. rewrite HP'. perm.
  - rewrite HP'. perm.
Qed.
Lemma whole_destroy_ok rm s p C R H n : In (s, OSource SBase) R -> whole s p C -> Permutation H (C ++ R) -> tri rm H (iterator_destroy n p) (fun _ H' => Permutation H' R).
Proof.
  intros Hs HI HP. destruct HI as [it m T HT]. simpl app in HP. start HP. eapply tri_nz; [left; reflexivity|]. intro Hz.
  unfold iterator_destroy, reader_iter_free. rewrite (proj2 (N.eqb_neq p 0) Hz). go.
  eapply tri_bind; [eapply (simple_destroy_ok rm [(s, OSource SBase)] n m T _ ((p, OIterator NextReader it) :: (it, OReaderIter m) :: R)); [exact HT| |perm]|].
  { intros x [<-|[]]. mem. }
  intros u H' HP'. start HP'. go. fin. reflexivity.
Qed.
Lemma whole_get_count_ok rm s p C H : whole s p C -> incl C H -> tri rm H (iterator_get_count p) (fun _ H' => H' = H).
Proof.
  intros HI Hi. destruct HI as [it m T HT]. assert (Hp : In (p, OIterator NextReader it) H) by (apply Hi; mem).
  eapply tri_nz; [exact Hp|]. intro Hz. unfold iterator_get_count. rewrite (proj2 (N.eqb_neq p 0) Hz). go. fin. reflexivity.
Qed.
Lemma reader_iter_ok rm r s f n H : In (r, OReader s f) H -> In (s, OSource SBase) H ->
  tri rm H (reader_iter n r) (fun p H' => p <> 0 /\ exists C, whole s p C /\ Permutation H' (C ++ H)).
Proof.
  intros Hr Hs. unfold reader_iter. go. eapply tri_bind; [apply (source_get_base {| f_rm := rm; f_tm := false; f_bw := false |} n s); mem|].
  intros m H' (C & HP & HC). cbv beta in HP. start HP. unfold iter_init. go. fin. split; [assumption|]. exists ((p0, OIterator NextReader p) :: (p, OReaderIter m) :: C). split; [apply whole_intro|].
  - destruct HC as [[-> ->]|[Hz ->]]; [left; auto|right; exists s; simpl; auto].
  - perm.
Qed.

(** ** dnstable_query_iter_fileset *)

(** The stage that removes keys before it has an upstream: none, or one with the sources [l]. *)
Definition removal (fl : flags) (r : N) (CR : list cell) (l : list N) : Prop :=
  (r = 0 /\ CR = [] /\ l = []) \/
  (r <> 0 /\ f_rm fl = true /\ exists s v dv, CR = (r, ORemove 0 s v) :: (s, OSource (SRemove r)) :: vec v dv l).

Lemma reader_time_filter_ok fl it q d t CR l s R H n :
  t_query t = q -> In (q, OQuery d) R -> In (s, OSource SBase) R -> removal fl (owned I_REMOVE_STRICT t) CR l ->
  (owned I_FILL_MERGER t <> 0 -> exists sm, In (owned I_FILL_MERGER t, OMerger sm) R) ->
  Permutation H ((it, OQueryIter t) :: CR ++ R) ->
  tri (f_rm fl) H (reader_time_filter n it s) (fun _ H' => exists CR' l', removal fl (owned I_REMOVE_STRICT t) CR' l' /\
    (forall x, In x l' -> In x l \/ x = s) /\ Permutation H' ((it, OQueryIter t) :: CR' ++ R)).
Proof.
  intros Hq Hqd Hs Hrm Hm HP. unfold reader_time_filter.
  set (R1 := (it, OQueryIter t) :: CR ++ R). start HP. change ((it, OQueryIter t) :: CR ++ R) with R1. assert (HsR : In (s, OSource SBase) R1) by (unfold R1; mem).
  eapply tri_bind; [apply query_init_ok|]. intros trq H1 (dq & HP1 & Hdq). start HP1.
  set (fl2 := {| f_rm := f_rm fl; f_tm := false; f_bw := false |}). set (Rq := query_cells trq dq ++ R1).
  assert (Hdat : In (trq, OQuery dq) Rq) by (left; reflexivity).
  eapply tri_bind; [apply (query_iter_ok fl2 trq s dq n Rq)|].
  { subst dq. constructor; unfold has_data; simpl; auto; try discriminate; try congruence; try (intros x []). }
  { unfold Rq. mem. }
  intros p H2 (it2 & Hmade). apply made_iterator in Hmade.
  assert (HC2 : exists C2, ((p = 0 /\ C2 = []) \/ (p <> 0 /\ iterator fl2 [(s, OSource SBase)] trq p C2)) /\ Permutation H2 (C2 ++ Rq)).
  { destruct Hmade as [(-> & HP2)|(Hp & C2 & HC2 & HP2)]; [exists []|exists C2]; split; auto. }
  clear Hmade. destruct HC2 as (C2 & HC2 & HP2).
  eapply tri_bind with (P := fun x H' => exists C3 E, ((p = 0 /\ C3 = []) \/ (p <> 0 /\ iterator fl2 [(s, OSource SBase)] trq p C3)) /\
     ((match fst x with Got => snd x | _ => 0 end = 0 /\ E = []) \/ (match fst x with Got => snd x | _ => 0 end <> 0 /\ exists k, entry (match fst x with Got => snd x | _ => 0 end) k E)) /\
     Permutation H' (E ++ C3 ++ Rq)).
  { destruct HC2 as [[-> ->]|[Hp HC2]].
    - fin. exists [], []. simpl. auto.
    - eapply tri_post; [apply (iterator_next_ok fl2 [(s, OSource SBase)] trq dq p C2 Rq H2 n)|].
      + subst dq. constructor; simpl; auto; try discriminate; try (intros x []).
      + intros x [<-|[]]. unfold Rq. mem.
      + exact HC2.
      + exact HP2.
      + intros [r e] H3 (C3 & HC3 & [(Hg & Hz & k & E & HE & HP3)|(Hg & HP3)]); simpl in *.
        * subst r. exists C3, E. repeat apply conj; eauto.
        * exists C3, []. repeat apply conj; auto. left. split; [|reflexivity]. destruct r; congruence. }
  clear HC2 HP2 C2 H2. intros [r e] H3 (C3 & E & HC3 & HE & HP3). simpl fst in HE. simpl snd in HE. cbv zeta.
  set (e' := match r with Got => e | _ => 0 end) in *.
  eapply tri_bind with (P := fun _ H' => H' = H3).
  { destruct HE as [[-> ->]|[Hz [k HE]]]; [fin; reflexivity|]. rewrite (proj2 (N.eqb_neq _ 0) Hz). eapply entry_read_ok; [exact HE|]. intros x Hx. rewrite HP3. mem. }
  intros u H' ->. eapply tri_bind with (P := fun _ H' => Permutation H' (C3 ++ Rq)).
  { destruct HE as [[-> ->]|[Hz [k HE]]]; [fin; exact HP3|]. eapply entry_destroy_ok; [exact HE|exact HP3]. }
  intros u2 H4 HP4. eapply tri_bind with (P := fun _ H' => Permutation H' Rq).
  { destruct HC3 as [[-> ->]|[Hp HC3]]; [fin; exact HP4|]. apply (iterator_destroy_ok fl2 [(s, OSource SBase)] trq p C3 Rq H4 n); [|exact HC3|exact HP4]. intros x [<-|[]]. unfold Rq. mem. }
  intros u3 H5 HP5. eapply tri_bind; [apply (query_destroy_ok _ trq dq _ R1); exact HP5|]. intros u4 H6 HP6.
  start HP6. unfold R1. unfold query_of. go. rewrite Hq. go. clear - Hrm Hm Hs.
  assert (Hkeep : exists CR' l', removal fl (owned I_REMOVE_STRICT t) CR' l' /\ (forall x, In x l' -> In x l \/ x = s) /\
     Permutation ((it, OQueryIter t) :: CR ++ R) ((it, OQueryIter t) :: CR' ++ R)) by (exists CR, l; auto).
  destruct (x =? 1); [|destruct (x =? 2)].
  - destruct (owned I_FILL_MERGER t =? 0) eqn:Ez; [fin; exact Hkeep|]. apply N.eqb_neq in Ez. destruct (Hm Ez) as (sm & Hsm). go. fin. exact Hkeep.
  - destruct (owned I_REMOVE_STRICT t =? 0) eqn:Ez; [fin; exact Hkeep|]. clear Hkeep. apply N.eqb_neq in Ez. destruct Hrm as [[Hc _]|(_ & Hfl & sr & v & dv & ->)]; [congruence|].
    unfold remove_mtbl_add_source. simpl app. go.
    eapply tri_post; [apply (vec_add_ok _ v dv l s _ ((it, OQueryIter t) :: (owned I_REMOVE_STRICT t, ORemove 0 sr v) :: (sr, OSource (SRemove (owned I_REMOVE_STRICT t))) :: R)); unfold vec; simpl app; perm|].
    intros u H' (d' & HP'). eexists. exists (l ++ [s]). split; [right; split; [exact Ez|split; [exact Hfl|exists sr, v, d'; reflexivity]]|]. split.
    + intros y Hy. apply in_app_or in Hy as [Hy|[<-|[]]]; auto.
    + rewrite HP'. unfold vec. simpl app. perm.
  - fin. exact Hkeep.
Qed.

Lemma open_files_ok rm n : forall H, tri rm H (open_files n) (fun l H' => Permutation H' (base_cells l ++ H)).
Proof.
  induction n as [|n IH]; intro H; simpl; [fin; reflexivity|]. go. eapply tri_bind; [apply IH|]. intros l H' HP. fin. rewrite HP. simpl. perm.
Qed.
Lemma fileset_init_ok rm n H : tri rm H (fileset_init n) (fun p H' => p <> 0 /\ exists s l, Permutation H' ((p, OFileset s l) :: (s, OSource SBase) :: base_cells l ++ H)).
Proof.
  unfold fileset_init. eapply tri_bind; [apply open_files_ok|]. intros l H1 HP. go. fin. split; [assumption|]. exists p, l. rewrite HP. perm.
Qed.
Lemma base_in x l : In x l -> In (x, OSource SBase) (base_cells l).
Proof. intro Hx. unfold base_cells. apply in_map_iff. eauto. Qed.

Lemma fileset_dup_ok fl it q d t CR l R H n :
  t_query t = q -> In (q, OQuery d) R -> removal fl (owned I_REMOVE_STRICT t) CR l ->
  (owned I_FILL_MERGER t <> 0 -> exists sm, In (owned I_FILL_MERGER t, OMerger sm) R) ->
  Permutation H ((it, OQueryIter t) :: CR ++ R) ->
  tri (f_rm fl) H (fileset_dup n it) (fun p H' => p <> 0 /\ exists s lf CR' l', removal fl (owned I_REMOVE_STRICT t) CR' l' /\
    (forall x, In x l' -> In x l \/ In x lf) /\ Permutation H' ((p, OFileset s lf) :: (s, OSource SBase) :: base_cells lf ++ (it, OQueryIter t) :: CR' ++ R)).
Proof.
  intros Hq Hqd Hrm Hm HP. unfold fileset_dup. go. eapply tri_bind; [apply fileset_init_ok|]. intros p H1 (Hp & s & lf & HP1). start HP1. go.
  set (B := (p, OFileset s lf) :: (s, OSource SBase) :: base_cells lf).
  eapply tri_bind; [eapply (for_each_ok _ lf _ _ (fun rest H' => incl rest lf /\ exists CR' l', removal fl (owned I_REMOVE_STRICT t) CR' l' /\
    (forall x, In x l' -> In x l \/ In x lf) /\ Permutation H' ((it, OQueryIter t) :: CR' ++ B ++ R)))|].
  - intros y rest H2 (Hi & CR' & l' & Hr & Hl & HP2). eapply tri_post; [eapply (reader_time_filter_ok fl it q d t CR' l' y (B ++ R)); auto|].
    + mem.
    + apply in_or_app. left. right. right. apply base_in, Hi. left. reflexivity.
    + intro Hz. destruct (Hm Hz) as (sm & Hsm). exists sm. mem.
    + intros u H3 (CR2 & l2 & Hr2 & Hl2 & HP3). split; [intros z Hz; apply Hi; right; exact Hz|]. exists CR2, l2. repeat apply conj; [exact Hr2| |exact HP3].
      intros z Hz. apply Hl2 in Hz as [Hz| ->]; [auto|]. right. apply Hi. left. reflexivity.
  - split; [apply incl_refl|]. exists CR, l. repeat apply conj; auto. unfold B. rewrite HP. perm.
  - intros u H2 (_ & CR' & l' & Hr & Hl & HP2). fin. split; [exact Hp|]. exists s, lf, CR', l'. repeat apply conj; auto. rewrite HP2. unfold B. perm.
Qed.

(** The query iterator while its filesets are made. *)
Definition fresh_iter (q s si p1 p2 m r : N) : query_iter_data :=
  {| t_query := q; t_armed := false; t_source := s; t_source_index := si; t_m_iter := 0; t_m_iter2 := 0; t_key := 0; t_key2 := 0;
     t_owned := [0; p1; p2; m; 0; 0; 0; 0; 0; 0; 0; 0; r] |}.

Lemma query_iter_fileset_ok fl q fs s0 l0 d n R : runnable fl q d R -> In (fs, OFileset s0 l0) R ->
  (q_aggregated d && (q_tfa d || q_tlb d) = true -> f_rm fl = true) ->
  tri (f_rm fl) R (query_iter_fileset n q fs) (fun p H' => exists it, made fl it q [] R p H').
Proof.
  intros Hr Hfs Hst. unfold query_iter_fileset, new_query_iter. go. rename p into it, p0 into fopt. destruct Hr. go.
  eapply tri_bind with (P := fun _ H' => exists m r CR Sm, removal fl r CR [] /\ stage KMerger m Sm /\
    Permutation H' ((it, OQueryIter (fresh_iter q 0 0 0 0 m r)) :: CR ++ (fopt, OOptions) :: Sm ++ R)).
  { destruct (q_aggregated d) eqn:Ea; simpl andb; [|fin; exists 0, 0, [], []; split; [left; auto|split; [apply st_none|unfold fresh_iter, with_owned, with_source, with_source_index; cbn; perm]]].
    destruct (q_tfb d || q_tfa d || q_tlb d || q_tla d) eqn:Eb; [|fin; exists 0, 0, [], []; split; [left; auto|split; [apply st_none|unfold fresh_iter, with_owned, with_source, with_source_index; cbn; perm]]].
    eapply tri_bind with (P := fun _ H' => exists r CR, removal fl r CR [] /\
      Permutation H' ((it, OQueryIter (fresh_iter q 0 0 0 0 0 r)) :: CR ++ (fopt, OOptions) :: R)).
    { destruct (q_tfa d || q_tlb d) eqn:Ec; [|fin; exists 0, []; split; [left; auto|unfold fresh_iter, with_owned, with_source, with_source_index; cbn; perm]].
      unfold remove_mtbl_init. apply tri_assoc. eapply tri_bind; [apply vec_init_ok|]. intros v H1 (Hv & dv & ->). unfold vec, set_iter. simpl app. go. fin.
      exists p, ((p, ORemove 0 p0 v) :: (p0, OSource (SRemove p)) :: vec v dv []). split.
      - right. split; [assumption|split; [apply Hst; reflexivity|]]. exists p0, v, dv. reflexivity.
      - unfold vec. simpl app. unfold fresh_iter, with_owned, with_source, with_source_index; cbn; perm. }
    intros u H1 (r & CR & Hr & HP). start HP. unfold set_iter, merger_init. go. fin. exists p1, r, CR, [(p1, OMerger p0); (p0, OSource SBase)].
    split; [exact Hr|split; [constructor; assumption|]]. unfold fresh_iter, with_owned, with_source, with_source_index; cbn; perm. }
  intros u H1 (m & r & CR & Sm & Hrm & HSm & HP1). start HP1. go.
  assert (Hmerger : m <> 0 -> exists sm, In (m, OMerger sm) Sm) by (intro Hz; inversion HSm; subst; [congruence|eexists; left; reflexivity]).
  eapply tri_bind; [eapply (fileset_dup_ok fl it q d (fresh_iter q 0 0 0 0 m r) CR [] ((fopt, OOptions) :: Sm ++ R) _ n); [reflexivity|mem|exact Hrm| |reflexivity]|].
  { cbn. intro Hz. destruct (Hmerger Hz) as (sm & Hsm). exists sm. mem. }
  intros p1 H2 (Hp1 & s1 & l1 & CR1 & r1 & Hrm1 & Hr1 & HP2). cbv beta in *. start HP2. unfold set_iter. go.
  eapply tri_bind with (P := fun _ H' => exists s p2 F2 CR' l', removal fl r CR' l' /\ stage KFileset p2 F2 /\ src fl (((p1, OFileset s1 l1) :: (s1, OSource SBase) :: base_cells l1) ++ F2) it s /\
     (forall x, In x l' -> In (x, OSource SBase) (((p1, OFileset s1 l1) :: (s1, OSource SBase) :: base_cells l1) ++ F2)) /\
     Permutation H' ((it, OQueryIter (fresh_iter q s s1 p1 p2 m r)) :: (fopt, OOptions) :: ((p1, OFileset s1 l1) :: (s1, OSource SBase) :: base_cells l1) ++ F2 ++ Sm ++ CR' ++ R)).
  { destruct (q_aggregated d).
    - fin. exists s1, 0, [], CR1, r1. split; [exact Hrm1|]. split; [apply st_none|]. split; [apply src_base; mem|]. split.
      + intros x Hx. apply Hr1 in Hx as [[]|Hx]. right. right. apply in_or_app. left. apply base_in, Hx.
      + unfold fresh_iter, with_owned, with_source, with_source_index; cbn; perm.
    - go. set (B1 := (p1, OFileset s1 l1) :: (s1, OSource SBase) :: base_cells l1).
      eapply tri_bind; [eapply (fileset_dup_ok fl it q d (fresh_iter q s1 s1 p1 0 m r) CR1 r1 ((fopt, OOptions) :: Sm ++ B1 ++ R) _ n); [reflexivity|mem|exact Hrm1| |]|].
      { cbn. intro Hz. destruct (Hmerger Hz) as (sm & Hsm). exists sm. mem. }
      { unfold fresh_iter, with_owned, with_source, with_source_index, B1; cbn; perm. }
      intros p2 H3 (Hp2 & s2 & l2 & CR2 & r2 & Hrm2 & Hr2 & HP3). cbv beta in *. start HP3. go. fin.
      exists s2, p2, ((p2, OFileset s2 l2) :: (s2, OSource SBase) :: base_cells l2), CR2, r2. split; [exact Hrm2|]. split; [constructor; assumption|]. split; [apply src_base; unfold B1; mem|]. split.
      + intros x Hx. apply Hr2 in Hx as [Hx|Hx].
        * apply Hr1 in Hx as [[]|Hx]. apply in_or_app. left. right. right. apply base_in, Hx.
        * apply in_or_app. right. right. right. apply base_in, Hx.
      + unfold fresh_iter, with_owned, with_source, with_source_index, B1; cbn; perm. }
  intros u2 H3 (s & p2 & F2 & CR2 & l2 & Hrm2 & HF2 & Hsrc & Hl2 & HP3). start HP3.
  set (B1 := (p1, OFileset s1 l1) :: (s1, OSource SBase) :: base_cells l1) in *. go.
  set (t := fresh_iter q s s1 p1 p2 m r) in *.
  eapply tri_post; [eapply (query_iter_common_ok fl it q (B1 ++ F2) [] CR2 [] R d t)|intros p H' Hm; exists it; exact Hm].
  - apply (G_intro fl it q _ _ CR2 t [] [] [] [] (B1 ++ F2 ++ Sm) [0; p1; p2; m; 0; 0; 0; 0; 0; 0; 0; 0] r); try reflexivity; try apply kbuf_0.
    + left. auto.
    + left. auto.
    + apply (stages_cons KLjoin 0 [] _ _ (B1 ++ F2 ++ Sm)); [apply st_none|]. apply (stages_cons KFileset p1 B1 _ _ (F2 ++ Sm)); [apply st_fileset; assumption|]. apply stages_cons; [exact HF2|]. rewrite <- (app_nil_r Sm). apply stages_cons; [exact HSm|].
      repeat (apply (stages_cons _ 0 []); [apply st_none|]). constructor.
    + destruct Hrm2 as [(-> & -> & _)|(Hz & _ & sr & v & dv & ->)]; constructor; assumption.
    + inclu.
  - split; [exact Hsrc|]. apply src_base. unfold B1. mem.
  - constructor; auto; try apply incl_nil_l.
    + intros i Hi. simpl in Hi. intuition (subst; reflexivity).
    + cbn. intro Hz. destruct Hrm2 as [(Hc & _)|(_ & Hf & sr & v & dv & ->)]; [congruence|]. split; [exact Hf|]. exists sr, v, dv, l2. split; [reflexivity|]. apply Forall_forall. exact Hl2.
  - simpl app. unfold B1. perm.
Qed.
