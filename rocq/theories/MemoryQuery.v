(** * Memory: the iterators of query.c *)
From Coq Require Import Permutation.
From Verif Require Import Base ModelMemory HeapLogic MemoryBasics MemoryIters.

(** ** The stages a query iterator owns *)

Inductive kind := KLjoin | KFileset | KMerger | KTimeout | KFilter | KRemove.
(** All but the last. *)
Definition kinds : list kind :=
  [KLjoin; KFileset; KFileset; KMerger; KTimeout; KTimeout; KFilter; KFilter; KFilter; KFilter; KFilter; KFilter].
Definition base_cells (l : list N) : list cell := map (fun s => (s, OSource SBase)) l.
Inductive stage : kind -> N -> list cell -> Prop :=
| st_none k : stage k 0 []
| st_ljoin p l r s : p <> 0 -> stage KLjoin p [(p, OLjoin l r s); (s, OSource (SLjoin p))]
| st_fileset p s l : p <> 0 -> stage KFileset p ((p, OFileset s l) :: (s, OSource SBase) :: base_cells l)
| st_merger p s : p <> 0 -> stage KMerger p [(p, OMerger s); (s, OSource SBase)]
| st_timeout p u s e : p <> 0 -> stage KTimeout p [(p, OTimeout u s e); (s, OSource (STimeout p))]
| st_filter p u s f e : p <> 0 -> stage KFilter p [(p, OFilter u s f e); (s, OSource (SFilter p))]
| st_remove p u s v d l : p <> 0 -> stage KRemove p ((p, ORemove u s v) :: (s, OSource (SRemove p)) :: vec v d l).
Inductive stages : list kind -> list N -> list cell -> Prop :=
| stages_nil : stages [] [] []
| stages_cons k p C ks ps S : stage k p C -> stages ks ps S -> stages (k :: ks) (p :: ps) (C ++ S).

Lemma stage_zero k C : stage k 0 C -> C = [].
Proof. inversion 1; subst; congruence. Qed.

Lemma stages_take ks ps S i k : stages ks ps S -> nth_error ks i = Some k ->
  exists C S', stage k (nth i ps 0) C /\ Permutation S (C ++ S') /\
    forall p C', stage k p C' -> exists S'', stages ks (set_nth i p ps) S'' /\ Permutation S'' (C' ++ S').
Proof.
  intro HS. revert i. induction HS as [|k0 p0 C0 ks ps S H0 HS IH]; intros [|i] Hk; simpl in *; try discriminate.
  - injection Hk as <-. exists C0, S. repeat apply conj; auto. intros p C' HC'. exists (C' ++ S). split; [constructor; assumption|reflexivity].
  - destruct (IH i Hk) as (C & S' & H1 & H2 & H3). exists C, (C0 ++ S'). repeat apply conj; [exact H1|rewrite H2; perm|].
    intros p C' HC'. destruct (H3 p C' HC') as (S'' & H4 & H5). exists (C0 ++ S''). split; [constructor; assumption|]. rewrite H5. perm.
Qed.
Lemma stages_length ks ps S : stages ks ps S -> length ps = length ks.
Proof. induction 1; simpl; congruence. Qed.

Lemma set_nth_app i x l r : (i < length l)%nat -> set_nth i x (l ++ r) = set_nth i x l ++ r.
Proof. revert l. induction i; intros [|y l] Hl; simpl in *; try lia; [reflexivity|]. rewrite IHi by lia. reflexivity. Qed.
Lemma set_nth_last x l r : set_nth (length l) x (l ++ [r]) = l ++ [x].
Proof. induction l; simpl; [reflexivity|]. rewrite IHl. reflexivity. Qed.
Lemma set_nth_length i x l : length (set_nth i x l) = length l.
Proof. revert l. induction i; intros [|y l]; simpl; auto. Qed.
Lemma nth_set_nth i j x l : nth j (set_nth i x l) 0 = if Nat.eqb i j then (if Nat.ltb i (length l) then x else 0) else nth j l 0.
Proof.
  revert j l. induction i; intros j [|y l]; destruct j; simpl; try reflexivity.
  - destruct (Nat.eqb i j); reflexivity.
  - rewrite IHi. reflexivity.
Qed.

(** A tree over some source, or none. *)
Definition tree0 (fl : flags) (F : list cell) (it p : N) (T : list cell) : Prop :=
  (p = 0 /\ T = []) \/ (p <> 0 /\ exists s, src fl F it s /\ tree fl F it s p T).
Lemma tree0_tree fl F it p T : tree0 fl F it p T -> exists s, (p <> 0 -> src fl F it s) /\ tree fl F it s p T.
Proof. intros [[-> ->]|[_ (s & Hs & H)]]; [exists 0; split; [congruence|apply tree_null]|exists s; auto]. Qed.
Lemma tree0_mono fl F F' it p T : incl F F' -> tree0 fl F it p T -> tree0 fl F' it p T.
Proof. intros Hi [H|(Hp & s & Hs & H)]; [left; exact H|right; split; [exact Hp|]]. exists s. split; [eapply src_mono|eapply tree_mono]; eassumption. Qed.
Lemma tri_tree0 {A} rm fl F it s p T H (c : M A) Q : (p <> 0 -> src fl F it s) -> tree fl F it s p T -> incl T H -> (tree0 fl F it p T -> tri rm H c Q) -> tri rm H c Q.
Proof.
  intros Hs HT Hi Hc. destruct HT as [s p C [HC|(s0 & Hz & HC)]| | | |].
  1: { apply Hc. left. exact HC. }
  1: { apply Hc. right. split; [exact Hz|]. exists s. split; [exact (Hs Hz)|]. apply tree_simple. right. eauto. }
  all: match type of Hi with incl (?x :: _) _ => assert (Hx : In x H) by (apply Hi; left; reflexivity); eapply tri_nz; [exact Hx|]; intro Hz end;
       apply Hc; right; split; [exact Hz|]; exists s; (split; [exact (Hs Hz)|]); econstructor; eassumption.
Qed.

(** ** A query iterator

    It owns the list of blocks in the last argument.  Its trees and sources are built from
    [F], which is made of its own stages and of [X]; [CR] are the blocks of the stage that
    removes keys. *)
Inductive G (fl : flags) (it q : N) (F X CR : list cell) (t : query_iter_data) : list cell -> Prop :=
| G_intro K1 K2 T1 T2 S ps r :
    t_query t = q -> kbuf (t_key t) K1 -> kbuf (t_key2 t) K2 ->
    tree0 fl F it (t_m_iter t) T1 -> tree0 fl F it (t_m_iter2 t) T2 ->
    t_owned t = ps ++ [r] -> stages kinds ps S -> stage KRemove r CR -> incl F (S ++ X) ->
    G fl it q F X CR t ((it, OQueryIter t) :: K1 ++ K2 ++ T1 ++ T2 ++ S ++ CR).

Definition sources (fl : flags) (F : list cell) (it : N) (t : query_iter_data) : Prop :=
  src fl F it (t_source t) /\ src fl F it (t_source_index t).

(** What building leaves alone, apart from the stages in [is]. *)
Definition grew (is : list nat) (t t' : query_iter_data) : Prop :=
  t_armed t' = t_armed t /\ (forall j, ~ In j is -> owned j t' = owned j t).
Definition same_keys (t t' : query_iter_data) : Prop :=
  t_key t' = t_key t /\ t_key2 t' = t_key2 t /\ t_m_iter t' = t_m_iter t /\ t_m_iter2 t' = t_m_iter2 t.
Lemma grew_refl is t : grew is t t.
Proof. split; auto. Qed.
Lemma grew_trans is1 is2 t1 t2 t3 : grew is1 t1 t2 -> grew is2 t2 t3 -> grew (is1 ++ is2) t1 t3.
Proof.
  intros [H1 H2] [H3 H4]. split; [congruence|]. intros j Hj. rewrite H4, H2; auto; intro Hi; apply Hj, in_or_app; auto.
Qed.
Lemma grew_weaken is is' t t' : incl is is' -> grew is t t' -> grew is' t t'.
Proof. intros Hi [H1 H2]. split; auto. Qed.
Lemma same_keys_refl t : same_keys t t.
Proof. repeat split. Qed.
Lemma same_keys_trans t1 t2 t3 : same_keys t1 t2 -> same_keys t2 t3 -> same_keys t1 t3.
Proof. unfold same_keys. intuition congruence. Qed.

(** Adding a stage. *)
Lemma owned_put i p t k ps r S : t_owned t = ps ++ [r] -> stages kinds ps S -> nth_error kinds i = Some k -> owned i t = 0 ->
  forall C, stage k p C -> exists ps' S', t_owned (with_owned i p t) = ps' ++ [r] /\ stages kinds ps' S' /\ Permutation S' (C ++ S).
Proof.
  intros Ho HS Hk Hz C HC. assert (Hl : (i < length ps)%nat).
  { rewrite (stages_length _ _ _ HS). apply nth_error_Some. congruence. }
  destruct (stages_take _ _ _ _ _ HS Hk) as (C0 & S' & H0 & HP & Hall).
  unfold owned in Hz. rewrite Ho, app_nth1 in Hz by exact Hl. rewrite Hz in H0. apply stage_zero in H0. subst C0.
  destruct (Hall p C HC) as (S'' & H1 & H2). exists (set_nth i p ps), S''. repeat apply conj; [|exact H1|rewrite H2, HP; reflexivity].
  simpl. rewrite Ho. apply set_nth_app, Hl.
Qed.
Lemma owned_with i p t j : j <> i -> owned j (with_owned i p t) = owned j t.
Proof. intro Hj. unfold owned. simpl. rewrite nth_set_nth. destruct (Nat.eqb i j) eqn:E; [apply Nat.eqb_eq in E; congruence|reflexivity]. Qed.
Lemma grew_owned i p t : grew [i] t (with_owned i p t).
Proof. split; [reflexivity|]. intros j Hj. apply owned_with. intro E. apply Hj. left. auto. Qed.

(** The next source: a stage on top of another. *)
Lemma G_stage fl it q F X CR t C i k p Cp s H R :
  G fl it q F X CR t C -> sources fl F it t -> nth_error kinds i = Some k -> owned i t = 0 -> stage k p Cp -> src fl (Cp ++ F) it s ->
  Permutation H (((it, OQueryIter (with_source s (with_owned i p t))) :: Cp ++ tl C) ++ R) ->
  exists C', G fl it q (Cp ++ F) X CR (with_source s (with_owned i p t)) C' /\ sources fl (Cp ++ F) it (with_source s (with_owned i p t)) /\ Permutation H (C' ++ R).
Proof.
  intros [K1 K2 T1 T2 S ps r Hq HK1 HK2 HT1 HT2 Ho HS Hr Hi] [Hs1 Hs2] Hk Hz HC Hs HP. simpl tl in HP.
  destruct (owned_put i p t k ps r S Ho HS Hk Hz Cp HC) as (ps' & S' & Ho' & HS' & HPS).
  eexists. repeat apply conj.
  - apply (G_intro fl it q (Cp ++ F) X CR (with_source s (with_owned i p t)) K1 K2 T1 T2 S' ps' r); try assumption.
    + eapply tree0_mono; [|exact HT1]. inclu.
    + eapply tree0_mono; [|exact HT2]. inclu.
    + intros x Hx. rewrite HPS. rewrite !in_app_iff in *. destruct Hx as [Hx|Hx]; [auto|]. apply Hi in Hx. rewrite in_app_iff in Hx. tauto.
  - exact Hs.
  - eapply src_mono; [|exact Hs2]. inclu.
  - rewrite HP, HPS. perm.
Qed.
Lemma G_stage_index fl it q F X CR t C i k p Cp s H R :
  G fl it q F X CR t C -> sources fl F it t -> nth_error kinds i = Some k -> owned i t = 0 -> stage k p Cp -> src fl (Cp ++ F) it s ->
  Permutation H (((it, OQueryIter (with_source_index s (with_owned i p t))) :: Cp ++ tl C) ++ R) ->
  exists C', G fl it q (Cp ++ F) X CR (with_source_index s (with_owned i p t)) C' /\ sources fl (Cp ++ F) it (with_source_index s (with_owned i p t)) /\ Permutation H (C' ++ R).
Proof.
  intros [K1 K2 T1 T2 S ps r Hq HK1 HK2 HT1 HT2 Ho HS Hr Hi] [Hs1 Hs2] Hk Hz HC Hs HP. simpl tl in HP.
  destruct (owned_put i p t k ps r S Ho HS Hk Hz Cp HC) as (ps' & S' & Ho' & HS' & HPS).
  eexists. repeat apply conj.
  - apply (G_intro fl it q (Cp ++ F) X CR (with_source_index s (with_owned i p t)) K1 K2 T1 T2 S' ps' r); try assumption.
    + eapply tree0_mono; [|exact HT1]. inclu.
    + eapply tree0_mono; [|exact HT2]. inclu.
    + intros x Hx. rewrite HPS. rewrite !in_app_iff in *. destruct Hx as [Hx|Hx]; [auto|]. apply Hi in Hx. rewrite in_app_iff in Hx. tauto.
  - eapply src_mono; [|exact Hs1]. inclu.
  - exact Hs.
  - rewrite HP, HPS. perm.
Qed.

Lemma G_head fl it q F X CR t C : G fl it q F X CR t C -> exists C', C = (it, OQueryIter t) :: C'.
Proof. intros []. eauto. Qed.

(** After a step that builds: the state [t'], bigger by the stages in [is]. *)
Definition built (fl : flags) (it q : N) (F X CR R : list cell) (is : list nat) (t t' : query_iter_data) (H : list cell) : Prop :=
  exists F' C', incl F F' /\ G fl it q F' X CR t' C' /\ sources fl F' it t' /\ grew is t t' /\ Permutation H (C' ++ R).

Lemma filter_set_ok fl it q F X CR R t C H i fn :
  G fl it q F X CR t C -> sources fl F it t -> Permutation H (C ++ R) -> nth_error kinds i = Some KFilter -> owned i t = 0 ->
  (fn = FBailiwick -> f_bw fl = true) ->
  tri (f_rm fl) H (filter_set it i fn) (fun _ H' => exists t', same_keys t t' /\ built fl it q F X CR R [i] t t' H').
Proof.
  intros HG HS HP Hk Hz Hfn. destruct (G_head _ _ _ _ _ _ _ _ HG) as (C0 & ->). start HP. simpl app. unfold filter_set, filter_mtbl_init, set_iter. go. fin.
  change (with_source p0 (with_owned i p t)) with (with_source p0 (with_owned i p t)).
  eexists. split; [|].
  2: { exists ([(p, OFilter (t_source t) p0 fn it); (p0, OSource (SFilter p))] ++ F).
       destruct (G_stage fl it q F X CR t _ i KFilter p [(p, OFilter (t_source t) p0 fn it); (p0, OSource (SFilter p))] p0
           ((it, OQueryIter (with_source p0 (with_owned i p t))) :: (p, OFilter (t_source t) p0 fn it) :: (p0, OSource (SFilter p)) :: C0 ++ R) R HG HS Hk Hz) as (C' & HG' & HS' & HP').
       - constructor. assumption.
       - eapply src_filter; [mem|mem|assumption|]. eapply src_mono; [|apply HS]. inclu.
       - simpl tl. perm.
       - exists C'. repeat apply conj; [inclu|exact HG'|apply HS'|apply HS'| | |]; [reflexivity|apply grew_owned|rewrite <- HP'; perm]. }
  repeat split.
Qed.

Lemma filter_set_index_ok fl it q F X CR R t C H i fn :
  G fl it q F X CR t C -> sources fl F it t -> Permutation H (C ++ R) -> nth_error kinds i = Some KFilter -> owned i t = 0 ->
  (fn = FBailiwick -> f_bw fl = true) ->
  tri (f_rm fl) H (filter_set_index it i fn) (fun _ H' => exists t', same_keys t t' /\ built fl it q F X CR R [i] t t' H').
Proof.
  intros HG HS HP Hk Hz Hfn. destruct (G_head _ _ _ _ _ _ _ _ HG) as (C0 & ->). start HP. simpl app. unfold filter_set_index, filter_mtbl_init, set_iter. go. fin.
  eexists. split; [|].
  2: { exists ([(p, OFilter (t_source_index t) p0 fn it); (p0, OSource (SFilter p))] ++ F).
       destruct (G_stage_index fl it q F X CR t _ i KFilter p [(p, OFilter (t_source_index t) p0 fn it); (p0, OSource (SFilter p))] p0
           ((it, OQueryIter (with_source_index p0 (with_owned i p t))) :: (p, OFilter (t_source_index t) p0 fn it) :: (p0, OSource (SFilter p)) :: C0 ++ R) R HG HS Hk Hz) as (C' & HG' & HS' & HP').
       - constructor. assumption.
       - eapply src_filter; [mem|mem|assumption|]. eapply src_mono; [|apply HS]. inclu.
       - simpl tl. perm.
       - exists C'. repeat apply conj; [inclu|exact HG'|apply HS'|apply HS'| | |]; [reflexivity|apply grew_owned|rewrite <- HP'; perm]. }
  repeat split.
Qed.

Section Build.
  Variables (fl : flags) (it q : N) (X CR R : list cell) (d : query_data).
  Hypothesis Hqd : In (q, OQuery d) R.
  Hypothesis Hname : incl (blk (q_name d)) R.
  Hypothesis Hrdata : incl (blk (q_rdata d)) R.
  Hypothesis Hbail : incl (blk (q_bailiwick d)) R.
  Hypothesis Hdata : has_data d.
  Hypothesis Hbw : q_bailiwick d <> 0 -> f_bw fl = true.
  Hypothesis HX : incl X (CR ++ R).
  Variables (F0 : list cell) (t0 : query_iter_data).

  (** The state while [it] is built. *)
  Definition BS (is : list nat) (t : query_iter_data) (H : list cell) : Prop := built fl it q F0 X CR R is t0 t H.

  Lemma BS_filter is t H i fn : BS is t H -> nth_error kinds i = Some KFilter -> owned i t0 = 0 -> ~ In i is -> (fn = FBailiwick -> f_bw fl = true) ->
    tri (f_rm fl) H (filter_set it i fn) (fun _ H' => exists t', same_keys t t' /\ BS (is ++ [i]) t' H').
  Proof.
    intros (F & C & HF & HG & HS & Hg & HP) Hk Hz Hn Hfn. eapply tri_post.
    - eapply filter_set_ok; try eassumption. rewrite (proj2 Hg i Hn). exact Hz.
    - intros u H' (t' & Hk' & F' & C' & HF' & HG' & HS' & Hg' & HP'). exists t'. split; [exact Hk'|]. exists F', C'.
      repeat apply conj; auto; [eapply incl_tran; eassumption|apply HS'|apply HS'| |]; eapply grew_trans; eassumption.
  Qed.
  Lemma BS_filter_index is t H i fn : BS is t H -> nth_error kinds i = Some KFilter -> owned i t0 = 0 -> ~ In i is -> (fn = FBailiwick -> f_bw fl = true) ->
    tri (f_rm fl) H (filter_set_index it i fn) (fun _ H' => exists t', same_keys t t' /\ BS (is ++ [i]) t' H').
  Proof.
    intros (F & C & HF & HG & HS & Hg & HP) Hk Hz Hn Hfn. eapply tri_post.
    - eapply filter_set_index_ok; try eassumption. rewrite (proj2 Hg i Hn). exact Hz.
    - intros u H' (t' & Hk' & F' & C' & HF' & HG' & HS' & Hg' & HP'). exists t'. split; [exact Hk'|]. exists F', C'.
      repeat apply conj; auto; [eapply incl_tran; eassumption|apply HS'|apply HS'| |]; eapply grew_trans; eassumption.
  Qed.
  Lemma BS_weaken is is' t H : incl is is' -> BS is t H -> BS is' t H.
  Proof. intros Hi (F & C & HF & HG & HS & Hg & HP). exists F, C. repeat apply conj; auto; try apply HS; eapply grew_weaken; eassumption. Qed.

  Lemma BS_in is t H : BS is t H -> In (it, OQueryIter t) H /\ t_query t = q /\ incl R H.
  Proof.
    intros (F & C & HF & HG & HS & Hg & HP). destruct HG as [K1 K2 T1 T2 S ps r Gq GK1 GK2 GT1 GT2 Go GS Gr Gi]. repeat apply conj; [rewrite HP; mem|assumption|]. intros x Hx. rewrite HP. mem.
  Qed.
  Lemma BS_query is t H : BS is t H -> tri (f_rm fl) H (query_of it) (fun r H' => H' = H /\ r = d).
  Proof. intro HB. destruct (BS_in _ _ _ HB) as (Hi & Hq & HR). unfold query_of. go. rewrite Hq. go. fin. auto. Qed.
  Lemma BS_bailiwick is t H : BS is t H -> tri (f_rm fl) H (has_bailiwick it) (fun r H' => H' = H /\ r = negb (q_bailiwick d =? 0)).
  Proof. intro HB. unfold has_bailiwick. eapply tri_bind; [eapply BS_query, HB|]. intros r H' [-> ->]. fin. auto. Qed.

  (** A filter set on a condition. *)
  Lemma BS_filter_if is t H c i fn : BS is t H -> nth_error kinds i = Some KFilter -> owned i t0 = 0 -> ~ In i is ->
    tri (f_rm fl) H c (fun b H' => H' = H /\ (b = true -> fn = FBailiwick -> f_bw fl = true)) ->
    tri (f_rm fl) H (filter_set_if c it i fn) (fun _ H' => exists t', same_keys t t' /\ BS (is ++ [i]) t' H').
  Proof.
    intros HB Hk Hz Hn Hc. unfold filter_set_if. eapply tri_bind; [exact Hc|]. intros b H' [-> Hb]. destruct b.
    - apply BS_filter; auto.
    - fin. exists t. split; [apply same_keys_refl|]. eapply BS_weaken; [|exact HB]. inclu.
  Qed.
  Lemma BS_choice is t H fn : BS is t H -> fn <> FBailiwick -> tri (f_rm fl) H choose (fun b H' => H' = H /\ (b = true -> fn = FBailiwick -> f_bw fl = true)).
  Proof. intros HB Hf. go. fin. split; [reflexivity|]. intros _ E. congruence. Qed.
  Lemma BS_bailiwick_if is t H : BS is t H -> owned I_FILTER_BAILIWICK t0 = 0 -> ~ In I_FILTER_BAILIWICK is ->
    tri (f_rm fl) H (filter_set_if (has_bailiwick it) it I_FILTER_BAILIWICK FBailiwick) (fun _ H' => exists t', same_keys t t' /\ BS (is ++ [I_FILTER_BAILIWICK]) t' H').
  Proof.
    intros HB Hz Hn. apply BS_filter_if; auto. eapply tri_post; [eapply BS_bailiwick, HB|]. intros b H' [-> ->]. split; [reflexivity|].
    intros Hb _. apply Hbw. intro E. rewrite E in Hb. discriminate.
  Qed.

  (** Changing the members that are no stages. *)
  Lemma BS_init_key is t H : BS is t H -> t_key t = 0 -> tri (f_rm fl) H (init_key it) (fun _ H' => exists k, k <> 0 /\ BS is (with_key k t) H').
  Proof.
    intros (F & C & HF & HG & HS & Hg & HP) Hz. unfold init_key, set_iter. use ubuf_init_ok. intros k H' (Hk & dk & ->).
    destruct HG as [K1 K2 T1 T2 S ps r Gq GK1 GK2 GT1 GT2 Go GS Gr Gi]. rewrite Hz in *. destruct GK1 as [[_ ->]|[Hc _]]; [|congruence].
    eapply tri_perm; [rewrite HP; simpl app; reflexivity|]. go. fin. exists k. split; [exact Hk|].
    exists F. eexists. repeat apply conj; [exact HF|apply (G_intro fl it q F X CR (with_key k t) (ubuf k dk) K2 T1 T2 S ps r); auto; right; eauto|apply HS|apply HS|apply Hg|apply Hg|].
    unfold ubuf. simpl app. perm.
  Qed.
  Lemma BS_write_key is t H : BS is t H -> t_key t <> 0 -> tri (f_rm fl) H (write_key it) (fun _ H' => BS is t H').
  Proof.
    intros (F & C & HF & HG & HS & Hg & HP) Hz. unfold write_key.
    destruct HG as [K1 K2 T1 T2 S ps r Gq GK1 GK2 GT1 GT2 Go GS Gr Gi]. destruct GK1 as [[Hc _]|[_ [dk ->]]]; [congruence|]. start HP. simpl app. go.
    eapply tri_post; [apply (ubuf_write_ok _ (t_key t) dk _ ((it, OQueryIter t) :: K2 ++ T1 ++ T2 ++ S ++ CR ++ R)); unfold ubuf; simpl app; perm|].
    intros u H' (d' & HP'). exists F. eexists. repeat apply conj; [exact HF|apply (G_intro fl it q F X CR t (ubuf (t_key t) d') K2 T1 T2 S ps r); auto; right; eauto|apply HS|apply HS|apply Hg|apply Hg|].
    rewrite HP'. unfold ubuf. simpl app. perm.
  Qed.
  Lemma BS_write_key2 is t H : BS is t H -> t_key t <> 0 -> tri (f_rm fl) H (write_key2 it) (fun _ H' => exists k, BS is (with_key2 k t) H').
  Proof.
    intros (F & C & HF & HG & HS & Hg & HP) Hz.
    destruct HG as [K1 K2 T1 T2 S ps r Gq GK1 GK2 GT1 GT2 Go GS Gr Gi]. destruct GK1 as [[Hc _]|[_ [dk ->]]]; [congruence|].
    eapply tri_post; [apply (write_key2_ok _ it t dk ((it, OQueryIter t) :: ubuf (t_key t) dk ++ K2) _ (T1 ++ T2 ++ S ++ CR ++ R))|].
    - exists (t_key2 t), K2. split; [assumption|]. destruct t; reflexivity.
    - rewrite HP. unfold ubuf. simpl app. perm.
    - intros u H' (K' & _ & HP' & k & d' & Hk & ->). exists k. exists F. eexists. repeat apply conj; [exact HF|apply (G_intro fl it q F X CR (with_key2 k t) (ubuf (t_key t) dk) (ubuf k d') T1 T2 S ps r); auto; right; eauto|apply HS|apply HS|apply Hg|apply Hg|].
      rewrite HP'. unfold ubuf. simpl app. perm.
  Qed.
  Lemma BS_destroy_key {A} is t H (k : M A) Q : BS is t H -> (forall H', BS is (with_key 0 t) H' -> tri (f_rm fl) H' k Q) ->
    tri (f_rm fl) H (let! t := as_query_iter it in ubuf_destroy (t_key t) ;; set_iter it (with_key 0) ;; k) Q.
  Proof.
    intros (F & C & HF & HG & HS & Hg & HP) Hk. destruct HG as [K1 K2 T1 T2 S ps r Gq GK1 GK2 GT1 GT2 Go GS Gr Gi]. start HP. simpl app. go.
    eapply tri_bind; [apply (ubuf_destroy_ok _ (t_key t) K1 _ ((it, OQueryIter t) :: K2 ++ T1 ++ T2 ++ S ++ CR ++ R)); [assumption|perm]|].
    intros u H' HP'. cbv beta in HP'. start HP'. unfold set_iter. go. apply Hk.
    exists F. eexists. repeat apply conj; [exact HF|apply (G_intro fl it q F X CR (with_key 0 t) [] K2 T1 T2 S ps r); auto; apply kbuf_0|apply HS|apply HS|apply Hg|apply Hg|].
    simpl app. perm.
  Qed.
  (** The iterator of the index. *)
  Lemma BS_index {A} n is t H (k : M A) Q : BS is t H -> t_m_iter2 t = 0 -> (forall i H', BS is (with_m_iter2 i t) H' -> tri (f_rm fl) H' k Q) ->
    tri (f_rm fl) H (let! t := as_query_iter it in let! i := source_get n (t_source_index t) in set_iter it (with_m_iter2 i) ;; k) Q.
  Proof.
    intros (F & C & HF & HG & HS & Hg & HP) Hz Hk. destruct HG as [K1 K2 T1 T2 S ps r Gq GK1 GK2 GT1 GT2 Go GS Gr Gi]. rewrite Hz in *. destruct GT2 as [[_ ->]|[Hc _]]; [|congruence]. start HP. simpl app. go.
    eapply tri_bind; [eapply (source_get_ok fl F it n (t_source_index t)); [apply HS|]; eapply incl_tran; [exact Gi|]|].
    { apply incl_app; [inclu|]. eapply incl_tran; [exact HX|]. inclu. }
    intros i H' (T & HT & HP'). cbv beta in HP'. start HP'. eapply tri_tree0; [intros _; apply HS|exact HT|inclu|]. intro HT0. unfold set_iter. go. apply (Hk i).
    exists F. eexists. repeat apply conj; [exact HF|apply (G_intro fl it q F X CR (with_m_iter2 i t) K1 K2 T1 T S ps r); auto|apply HS|apply HS|apply Hg|apply Hg|].
    simpl app. perm.
  Qed.
  (** ** query_init_* *)
  Definition TM : list nat := [I_TIMEOUT; I_TIMEOUT_INDEX].
  Definition IS : list nat := TM ++ [I_FILTER_SINGLE_LABEL; I_FILTER_RRTYPE; I_FILTER_BAILIWICK].
  Hypothesis Hz1 : owned I_FILTER_SINGLE_LABEL t0 = 0.
  Hypothesis Hz2 : owned I_FILTER_RRTYPE t0 = 0.
  Hypothesis Hz3 : owned I_FILTER_BAILIWICK t0 = 0.
  Definition init_post (p : N) (H' : list cell) : Prop := exists t', t_m_iter t' = 0 /\
    ((p = 0 /\ BS IS t' H') \/ (p <> 0 /\ t_key t' <> 0 /\ exists nf H1, nf <> NextReader /\ H' = (p, OIterator nf it) :: H1 /\ BS IS t' H1)).
  Lemma iter_init_ok is t H nf : BS is t H -> incl is IS -> t_key t <> 0 -> t_m_iter t = 0 -> nf <> NextReader -> tri (f_rm fl) H (iter_init nf it) init_post.
  Proof.
    intros HB Hi Hk Hm Hn. unfold iter_init. go. fin. exists t. split; [exact Hm|]. right. repeat apply conj; auto. exists nf, H. repeat apply conj; auto.
    eapply BS_weaken; eassumption.
  Qed.
  Lemma give_up is t H : BS is t H -> incl is IS -> t_m_iter t = 0 -> init_post 0 H.
  Proof. intros HB Hi Hm. exists t. split; [exact Hm|]. left. split; [reflexivity|]. eapply BS_weaken; eassumption. Qed.

  Lemma read_name_ok is t H : BS is t H -> q_name d <> 0 -> tri (f_rm fl) H (read_name it) (fun _ H' => H' = H).
  Proof.
    intros HB Hn. unfold read_name. eapply tri_bind; [eapply BS_query, HB|]. intros r H' [-> ->].
    destruct (BS_in _ _ _ HB) as (_ & _ & HR). rewrite (blk_nz _ Hn) in Hname. assert (In (q_name d, OBytes) H) by (apply HR, Hname; mem). go. fin. reflexivity.
  Qed.

  Ltac notin := cbv; intuition discriminate.
  Ltac insub := cbv; intuition.
  Ltac keys := repeat match goal with H : same_keys _ _ |- _ => destruct H as (? & ? & ? & ?) end; simpl in *; congruence.

  Lemma query_init_rrset_ok n t H : q_name d <> 0 -> BS TM t H -> t_key t = 0 -> t_m_iter t = 0 -> t_m_iter2 t = 0 ->
    tri (f_rm fl) H (query_init_rrset n it) init_post.
  Proof.
    intros Hn HB Hk Hm Hm2. unfold query_init_rrset.
    eapply tri_bind; [eapply BS_init_key; eassumption|cbv beta]. intros u1 H1 (k & Hk1 & HB1).
    eapply tri_bind; [eapply read_name_ok; eassumption|cbv beta]. intros u2 H' ->. go. destruct (x =? 1); [|destruct (x =? 2)].
    - eapply tri_bind; [eapply BS_write_key; [eassumption|exact Hk1]|cbv beta]. intros u3 H3 HB3. go. destruct b; simpl negb; cbv iota; [|fin; eapply give_up; [eassumption|insub|exact Hm]].
      eapply tri_bind; [eapply BS_write_key; [eassumption|exact Hk1]|cbv beta]. intros u4 H4 HB4.
      eapply tri_bind; [eapply BS_filter_if; [eassumption|reflexivity|exact Hz1|notin|eapply BS_choice; [eassumption|discriminate]]|cbv beta]. intros u5 H5 (t5 & E5 & HB5).
      eapply tri_bind; [eapply BS_filter_if; [eassumption|reflexivity|exact Hz2|notin|eapply BS_choice; [eassumption|discriminate]]|cbv beta]. intros u6 H6 (t6 & E6 & HB6).
      eapply tri_bind; [eapply BS_bailiwick_if; [eassumption|exact Hz3|notin]|cbv beta]. intros u7 H7 (t7 & E7 & HB7).
      eapply iter_init_ok; [eassumption|insub|keys|keys|discriminate].
    - eapply tri_bind; [eapply BS_write_key; [eassumption|exact Hk1]|cbv beta]. intros u3 H3 HB3. go.
      eapply tri_bind with (P := fun _ H' => exists t', same_keys (with_key k t) t' /\ BS (TM ++ [I_FILTER_SINGLE_LABEL]) t' H').
      { destruct b; [eapply BS_filter_index; [eassumption|reflexivity|exact Hz1|notin|discriminate]|]. fin. exists (with_key k t). split; [apply same_keys_refl|]. eapply BS_weaken; [|eassumption]. insub. }
      cbv beta. intros u5 H5 (t5 & E5 & HB5). eapply BS_index; [eassumption|keys|cbv beta]. intros i H6 HB6.
      eapply tri_bind; [eapply BS_filter_if; [eassumption|reflexivity|exact Hz2|notin|eapply BS_choice; [eassumption|discriminate]]|cbv beta]. intros u7 H7 (t7 & E7 & HB7).
      eapply tri_bind; [eapply BS_bailiwick_if; [eassumption|exact Hz3|notin]|cbv beta]. intros u8 H8 (t8 & E8 & HB8).
      eapply iter_init_ok; [eassumption|insub|keys|keys|discriminate].
    - eapply tri_bind; [eapply BS_write_key; [eassumption|exact Hk1]|cbv beta]. intros u3 H3 HB3. go. destruct b; simpl negb; cbv iota.
      + eapply tri_bind; [eapply BS_write_key; [eassumption|exact Hk1]|cbv beta]. intros u4 H4 HB4. go.
        eapply tri_bind with (P := fun _ H' => exists t', same_keys (with_key k t) t' /\ BS (TM ++ [I_FILTER_BAILIWICK]) t' H').
        * destruct b.
          -- go. eapply tri_bind; [eapply BS_query; eassumption|cbv beta]. intros r H' [-> ->].
             eapply tri_bind; [eapply blk_read_ok; eapply incl_tran; [exact Hbail|apply (BS_in _ _ _ HB4)]|cbv beta]. intros u5 H' ->.
             eapply tri_post; [eapply BS_write_key; [eassumption|exact Hk1]|cbv beta]. intros u6 H6 HB6. exists (with_key k t). split; [apply same_keys_refl|]. eapply BS_weaken; [|exact HB6]. insub.
          -- eapply BS_bailiwick_if; [eassumption|exact Hz3|notin].
        * cbv beta. intros u7 H7 (t7 & E7 & HB7). eapply iter_init_ok; [eassumption|insub|keys|keys|discriminate].
      + eapply BS_destroy_key; [eassumption|cbv beta]. intros H4 HB4. fin. eapply give_up; [eassumption|insub|exact Hm].
  Qed.

  Lemma query_init_rdata_name_ok n t H : q_name d <> 0 -> BS TM t H -> t_key t = 0 -> t_m_iter t = 0 -> t_m_iter2 t = 0 ->
    tri (f_rm fl) H (query_init_rdata_name n it) init_post.
  Proof.
    intros Hn HB Hk Hm Hm2. unfold query_init_rdata_name. go.
    eapply tri_bind; [eapply BS_filter; [eassumption|reflexivity|exact Hz2|notin|destruct b; discriminate]|cbv beta]. intros u0 H0 (t0' & E0 & HB0).
    eapply tri_bind; [eapply BS_init_key; [eassumption|keys]|cbv beta]. intros u1 H1 (k & Hk1 & HB1).
    eapply tri_bind; [eapply read_name_ok; eassumption|cbv beta]. intros u2 H' ->. go. destruct (x =? 1); [|destruct (x =? 2)].
    - eapply tri_bind; [eapply BS_write_key; [eassumption|exact Hk1]|cbv beta]. intros u3 H3 HB3. go. destruct b0; simpl negb; cbv iota; [|fin; eapply give_up; [eassumption|insub|keys]].
      eapply tri_bind; [eapply BS_write_key; [eassumption|exact Hk1]|cbv beta]. intros u4 H4 HB4. go.
      eapply tri_bind with (P := fun _ H' => exists t', same_keys (with_key k t0') t' /\ BS ((TM ++ [I_FILTER_RRTYPE]) ++ [I_FILTER_SINGLE_LABEL]) t' H').
      { destruct b0; [eapply BS_filter_index; [eassumption|reflexivity|exact Hz1|notin|discriminate]|]. fin. exists (with_key k t0'). split; [apply same_keys_refl|]. eapply BS_weaken; [|eassumption]. insub. }
      cbv beta. intros u5 H5 (t5 & E5 & HB5). eapply BS_index; [eassumption|keys|cbv beta]. intros i H6 HB6.
      eapply iter_init_ok; [eassumption|insub|keys|keys|discriminate].
    - eapply tri_bind; [eapply BS_write_key; [eassumption|exact Hk1]|cbv beta]. intros u4 H4 HB4.
      eapply tri_bind; [eapply BS_filter_if; [eassumption|reflexivity|exact Hz1|notin|eapply BS_choice; [eassumption|discriminate]]|cbv beta]. intros u5 H5 (t5 & E5 & HB5).
      eapply iter_init_ok; [eassumption|insub|keys|keys|discriminate].
    - eapply tri_bind; [eapply BS_write_key; [eassumption|exact Hk1]|cbv beta]. intros u4 H4 HB4.
      eapply iter_init_ok; [eassumption|insub|keys|keys|discriminate].
  Qed.

  Lemma query_init_rdata_ip_ok t H : BS TM t H -> t_key t = 0 -> t_m_iter t = 0 -> tri (f_rm fl) H (query_init_rdata_ip it) init_post.
  Proof.
    intros HB Hk Hm. unfold query_init_rdata_ip.
    eapply tri_bind; [eapply BS_init_key; eassumption|cbv beta]. intros u1 H1 (k & Hk1 & HB1).
    eapply tri_bind; [eapply BS_write_key; [eassumption|exact Hk1]|cbv beta]. intros u2 H2 HB2. go.
    eapply tri_bind with (P := fun _ H' => exists k2, BS TM (with_key2 k2 (with_key k t)) H').
    { destruct b; [eapply BS_write_key2; [eassumption|exact Hk1]|]. fin. exists (t_key2 t). exact HB2. }
    cbv beta. intros u3 H3 (k2 & HB3).
    eapply tri_bind; [eapply BS_filter; [eassumption|reflexivity|exact Hz2|notin|discriminate]|cbv beta]. intros u4 H4 (t4 & E4 & HB4).
    eapply iter_init_ok; [eassumption|insub|keys|keys|discriminate].
  Qed.

  Lemma query_init_rdata_raw_ok t H : q_rdata d <> 0 -> BS TM t H -> t_key t = 0 -> t_m_iter t = 0 -> tri (f_rm fl) H (query_init_rdata_raw it) init_post.
  Proof.
    intros Hn HB Hk Hm. unfold query_init_rdata_raw.
    eapply tri_bind; [eapply BS_init_key; eassumption|cbv beta]. intros u1 H1 (k & Hk1 & HB1).
    eapply tri_bind; [eapply BS_query; eassumption|cbv beta]. intros r H' [-> ->].
    rewrite (blk_nz _ Hn) in Hrdata. assert (Hi : In (q_rdata d, OBytes) H1) by (apply (BS_in _ _ _ HB1), Hrdata; mem). go.
    eapply tri_bind; [eapply BS_write_key; [eassumption|exact Hk1]|cbv beta]. intros u2 H2 HB2.
    eapply tri_bind; [eapply BS_filter_if; [eassumption|reflexivity|exact Hz2|notin|eapply BS_choice; [eassumption|discriminate]]|cbv beta]. intros u4 H4 (t4 & E4 & HB4).
    eapply iter_init_ok; [eassumption|insub|keys|keys|discriminate].
  Qed.

  Lemma query_init_other_ok t H : BS TM t H -> t_key t = 0 -> t_m_iter t = 0 -> tri (f_rm fl) H (query_init_other it) init_post.
  Proof.
    intros HB Hk Hm. unfold query_init_other.
    eapply tri_bind; [eapply BS_init_key; eassumption|cbv beta]. intros u1 H1 (k & Hk1 & HB1).
    eapply tri_bind; [eapply BS_write_key; [eassumption|exact Hk1]|cbv beta]. intros u2 H2 HB2.
    eapply iter_init_ok; [eassumption|insub|keys|keys|discriminate].
  Qed.
End Build.
