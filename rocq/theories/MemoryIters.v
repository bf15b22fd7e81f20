(** * Memory: the sources and iterators of query_mtbl.c *)
From Coq Require Import Permutation.
From Verif Require Import Base ModelMemory HeapLogic MemoryBasics.

(** What may occur in a tree of sources: stages that remove keys, timeouts, bailiwick
    filters. *)
Record flags := { f_rm : bool; f_tm : bool; f_bw : bool }.

(** The source [s], built for the query iterator [it] from blocks in [F]. *)
Inductive src (fl : flags) (F : list cell) (it : N) : N -> Prop :=
| src_base s : In (s, OSource SBase) F -> src fl F it s
| src_filter s f u fn :
    In (s, OSource (SFilter f)) F -> In (f, OFilter u s fn it) F -> (fn = FBailiwick -> f_bw fl = true) -> src fl F it u -> src fl F it s
| src_timeout s t u : f_tm fl = true -> In (s, OSource (STimeout t)) F -> In (t, OTimeout u s it) F -> src fl F it u -> src fl F it s
| src_ljoin s j l r : In (s, OSource (SLjoin j)) F -> In (j, OLjoin l r s) F -> src fl F it l -> src fl F it r -> src fl F it s
| src_remove s r u v d l :
    f_rm fl = true -> In (s, OSource (SRemove r)) F -> In (r, ORemove u s v) F -> incl (vec v d l) F ->
    Forall (fun x => In (x, OSource SBase) F) l -> src fl F it u -> src fl F it s.

Lemma src_mono fl F F' it s : incl F F' -> src fl F it s -> src fl F' it s.
Proof.
  intro Hi. induction 1.
  - apply src_base. auto.
  - eapply src_filter; eauto.
  - eapply src_timeout; eauto.
  - eapply src_ljoin; eauto.
  - apply (src_remove fl F' it s r u v d l); auto.
    + eapply incl_tran; eassumption.
    + eapply Forall_impl; [|eassumption]. auto.
Qed.

(** The iterator [p] over the source [s]; the last argument lists the blocks it owns. *)
Definition simple (F : list cell) (it : N) (C : list cell) : Prop :=
  (it = 0 /\ C = []) \/ (exists s, it <> 0 /\ In (s, OSource SBase) F /\ C = [(it, OIter (IBase s))]).
Inductive entries (F : list cell) : list (N * N) -> list cell -> Prop :=
| entries_nil : entries F [] []
| entries_cons s it C es E : In (s, OSource SBase) F -> simple F it C -> entries F es E -> entries F ((s, it) :: es) (C ++ E).
Inductive tree (fl : flags) (F : list cell) (it : N) : N -> N -> list cell -> Prop :=
| tree_simple s p C : simple F p C -> tree fl F it s p C
| tree_filter s p i f u fn t w T :
    In (s, OSource (SFilter f)) F -> In (f, OFilter u s fn it) F -> (fn = FBailiwick -> f_bw fl = true) -> tree fl F it u t T ->
    tree fl F it s p ((p, OIter (IFilter i)) :: (i, OFilterIter f t w) :: (w, OIter (IWrap i)) :: T)
| tree_timeout s p i t u c T :
    f_tm fl = true -> In (s, OSource (STimeout t)) F -> In (t, OTimeout u s it) F -> tree fl F it u c T ->
    tree fl F it s p ((p, OIter (ITimeout i)) :: (i, OTimeoutIter t c) :: T)
| tree_ljoin s p i j l r a b v T1 T2 :
    In (s, OSource (SLjoin j)) F -> In (j, OLjoin l r s) F -> tree fl F it l a T1 -> tree fl F it r b T2 ->
    tree fl F it s p ((p, OIter (ILjoin i)) :: (i, OLjoinIter j a b v) :: blk v ++ T1 ++ T2)
| tree_remove s p i r u v c e k k2 es T E :
    f_rm fl = true -> In (s, OSource (SRemove r)) F -> In (r, ORemove u s v) F -> tree fl F it u c T -> entries F es E ->
    tree fl F it s p ((p, OIter (IRemove i)) :: (i, ORemoveIter r c e k k2) :: (e, OEntries es) :: blk k ++ blk k2 ++ E ++ T).

Lemma simple_mono F F' p C : incl F F' -> simple F p C -> simple F' p C.
Proof. intros Hi [H|(s & Hz & Hs & H)]; [left; exact H|right; exists s; auto]. Qed.
Lemma entries_mono F F' es E : incl F F' -> entries F es E -> entries F' es E.
Proof. intros Hi. induction 1; constructor; auto. eapply simple_mono; eauto. Qed.
Lemma tree_mono fl F F' it s p T : incl F F' -> tree fl F it s p T -> tree fl F' it s p T.
Proof.
  intro Hi. induction 1.
  - apply tree_simple. eapply simple_mono; eauto.
  - eapply tree_filter; eauto.
  - eapply tree_timeout; eauto.
  - eapply tree_ljoin; eauto.
  - eapply tree_remove; eauto. eapply entries_mono; eauto.
Qed.
Lemma tree_null fl F it s : tree fl F it s 0 [].
Proof. apply tree_simple. left. auto. Qed.

(** ** Making them *)

Lemma entries_fresh F l : Forall (fun x => In (x, OSource SBase) F) l -> entries F (map (fun s => (s, 0)) l) [].
Proof.
  induction 1; simpl; [constructor|]. change (@nil cell) with (@nil cell ++ []). constructor; auto. left. auto.
Qed.

Lemma maybe_block rm (b : bool) H : tri rm H (if b then malloc OBytes else ret 0) (fun k H' => H' = blk k ++ H).
Proof. destruct b; [|fin; reflexivity]. go. fin. rewrite blk_nz by assumption. reflexivity. Qed.

Lemma source_get_ok fl F it n : forall s H, src fl F it s -> incl F H ->
  tri (f_rm fl) H (source_get n s) (fun p H' => exists T, tree fl F it s p T /\ Permutation H' (T ++ H)).
Proof.
  induction n as [|n IH]; intros s H Hs Hi; simpl; [apply tri_hang|].
  destruct Hs as [s Hs|s f u fn Hs Hf Hb Hu|s t u Ht Hs Hf Hu|s j l r Hs Hf Hl Hr|s r u v d l Ht Hs Hf Hv Hl Hu].
  - go. destruct b.
    + go. fin. eexists. split; [apply tree_simple; right; exists s; split; [assumption|]; split; [exact Hs|reflexivity]|]. reflexivity.
    + fin. exists []. split; [apply tree_null|reflexivity].
  - go. eapply tri_bind; [apply (IH u H Hu Hi)|]. intros t H1 (T & HT & HP). cbv beta in HP. go. fin.
    eexists. split; [eapply (tree_filter fl F it s p1 p f u fn t p0 T Hs Hf Hb HT)|]. rewrite HP. perm.
  - go. eapply tri_bind; [apply (IH u H Hu Hi)|]. intros c H1 (T & HT & HP). cbv beta in HP. go. fin.
    eexists. split; [eapply (tree_timeout fl F it s p0 p t u c T Ht Hs Hf HT)|]. rewrite HP. perm.
  - go. eapply tri_bind; [apply (IH l H Hl Hi)|]. intros a H1 (T1 & HT1 & HP1). cbv beta in HP1.
    eapply tri_bind; [apply (IH r H1 Hr)|]. { intros x Hx. rewrite HP1. apply in_or_app. right. apply Hi, Hx. }
    intros b H2 (T2 & HT2 & HP2). cbv beta in HP2. go. fin.
    eexists. split; [eapply (tree_ljoin fl F it s p0 p j l r a b 0 T1 T2 Hs Hf HT1 HT2)|]. rewrite HP2, HP1, blk_0. perm.
  - go. eapply tri_bind; [apply (IH u H Hu Hi)|]. intros c H1 (T & HT & HP). cbv beta in HP. start HP. go.
    use maybe_block. intros k H2 ->. go. use maybe_block. intros k2 H3 ->. go. fin.
    eexists. split; [eapply (tree_remove fl F it s p1 p0 r u v c p k k2 _ T [] Ht Hs Hf HT (entries_fresh F l Hl))|]. perm.
Qed.

(** ** Destroying them *)

Lemma simple_destroy_ok rm F n p C H R : simple F p C -> incl F R -> Permutation H (C ++ R) -> tri rm H (iter_destroy n p) (fun _ H' => Permutation H' R).
Proof.
  intros HC Hi HP. destruct n as [|n]; simpl; [apply tri_hang|]. destruct HC as [[-> ->]|(s & _ & Hs & ->)].
  - simpl. fin. exact HP.
  - start HP. simpl app. eapply tri_nz; [left; reflexivity|]. intro Hp. apply N.eqb_neq in Hp. rewrite Hp.
    assert (Hs' : In (s, OSource SBase) R) by (apply Hi, Hs). go. fin. reflexivity.
Qed.
Lemma entries_destroy_ok rm F n es : forall E H R, entries F es E -> incl F R -> Permutation H (E ++ R) ->
  tri rm H (for_each es (fun x => iter_destroy n (snd x))) (fun _ H' => Permutation H' R).
Proof.
  induction es as [|[s it] es IH]; intros E H R HE Hi HP; simpl; inversion HE; subst.
  - fin. exact HP.
  - eapply tri_bind; [eapply (simple_destroy_ok _ F n it C H (E0 ++ R)); [assumption|inclu|rewrite HP; perm]|].
    intros u H1 HP1. eapply IH; eassumption.
Qed.

Lemma iter_destroy_ok fl F it n : forall s p T H R, tree fl F it s p T -> incl F R -> Permutation H (T ++ R) ->
  tri (f_rm fl) H (iter_destroy n p) (fun _ H' => Permutation H' R).
Proof.
  induction n as [|n IH]; intros s p T H R HT Hi HP; [apply tri_hang|]. destruct HT.
  - eapply simple_destroy_ok; eassumption.
  - simpl. start HP. simpl app. eapply tri_nz; [left; reflexivity|]. intro Hp. apply N.eqb_neq in Hp. rewrite Hp. go.
    eapply tri_bind; [eapply (IH _ t T _ ((p, OIter (IFilter i)) :: (i, OFilterIter f t w) :: (w, OIter (IWrap i)) :: R)); [eassumption|inclu|perm]|].
    intros u1 H3 HP1. cbv beta in HP1.
    go. eapply tri_bind with (P := fun _ H' => Permutation H' ((p, OIter (IFilter i)) :: (i, OFilterIter f t w) :: R)).
    { start HP1. destruct n as [|n]; simpl; [apply tri_hang|]. eapply tri_nz; [right; right; left; reflexivity|]. intro Hw.
      apply N.eqb_neq in Hw. rewrite Hw. go. fin. reflexivity. }
    intros u2 H4 HP2. cbv beta in HP2. start HP2. go. fin. reflexivity.
  - simpl. start HP. simpl app. eapply tri_nz; [left; reflexivity|]. intro Hp. apply N.eqb_neq in Hp. rewrite Hp. go.
    eapply tri_bind; [eapply (IH _ c T _ ((p, OIter (ITimeout i)) :: (i, OTimeoutIter t c) :: R)); [eassumption|inclu|perm]|].
    intros u1 H3 HP1. cbv beta in HP1. start HP1. go. fin. reflexivity.
  - simpl. start HP. simpl app. rewrite <- !app_assoc. eapply tri_nz; [left; reflexivity|]. intro Hp. apply N.eqb_neq in Hp. rewrite Hp. fgo.
    eapply tri_bind; [eapply (IH _ a T1 _ ((p, OIter (ILjoin i)) :: (i, OLjoinIter j a b v) :: T2 ++ R)); [eassumption|inclu|perm]|].
    intros u1 H3 HP1. cbv beta in HP1. go.
    eapply tri_bind; [eapply (IH _ b T2 _ ((p, OIter (ILjoin i)) :: (i, OLjoinIter j a b v) :: R)); [eassumption|inclu|rewrite HP1; perm]|].
    intros u2 H4 HP2. cbv beta in HP2. start HP2. go. fin. reflexivity.
  - simpl. start HP. simpl app. rewrite <- !app_assoc. eapply tri_nz; [left; reflexivity|]. intro Hp. apply N.eqb_neq in Hp. rewrite Hp. go.
    eapply tri_leak with (L := blk k ++ blk k2); [assumption|apply Forall_app; split; apply blk_bytes| |].
    { instantiate (1 := (p, OIter (IRemove i)) :: (i, ORemoveIter r c e k k2) :: (e, OEntries es) :: E ++ T ++ R). perm. }
    eapply tri_bind; [eapply (IH _ c T _ ((p, OIter (IRemove i)) :: (i, ORemoveIter r c e k k2) :: (e, OEntries es) :: E ++ R)); [eassumption|inclu|perm]|].
    intros u1 H4 HP1. cbv beta in HP1. start HP1. go.
    eapply tri_bind; [eapply (entries_destroy_ok _ F n es E _ ((p, OIter (IRemove i)) :: (i, ORemoveIter r c e k k2) :: (e, OEntries es) :: R)); [eassumption|inclu|perm]|].
    intros u2 H5 HP2. cbv beta in HP2. start HP2. go. fin. reflexivity.
Qed.

(** ** Seeking *)

Lemma simple_seek_ok rm F n p C H : simple F p C -> incl F H -> incl C H -> tri rm H (iter_seek n p) (fun _ H' => H' = H).
Proof.
  intros HC Hi HI. destruct n as [|n]; simpl; [apply tri_hang|]. destruct HC as [[-> ->]|(s & _ & Hs & ->)].
  - simpl. fin. reflexivity.
  - assert (Hp : In (p, OIter (IBase s)) H) by (apply HI; left; reflexivity). eapply tri_nz; [exact Hp|]. intro Hz.
    apply N.eqb_neq in Hz. rewrite Hz. assert (Hs' : In (s, OSource SBase) H) by (apply Hi, Hs). go. fin. reflexivity.
Qed.
Lemma simple_next_ok rm F n p C H : simple F p C -> incl F H -> incl C H -> tri rm H (iter_next n p) (fun r H' => H' = H).
Proof.
  intros HC Hi HI. destruct n as [|n]; simpl; [apply tri_hang|]. destruct HC as [[-> ->]|(s & _ & Hs & ->)].
  - simpl. fin. reflexivity.
  - assert (Hp : In (p, OIter (IBase s)) H) by (apply HI; left; reflexivity). eapply tri_nz; [exact Hp|]. intro Hz.
    apply N.eqb_neq in Hz. rewrite Hz. assert (Hs' : In (s, OSource SBase) H) by (apply Hi, Hs). go. fin. reflexivity.
Qed.

Lemma iter_seek_ok fl F it n : forall s p T H, tree fl F it s p T -> incl F H -> incl T H ->
  tri (f_rm fl) H (iter_seek n p) (fun _ H' => H' = H).
Proof.
  induction n as [|n IH]; intros s p T H HT Hi HI; [apply tri_hang|].
  pose proof (fun Hp => HI (p, Hp)) as Hhead.
  destruct HT.
  - eapply simple_seek_ok; eassumption.
  - assert (Hp : In (p, OIter (IFilter i)) H) by (apply HI; mem). simpl. eapply tri_nz; [exact Hp|]. intro Hz.
    apply N.eqb_neq in Hz. rewrite Hz. assert (Hii : In (i, OFilterIter f t w) H) by (apply HI; mem). go.
    eapply IH; [eassumption|assumption|]. intros x Hx. apply HI. mem.
  - assert (Hp : In (p, OIter (ITimeout i)) H) by (apply HI; mem). simpl. eapply tri_nz; [exact Hp|]. intro Hz.
    apply N.eqb_neq in Hz. rewrite Hz. assert (Hii : In (i, OTimeoutIter t c) H) by (apply HI; mem). go.
    eapply IH; [eassumption|assumption|]. intros x Hx. apply HI. mem.
  - assert (Hp : In (p, OIter (ILjoin i)) H) by (apply HI; mem). simpl. eapply tri_nz; [exact Hp|]. intro Hz.
    apply N.eqb_neq in Hz. rewrite Hz. assert (Hii : In (i, OLjoinIter j a b v) H) by (apply HI; mem). go.
    eapply tri_bind; [eapply (IH _ a T1); [eassumption|assumption|]; intros x Hx; apply HI; mem|]. intros ok H' ->. destruct ok; [|fin; reflexivity].
    eapply tri_bind; [eapply (IH _ b T2); [eassumption|assumption|]; intros x Hx; apply HI; mem|]. intros ok H' ->. fin. reflexivity.
  - assert (Hp : In (p, OIter (IRemove i)) H) by (apply HI; mem). simpl. eapply tri_nz; [exact Hp|]. intro Hz.
    apply N.eqb_neq in Hz. rewrite Hz. assert (Hii : In (i, ORemoveIter r c e k k2) H) by (apply HI; mem).
    assert (He : In (e, OEntries es) H) by (apply HI; mem). assert (Hr : In (r, ORemove u s v) H) by (apply Hi; assumption). go.
    eapply tri_bind with (P := fun _ H' => H' = H).
    + assert (HE : incl E H) by (intros x Hx; apply HI; mem). match goal with HEn : entries F es E |- _ => clear - IH HEn HE Hi Hr; revert E HEn HE end.
      induction es as [|[s0 it0] es IHes]; intros E HEn HE; simpl; [fin; reflexivity|]. inversion HEn; subst.
      apply incl_app_inv in HE as [HC HE].
      eapply tri_bind with (P := fun _ H' => H' = H); [|intros u1 H' ->; eapply IHes; eassumption].
      destruct (it0 =? 0); [fin; reflexivity|]. go. destruct b; [|fin; reflexivity].
      eapply tri_bind; [eapply simple_seek_ok; eassumption|]. intros ok H' ->. destruct ok; [|fin; reflexivity]. go.
      eapply tri_bind; [eapply simple_next_ok; eassumption|]. intros r0 H' ->. fin. reflexivity.
    + intros u1 H' ->. eapply (IH _ c T); [eassumption|assumption|]. intros x Hx. apply HI. mem.
Qed.

(** ** Going on *)

(** The query iterator [it] while its iterators run: only key2 changes. *)
Definition QI (it : N) (t : query_iter_data) (kd : N) (K : list cell) : Prop :=
  exists k2 C2, kbuf k2 C2 /\ K = (it, OQueryIter (with_key2 k2 t)) :: ubuf (t_key t) kd ++ C2.
(** What the filters need of the query. *)
Definition query_env (fl : flags) (q : N) (R : list cell) : Prop :=
  exists d, In (q, OQuery d) R /\ incl (blk (q_bailiwick d)) R /\ (f_bw fl = true -> good_bailiwick d = true).

Lemma query_env_mono fl q R R' : incl R R' -> query_env fl q R -> query_env fl q R'.
Proof. intros Hi (d & H1 & H2 & H3). exists d. repeat apply conj; auto. eapply incl_tran; eassumption. Qed.

Lemma write_key2_ok rm it t kd K H R : QI it t kd K -> Permutation H (K ++ R) ->
  tri rm H (write_key2 it) (fun _ H' => exists K', QI it t kd K' /\ Permutation H' (K' ++ R) /\
     exists k2 d, k2 <> 0 /\ K' = (it, OQueryIter (with_key2 k2 t)) :: ubuf (t_key t) kd ++ ubuf k2 d).
Proof.
  intros (k2 & C2 & HC & ->) HP. start HP. simpl app. unfold write_key2. go.
  eapply tri_bind with (P := fun _ H' => exists k d, k <> 0 /\ Permutation H' ((it, OQueryIter (with_key2 k t)) :: ubuf (t_key t) kd ++ ubuf k d ++ R)).
  - destruct HC as [[-> ->]|[Hk [d ->]]]; simpl t_key2.
    + simpl N.eqb. cbv iota. use ubuf_init_ok. intros u H1 (Hu & d & ->). go. fin. exists u, d. split; [exact Hu|].
      change (with_key2 u (with_key2 0 t)) with (with_key2 u t). unfold ubuf. simpl app. perm.
    + apply N.eqb_neq in Hk as Hk'. rewrite Hk'. fin. exists k2, d. split; [exact Hk|]. unfold ubuf. simpl app. perm.
  - intros u H1 (k & d & Hk & HP1). start HP1. go. simpl t_key2.
    eapply tri_post; [apply (ubuf_write_ok _ k d _ ((it, OQueryIter (with_key2 k t)) :: ubuf (t_key t) kd ++ R)); unfold ubuf; simpl app; perm|].
    intros u2 H2 (d' & HP2). cbv beta in HP2. eexists. split; [|split].
    + exists k, (ubuf k d'). split; [right; eauto|reflexivity].
    + rewrite HP2. unfold ubuf. simpl app. perm.
    + exists k, d'. split; [exact Hk|]. reflexivity.
Qed.

Lemma run_filter_ok fl fn it t kd K H R seek :
  QI it t kd K -> Permutation H (K ++ R) -> query_env fl (t_query t) R -> (fn = FBailiwick -> f_bw fl = true) ->
  (forall H', incl R H' -> tri (f_rm fl) H' seek (fun _ H2 => H2 = H')) ->
  tri (f_rm fl) H (run_filter fn it seek) (fun _ H' => exists K', QI it t kd K' /\ Permutation H' (K' ++ R)).
Proof.
  intros HK HP (d & Hd & Hb & Hg) Hfn Hseek.
  assert (Hkeep : exists K', QI it t kd K' /\ Permutation H (K' ++ R)) by (exists K; auto).
  assert (Hcell : exists k2 C2, kbuf k2 C2 /\ K = (it, OQueryIter (with_key2 k2 t)) :: ubuf (t_key t) kd ++ C2) by exact HK.
  destruct Hcell as (k2 & C2 & HC2 & EK).
  assert (Hit : In (it, OQueryIter (with_key2 k2 t)) H) by (rewrite HP, EK; mem).
  assert (Hkey : incl (ubuf (t_key t) kd) H) by (intros x Hx; rewrite HP, EK; mem).
  assert (HdH : In (t_query t, OQuery d) H) by (rewrite HP; mem).
  unfold run_filter. destruct fn.
  - (* one label *)
    go. simpl t_key. eapply tri_bind; [eapply ubuf_read_ok, Hkey|]. intros u1 H' ->. go. destruct b.
    + eapply tri_bind; [apply (write_key2_ok _ it t kd K H R HK HP)|]. intros u2 H1 (K' & HK' & HP1 & k3 & d3 & Hk3 & EK'). cbv beta in HP1.
      assert (Hi1 : In (it, OQueryIter (with_key2 k3 t)) H1) by (rewrite HP1, EK'; mem). go. simpl t_key2.
      eapply tri_bind; [apply (ubuf_read_ok _ k3 d3); intros x Hx; rewrite HP1, EK'; mem|]. intros u3 H' ->.
      eapply tri_bind; [apply Hseek; intros x Hx; rewrite HP1; mem|]. intros r H' ->. fin. eauto.
    + go. fin. exact Hkeep.
  - go. fin. exact Hkeep.
  - (* addresses *)
    go. destruct b; [fin; exact Hkeep|].
    eapply tri_bind; [apply (write_key2_ok _ it t kd K H R HK HP)|]. intros u2 H1 (K' & HK' & HP1 & k3 & d3 & Hk3 & EK'). cbv beta in HP1.
    assert (Hi1 : In (it, OQueryIter (with_key2 k3 t)) H1) by (rewrite HP1, EK'; mem). go. simpl t_key. simpl t_key2.
    eapply tri_bind; [apply (ubuf_read_ok _ (t_key t) kd); intros x Hx; rewrite HP1, EK'; mem|]. intros u3 H' ->.
    eapply tri_bind; [apply (ubuf_write_ok _ k3 d3 _ ((it, OQueryIter (with_key2 k3 t)) :: ubuf (t_key t) kd ++ R)); rewrite HP1, EK'; unfold ubuf; simpl app; perm|].
    intros u4 H2 (d4 & HP2). cbv beta in HP2.
    assert (HK2 : exists K', QI it t kd K' /\ Permutation H2 (K' ++ R)).
    { eexists. split; [exists k3, (ubuf k3 d4); split; [right; eauto|reflexivity]|]. rewrite HP2. unfold ubuf. simpl app. perm. }
    go. destruct b.
    + assert (Hi2 : In (it, OQueryIter (with_key2 k3 t)) H2) by (rewrite HP2; mem). go. simpl t_key2.
      eapply tri_bind; [apply (ubuf_read_ok _ k3 d4); intros x Hx; rewrite HP2; mem|]. intros u5 H' ->.
      eapply tri_bind; [apply Hseek; intros x Hx; rewrite HP2; mem|]. intros r H' ->. fin. exact HK2.
    + go. fin. exact HK2.
  - go. fin. exact Hkeep.
  - (* bailiwick *)
    specialize (Hg (Hfn eq_refl)). go. unfold good_bailiwick in Hg.
    destruct (b && (negb (q_bailiwick d =? 0) || q_stale d)) eqn:E; [|fin; exact Hkeep].
    apply andb_true_iff in E as [_ E].
    assert (Hz : (q_bailiwick d =? 0) = false) by (destruct (q_bailiwick d =? 0); destruct (q_stale d); simpl in *; congruence).
    unfold blk in Hb. rewrite Hz in Hb. assert (Hbb : In (q_bailiwick d, OBytes) H) by (rewrite HP; apply in_or_app; right; apply Hb; mem).
    go. fin. exact Hkeep.
  - go. fin. exact Hkeep.
  - go. fin. exact Hkeep.
Qed.

Section Next.
  Variables (fl : flags) (F : list cell) (it : N) (t : query_iter_data) (kd : N).
  Definition ready (R : list cell) : Prop := incl F R /\ query_env fl (t_query t) R /\ (f_tm fl = true -> t_armed t = true).
  Lemma ready_mono R R' : incl R R' -> ready R -> ready R'.
  Proof. intros Hi (H1 & H2 & H3). repeat apply conj; [eapply incl_tran; eassumption|eapply query_env_mono; eassumption|exact H3]. Qed.

  (** The tree [p] after a call, with [R] untouched. *)
  Definition left_with (s p : N) (R : list cell) (r : step) (H' : list cell) : Prop :=
    exists T' K', tree fl F it s p T' /\ QI it t kd K' /\ Permutation H' (T' ++ K' ++ R).

  Definition next_spec (n : nat) : Prop := forall s p T K R H,
    tree fl F it s p T -> QI it t kd K -> ready R -> Permutation H (T ++ K ++ R) -> tri (f_rm fl) H (iter_next n p) (left_with s p R).
  Definition filter_spec (n : nat) : Prop := forall i f u s fn c w T K R H,
    In (f, OFilter u s fn it) F -> (fn = FBailiwick -> f_bw fl = true) ->
    tree fl F it u c T -> QI it t kd K -> ready R -> Permutation H ((i, OFilterIter f c w) :: (w, OIter (IWrap i)) :: T ++ K ++ R) ->
    tri (f_rm fl) H (filter_next n i) (fun _ H' => exists T' K', tree fl F it u c T' /\ QI it t kd K' /\
       Permutation H' ((i, OFilterIter f c w) :: (w, OIter (IWrap i)) :: T' ++ K' ++ R)).
  Definition ljoin_spec (n : nat) : Prop := forall i j l r s a b v T1 T2 K R H,
    In (j, OLjoin l r s) F -> tree fl F it l a T1 -> tree fl F it r b T2 -> QI it t kd K -> ready R ->
    Permutation H ((i, OLjoinIter j a b v) :: blk v ++ T1 ++ T2 ++ K ++ R) ->
    tri (f_rm fl) H (ljoin_right n i) (fun _ H' => exists v' T2' K', tree fl F it r b T2' /\ QI it t kd K' /\
       Permutation H' ((i, OLjoinIter j a b v') :: blk v' ++ T1 ++ T2' ++ K' ++ R)).
  Definition remove_spec (n : nat) : Prop := forall i r u s v c e k k2 es T E K R H,
    f_rm fl = true -> In (r, ORemove u s v) F -> tree fl F it u c T -> entries F es E -> QI it t kd K -> ready R ->
    Permutation H ((i, ORemoveIter r c e k k2) :: (e, OEntries es) :: blk k ++ blk k2 ++ E ++ T ++ K ++ R) ->
    tri (f_rm fl) H (remove_next n i) (fun _ H' => exists es' E' T' K', tree fl F it u c T' /\ entries F es' E' /\ QI it t kd K' /\
       Permutation H' ((i, ORemoveIter r c e k k2) :: (e, OEntries es') :: blk k ++ blk k2 ++ E' ++ T' ++ K' ++ R)).
  Definition match_key_spec (n : nat) : Prop := forall r u s v e k k2 l1 l2 E R H,
    f_rm fl = true -> In (r, ORemove u s v) F -> entries F (l1 ++ l2) E -> incl F R -> incl (blk k ++ blk k2) R ->
    Permutation H ((e, OEntries (l1 ++ l2)) :: E ++ R) ->
    tri (f_rm fl) H (match_key n r e k k2 l1 l2) (fun _ H' => exists es' E', entries F es' E' /\ Permutation H' ((e, OEntries es') :: E' ++ R)).
  Definition match_entry_spec (n : nat) : Prop := forall r u s v p C H,
    In (r, ORemove u s v) H -> incl F H -> simple F p C -> incl C H -> tri (f_rm fl) H (match_entry n r p) (fun _ H' => H' = H).

  Lemma entries_split l1 s0 p0 l2 E : entries F (l1 ++ (s0, p0) :: l2) E ->
    exists C E', simple F p0 C /\ In (s0, OSource SBase) F /\ Permutation E (C ++ E') /\
      forall p1 C1, simple F p1 C1 -> exists E1, entries F (l1 ++ (s0, p1) :: l2) E1 /\ Permutation E1 (C1 ++ E').
  Proof.
    revert E. induction l1 as [|[s1 q1] l1 IH]; intros E HE; simpl in HE; inversion HE; subst.
    - exists C, E0. repeat apply conj; auto. intros p1 C1 HC1. exists (C1 ++ E0). split; [|reflexivity]. simpl. constructor; assumption.
    - destruct (IH _ H5) as (C0 & E' & HC0 & Hs0 & HP0 & Hall). exists C0, (C ++ E'). repeat apply conj; auto.
      + rewrite HP0. perm.
      + intros p1 C1 HC1. destruct (Hall p1 C1 HC1) as (E1 & HE1 & HP1). exists (C ++ E1). split; [simpl; constructor; assumption|]. rewrite HP1. perm.
  Qed.

  Lemma source_get_base n s H : In (s, OSource SBase) H -> tri (f_rm fl) H (source_get n s) (fun p H' => exists C, Permutation H' (C ++ H) /\ (p = 0 /\ C = [] \/ p <> 0 /\ C = [(p, OIter (IBase s))])).
  Proof.
    intro Hs. destruct n as [|n]; simpl; [apply tri_hang|]. go. destruct b; go; fin; [exists [(p, OIter (IBase s))]|exists []]; auto.
  Qed.

  Lemma next_all n : next_spec n /\ filter_spec n /\ ljoin_spec n /\ remove_spec n /\ match_key_spec n /\ match_entry_spec n.
  Proof.
    induction n as [|n (IHn & IHf & IHl & IHr & IHk & IHe)].
    { repeat apply conj; repeat intro; exact I. }
    repeat apply conj.
    - (* next *)
      intros s p T K R H HT HK HR HP. destruct HT.
      + assert (HF : incl F R) by apply HR.
        eapply tri_post; [eapply simple_next_ok with (F := F); [eassumption| |]; intros x Hx; rewrite HP; mem|].
        intros r H' ->. exists C, K. repeat apply conj; [apply tree_simple; assumption|assumption|exact HP].
      + start HP. simpl. eapply tri_nz; [left; reflexivity|]. intro Hz. apply N.eqb_neq in Hz. rewrite Hz. go.
        eapply tri_post; [eapply (IHf i f u s fn t0 w T K ((p, OIter (IFilter i)) :: R)); try eassumption; [eapply ready_mono; [|eassumption]; inclu|perm]|].
        intros r H' (T' & K' & HT' & HK' & HP'). cbv beta in HP'. exists ((p, OIter (IFilter i)) :: (i, OFilterIter f t0 w) :: (w, OIter (IWrap i)) :: T'), K'.
        repeat apply conj; [eapply tree_filter; eassumption|exact HK'|]. rewrite HP'. perm.
      + destruct HK as (k2 & C2 & HC2 & EK). assert (HK : QI it t kd K) by (exists k2, C2; auto).
        start HP. simpl. eapply tri_nz; [left; reflexivity|]. intro Hz. apply N.eqb_neq in Hz. rewrite Hz.
        assert (HF : incl F R) by apply HR. assert (Hit : In (it, OQueryIter (with_key2 k2 t)) K) by (rewrite EK; mem). go. destruct b.
        * simpl t_armed. destruct HR as (_ & _ & Harm). rewrite Harm by assumption. fin.
          exists ((p, OIter (ITimeout i)) :: (i, OTimeoutIter t0 c) :: T), K. repeat apply conj; [eapply tree_timeout; eassumption|exact HK|reflexivity].
        * eapply tri_post; [eapply (IHn _ c T K ((p, OIter (ITimeout i)) :: (i, OTimeoutIter t0 c) :: R)); try eassumption; [eapply ready_mono; [|eassumption]; inclu|perm]|].
          intros r H' (T' & K' & HT' & HK' & HP'). exists ((p, OIter (ITimeout i)) :: (i, OTimeoutIter t0 c) :: T'), K'.
          repeat apply conj; [eapply tree_timeout; eassumption|exact HK'|]. rewrite HP'. perm.
      + start HP. simpl. rewrite <- !app_assoc. eapply tri_nz; [left; reflexivity|]. intro Hz. apply N.eqb_neq in Hz. rewrite Hz. go.
        eapply tri_bind; [eapply (IHn _ a T1 K ((p, OIter (ILjoin i)) :: (i, OLjoinIter j a b v) :: blk v ++ T2 ++ R)); try eassumption; [eapply ready_mono; [|eassumption]; inclu|perm]|].
        intros x H' (T1' & K' & HT1' & HK' & HP'). cbv beta in HP'.
        assert (Hkeep : left_with s p R x H').
        { exists ((p, OIter (ILjoin i)) :: (i, OLjoinIter j a b v) :: blk v ++ T1' ++ T2), K'.
          repeat apply conj; [eapply tree_ljoin; eassumption|exact HK'|]. rewrite HP'. perm. }
        destruct x; [|fin; exact Hkeep|fin; exact Hkeep].
        eapply tri_post; [eapply (IHl i j l r s a b v T1' T2 K' ((p, OIter (ILjoin i)) :: R)); try eassumption; [eapply ready_mono; [|eassumption]; inclu|rewrite HP'; perm]|].
        intros x H2 (v' & T2' & K2 & HT2' & HK2 & HP2). cbv beta in HP2.
        exists ((p, OIter (ILjoin i)) :: (i, OLjoinIter j a b v') :: blk v' ++ T1' ++ T2'), K2.
        repeat apply conj; [eapply tree_ljoin; eassumption|exact HK2|]. rewrite HP2. perm.
      + start HP. simpl. rewrite <- !app_assoc. eapply tri_nz; [left; reflexivity|]. intro Hz. apply N.eqb_neq in Hz. rewrite Hz. go.
        eapply tri_post; [eapply (IHr i r u s v c e k k2 es T E K ((p, OIter (IRemove i)) :: R)); try eassumption; [eapply ready_mono; [|eassumption]; inclu|perm]|].
        intros x H' (es' & E' & T' & K' & HT' & HE' & HK' & HP'). cbv beta in HP'.
        exists ((p, OIter (IRemove i)) :: (i, ORemoveIter r c e k k2) :: (e, OEntries es') :: blk k ++ blk k2 ++ E' ++ T'), K'.
        repeat apply conj; [eapply tree_remove; eassumption|exact HK'|]. rewrite HP'. perm.
    - (* filter *)
      intros i f u s fn c w T K R H Hf Hfn HT HK HR HP. start HP. simpl. go.
      eapply tri_bind; [eapply (IHn _ c T K ((i, OFilterIter f c w) :: (w, OIter (IWrap i)) :: R)); try eassumption; [eapply ready_mono; [|eassumption]; inclu|perm]|].
      intros x H' (T' & K' & HT' & HK' & HP'). cbv beta in HP'.
      assert (HP2 : Permutation H' ((i, OFilterIter f c w) :: (w, OIter (IWrap i)) :: T' ++ K' ++ R)) by (rewrite HP'; perm).
      destruct x; [|fin; eauto|fin; eauto]. assert (HF : incl F R) by apply HR. start HP2. go.
      eapply tri_bind; [eapply (run_filter_ok fl fn it t kd K' _ ((i, OFilterIter f c w) :: (w, OIter (IWrap i)) :: T' ++ R)); [eassumption|perm| |assumption|]|].
      + eapply query_env_mono; [|apply HR]. inclu.
      + intros H3 HI. destruct n as [|n0]; [apply tri_hang|]. simpl.
        assert (Hw : In (w, OIter (IWrap i)) H3) by (apply HI; mem). eapply tri_nz; [exact Hw|]. intro Hz. apply N.eqb_neq in Hz. rewrite Hz.
        assert (Hi2 : In (i, OFilterIter f c w) H3) by (apply HI; mem). assert (Hf2 : In (f, OFilter u s fn it) H3) by (apply HI; mem). go.
        eapply iter_seek_ok; [eassumption| |]; intros y Hy; apply HI; mem.
      + intros [ok matched] H3 (K3 & HK3 & HP3). cbv beta in HP3.
        assert (HP4 : Permutation H3 ((i, OFilterIter f c w) :: (w, OIter (IWrap i)) :: T' ++ K3 ++ R)) by (rewrite HP3; perm).
        destruct ok; simpl negb; cbv iota; [|fin; eauto]. destruct matched; [fin; eauto|]. start HP4. go.
        eapply IHf; try eassumption. reflexivity.
    - (* left join *)
      intros i j l r s a b v T1 T2 K R H Hj HT1 HT2 HK HR HP. start HP. simpl. assert (HF : incl F R) by apply HR. go.
      destruct b0; [fin; exists v, T2, K; auto|]. go.
      eapply tri_bind with (P := fun _ H' => exists T2' K', tree fl F it r b T2' /\ QI it t kd K' /\ Permutation H' ((i, OLjoinIter j a b v) :: blk v ++ T1 ++ T2' ++ K' ++ R)).
      { destruct b0; [|fin; eauto 6].
        eapply tri_post; [eapply (IHn _ b T2 K ((i, OLjoinIter j a b v) :: blk v ++ T1 ++ R)); try eassumption; [eapply ready_mono; [|eassumption]; inclu|perm]|].
        intros x H' (T' & K' & HT' & HK' & HP'). exists T', K'. repeat apply conj; [assumption|assumption|]. rewrite HP'. perm. }
      intros x H' (T2' & K' & HT2' & HK' & HP'). destruct x; [|fin; eauto 7|fin; eauto 7]. start HP'. go. destruct b1.
      + eapply tri_bind; [eapply (iter_seek_ok fl F it n r b T2'); [eassumption| |]; intros y Hy; mem|]. intros ok H3 ->. destruct ok; [|fin; eauto 7]. go.
        eapply IHl; try eassumption. reflexivity.
      + fgo. destruct b1; go; fin.
        * exists p, T2', K'. repeat apply conj; [assumption|assumption|]. rewrite (blk_nz p) by assumption. perm.
        * exists 0, T2', K'. repeat apply conj; [assumption|assumption|]. rewrite blk_0. perm.
    - (* remove *)
      intros i r u s v c e k k2 es T E K R H Hrm Hr HT HE HK HR HP. start HP. simpl. assert (HF : incl F R) by apply HR. go.
      eapply tri_bind; [eapply (IHn _ c T K ((i, ORemoveIter r c e k k2) :: (e, OEntries es) :: blk k ++ blk k2 ++ E ++ R)); try eassumption; [eapply ready_mono; [|eassumption]; inclu|perm]|].
      intros x H' (T' & K' & HT' & HK' & HP'). cbv beta in HP'.
      assert (HP2 : Permutation H' ((i, ORemoveIter r c e k k2) :: (e, OEntries es) :: blk k ++ blk k2 ++ E ++ T' ++ K' ++ R)) by (rewrite HP'; perm).
      destruct x; [|fin; eauto 8|fin; eauto 8]. start HP2. go.
      eapply tri_bind; [eapply (IHk r u s v e k k2 [] es E ((i, ORemoveIter r c e k k2) :: blk k ++ blk k2 ++ T' ++ K' ++ R)); try eassumption; [inclu|inclu|simpl app; perm]|].
      intros x H3 (es' & E' & HE' & HP3). cbv beta in HP3.
      assert (HP4 : Permutation H3 ((i, ORemoveIter r c e k k2) :: (e, OEntries es') :: blk k ++ blk k2 ++ E' ++ T' ++ K' ++ R)) by (rewrite HP3; perm).
      destruct x; [|fin; eauto 8|fin; eauto 8]. eapply IHr; eassumption.
    - (* match_key *)
      intros r u s v e k k2 l1 l2 E R H Hrm Hr HE HF Hkk HP. simpl. destruct l2 as [|[s0 p0] l2]; [fin; eauto|].
      destruct (entries_split _ _ _ _ _ HE) as (C & E0 & HC & Hs0 & HPE & Hall). apply incl_app_inv in Hkk as [Hk1 Hk2].
      eapply tri_bind with (P := fun x H' => exists C1, simple F (fst x) C1 /\ Permutation H' ((e, OEntries (l1 ++ (s0, fst x) :: l2)) :: C1 ++ E0 ++ R)).
      { destruct (p0 =? 0) eqn:Ez.
        - apply N.eqb_eq in Ez. subst p0.
          assert (HC0 : exists C, simple F 0 C /\ Permutation H ((e, OEntries (l1 ++ (s0, 0) :: l2)) :: C ++ E0 ++ R)).
          { exists C. split; [exact HC|]. rewrite HP, HPE. perm. }
          go. eapply tri_bind; [eapply blk_read_ok; intros y Hy; rewrite HP; mem|]. intros u1 H' ->.
          eapply tri_bind; [eapply blk_read_ok; intros y Hy; rewrite HP; mem|]. intros u2 H' ->.
          assert (EC : C = []).
          { destruct HC as [[_ HC]|(s1 & Hz & _)]; [exact HC|]. congruence. }
          subst C. start HP. eapply tri_bind; [apply (source_get_base n s0); mem|]. intros p1 H1 (C1 & HP1 & HC1). cbv beta in HP1.
          assert (HC1' : simple F p1 C1) by (destruct HC1 as [[-> ->]|[Hz ->]]; [left; auto|right; eauto]).
          start HP1. go.
          set (H2 := (e, OEntries (l1 ++ (s0, p1) :: l2)) :: _). assert (HP2 : Permutation H2 ((e, OEntries (l1 ++ (s0, p1) :: l2)) :: C1 ++ E0 ++ R)).
          { unfold H2. rewrite HPE. perm. }
          eapply tri_bind; [eapply (simple_seek_ok _ F n p1 C1); [exact HC1'| |]; intros y Hy; rewrite HP2; mem|]. intros ok H' ->. destruct ok.
          + start HP2. go. eapply tri_bind; [eapply (simple_next_ok _ F n p1 C1); [exact HC1'| |]; intros y Hy; mem|]. intros x H' ->. fin. eauto.
          + fin. eauto.
        - fin. exists C. split; [exact HC|]. rewrite HP, HPE. simpl fst. perm. }
      intros [p1 x] H1 (C1 & HC1 & HP1). simpl fst in *. destruct (Hall p1 C1 HC1) as (E1 & HE1 & HPE1).
      assert (HP2 : Permutation H1 ((e, OEntries (l1 ++ (s0, p1) :: l2)) :: E1 ++ R)) by (rewrite HP1, HPE1; perm).
      assert (Hrec : tri (f_rm fl) H1 (match_key n r e k k2 (l1 ++ [(s0, p1)]) l2) (fun _ H' => exists es' E', entries F es' E' /\ Permutation H' ((e, OEntries es') :: E' ++ R))).
      { eapply (IHk r u s v e k k2 (l1 ++ [(s0, p1)]) l2 E1 R); try eassumption.
        - rewrite <- app_assoc. exact HE1.
        - apply incl_app; assumption.
        - rewrite <- app_assoc. exact HP2. }
      destruct x; [|exact Hrec|fin; eauto].
      eapply tri_bind; [eapply (IHe r u s v p1 C1); [rewrite HP1; mem|intros y Hy; rewrite HP1; mem|exact HC1|intros y Hy; rewrite HP1; mem]|].
      intros x H' ->. destruct x; [fin; eauto|exact Hrec|fin; eauto].
    - (* match_entry *)
      intros r u s v p C H Hr HF HC HI. simpl. go. destruct (x =? 0); [fin; reflexivity|]. destruct (x =? 1); [|go; fin; reflexivity].
      eapply tri_bind; [eapply simple_seek_ok; eassumption|]. intros ok H' ->. destruct ok; [|fin; reflexivity]. go.
      eapply tri_bind; [eapply simple_next_ok; eassumption|]. intros y H' ->. destruct y; [|fin; reflexivity|fin; reflexivity].
      eapply IHe; eassumption.
  Qed.
End Next.
