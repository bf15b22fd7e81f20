(** * Memory: how much *)
From Coq Require Import Permutation Relations.
From Verif Require Import Base ModelMemory SpecMemory SpecMemoryBound HeapLogic MemoryBasics MemoryIters MemoryQuery MemoryNext MemoryProofs.
Local Open Scope nat_scope.

Definition count (l : list cell) : nat := length (filter not_a_file l).
Lemma count_app a b : count (a ++ b) = count a + count b.
Proof. unfold count. rewrite filter_app, app_length. reflexivity. Qed.
Lemma count_cons x l : count (x :: l) = (if not_a_file x then 1 else 0) + count l.
Proof. unfold count. simpl. destruct (not_a_file x); reflexivity. Qed.
Lemma count_length l : count l <= length l.
Proof. induction l as [|x l IH]; [reflexivity|]. rewrite count_cons. simpl. destruct (not_a_file x); lia. Qed.
Lemma count_perm a b : Permutation a b -> count a = count b.
Proof. induction 1; rewrite ?count_cons; lia. Qed.
Lemma count_base l : count (base_cells l) = 0.
Proof. induction l as [|s l IH]; [reflexivity|]. unfold base_cells in *. simpl. rewrite count_cons. exact IH. Qed.
Lemma blk_length p : length (blk p) <= 1.
Proof. unfold blk. destruct (p =? 0)%N; simpl; lia. Qed.
Lemma kbuf_length u C : kbuf u C -> length C <= 2.
Proof. intros [[_ ->]|[_ [d ->]]]; simpl; lia. Qed.

(** ** A stack of iterators *)
Section Tree.
  Variables (fl : flags) (F : list cell) (it : N).
  Hypothesis Hrm : f_rm fl = false.
  Hypothesis Hfun : forall p a b, In (p, a) F -> In (p, b) F -> a = b.

  Inductive up : N -> N -> Prop :=
  | up_filter s f u fn : In (s, OSource (SFilter f)) F -> In (f, OFilter u s fn it) F -> up s u
  | up_timeout s t u : In (s, OSource (STimeout t)) F -> In (t, OTimeout u s it) F -> up s u
  | up_left s j l r : In (s, OSource (SLjoin j)) F -> In (j, OLjoin l r s) F -> up s l
  | up_right s j l r : In (s, OSource (SLjoin j)) F -> In (j, OLjoin l r s) F -> up s r.
  Notation reach := (clos_refl_trans N up).

  Lemma src_acc s : src fl F it s -> Acc (fun u s => up s u) s.
  Proof.
    induction 1 as [s Hs|s f u fn Hs Hf Hb Hu IH|s t u Ht Hs Hf Hu IH|s j l r Hs Hf Hl IHl Hr IHr|s r u v d l Ht Hs Hf Hv Hl Hu IH].
    5: congruence.
    all: constructor; intros x Hx; destruct Hx as [s' f' u' fn' H1 H2|s' t' u' H1 H2|s' j' l' r' H1 H2|s' j' l' r' H1 H2]; pose proof (Hfun _ _ _ Hs H1) as E; try discriminate E; injection E as E; subst.
    - pose proof (Hfun _ _ _ Hf H2) as E. injection E as <- <-. exact IH.
    - pose proof (Hfun _ _ _ Hf H2) as E. injection E as <-. exact IH.
    - pose proof (Hfun _ _ _ Hf H2) as E. injection E as <- <-. exact IHl.
    - pose proof (Hfun _ _ _ Hf H2) as E. injection E as <- <-. exact IHr.
  Qed.
  Lemma acc_up s u : Acc (fun u s => up s u) s -> up s u -> Acc (fun u s => up s u) u.
  Proof. intros [H] Hu. exact (H u Hu). Qed.
  Lemma reach_cases a b : reach a b -> a = b \/ exists c, up a c /\ reach c b.
  Proof.
    intro H. apply clos_rt_rt1n in H. destruct H as [|c b Hc Hr]; [left; reflexivity|right]. exists c. split; [exact Hc|]. apply clos_rt1n_rt. exact Hr.
  Qed.
  Lemma no_way_back s : Acc (fun u s => up s u) s -> forall u, up s u -> ~ reach u s.
  Proof.
    induction 1 as [s _ IH]. intros u Hu Hr. destruct (reach_cases _ _ Hr) as [->|(c & Hc & Hr')].
    - exact (IH s Hu s Hu (rt_refl _ _ _)).
    - apply (IH u Hu c Hc). eapply rt_trans; [exact Hr'|]. apply rt_step. exact Hu.
  Qed.

  Definition is_stage (o : obj) : bool := match o with OSource (SFilter _) | OSource (STimeout _) | OSource (SLjoin _) => true | _ => false end.
  Definition is_join (o : obj) : bool := match o with OSource (SLjoin _) => true | _ => false end.
  Definition within (f : obj -> bool) (s : N) (A : list N) : Prop := forall x o, reach s x -> In (x, o) F -> f o = true -> In x A.
  Lemma within_up f s u A : Acc (fun u s => up s u) s -> up s u -> within f s A -> within f u (remove N.eq_dec s A).
  Proof.
    intros Ha Hu HA x o Hr Hx Ho. apply in_in_remove; [|apply (HA x o); auto; eapply rt_trans; [apply rt_step; exact Hu|exact Hr]].
    intros ->. exact (no_way_back s Ha u Hu Hr).
  Qed.
  Lemma within_same f s u A : up s u -> within f s A -> within f u A.
  Proof. intros Hu HA x o Hr Hx Ho. apply (HA x o); auto. eapply rt_trans; [apply rt_step; exact Hu|exact Hr]. Qed.
  Lemma within_here f s o A : within f s A -> In (s, o) F -> f o = true -> length (remove N.eq_dec s A) < length A.
  Proof. intros HA Hs Ho. apply remove_length_lt. apply (HA s o); auto. apply rt_refl. Qed.

  Definition most (n j : nat) : nat := if (j =? 0)%nat then 3 * n + 1 else 6 * n + 2.
  Lemma tree_size s p T : tree fl F it s p T -> Acc (fun u s => up s u) s -> forall A J, within is_stage s A -> within is_join s J -> length J <= 1 ->
    length T <= most (length A) (length J).
  Proof.
    induction 1 as [s p C HC|s p i f u fn t w T Hs Hf Hb HT IH|s p i t u c T Ht Hs Hf HT IH|s p i j l r a b v T1 T2 Hs Hf HT1 IH1 HT2 IH2|s p i r u v c e k k2 es T E Ht]; intros Ha A J HA HJ Hj; [| | | |congruence].
    - assert (length C <= 1) by (destruct HC as [[_ ->]|(x & _ & _ & ->)]; simpl; lia). unfold most. destruct (length J =? 0); lia.
    - pose proof (up_filter s f u fn Hs Hf) as Hu. pose proof (within_here _ _ _ _ HA Hs eq_refl) as Hl.
      specialize (IH (acc_up _ _ Ha Hu) _ _ (within_up _ _ _ _ Ha Hu HA) (within_same _ _ _ _ Hu HJ) Hj). simpl. unfold most in *. destruct (length J =? 0); lia.
    - pose proof (up_timeout s t u Hs Hf) as Hu. pose proof (within_here _ _ _ _ HA Hs eq_refl) as Hl.
      specialize (IH (acc_up _ _ Ha Hu) _ _ (within_up _ _ _ _ Ha Hu HA) (within_same _ _ _ _ Hu HJ) Hj). simpl. unfold most in *. destruct (length J =? 0); lia.
    - pose proof (up_left s j l r Hs Hf) as Hu1. pose proof (up_right s j l r Hs Hf) as Hu2. pose proof (within_here _ _ _ _ HA Hs eq_refl) as Hl. pose proof (within_here _ _ _ _ HJ Hs eq_refl) as Hl2.
      specialize (IH1 (acc_up _ _ Ha Hu1) _ _ (within_up _ _ _ _ Ha Hu1 HA) (within_up _ _ _ _ Ha Hu1 HJ) ltac:(lia)).
      specialize (IH2 (acc_up _ _ Ha Hu2) _ _ (within_up _ _ _ _ Ha Hu2 HA) (within_up _ _ _ _ Ha Hu2 HJ) ltac:(lia)).
      simpl. rewrite !app_length. pose proof (blk_length v). assert (E0 : length (remove N.eq_dec s J) = 0) by lia. rewrite E0 in IH1, IH2. unfold most in *. simpl in IH1, IH2.
      destruct (length J =? 0) eqn:E; [apply Nat.eqb_eq in E; lia|lia].
  Qed.
End Tree.

(** ** The stages of an iterator *)
Definition stage_sources (f : obj -> bool) (S : list cell) : list N := map fst (filter (fun c => f (snd c)) S).
Lemma stage_sources_app f a b : stage_sources f (a ++ b) = stage_sources f a ++ stage_sources f b.
Proof. unfold stage_sources. rewrite filter_app, map_app. reflexivity. Qed.
Lemma stage_sources_base f l : f (OSource SBase) = false -> stage_sources f (base_cells l) = [].
Proof. intro Hf. unfold stage_sources, base_cells. induction l as [|x l IH]; [reflexivity|]. simpl. rewrite Hf. exact IH. Qed.
Definition stage_count (k : kind) : nat := match k with KLjoin | KTimeout | KFilter => 1 | _ => 0 end.
Definition join_count (k : kind) : nat := match k with KLjoin => 1 | _ => 0 end.
Definition cell_count (k : kind) : nat := match k with KFileset | KMerger => 1 | KRemove => 4 | _ => 2 end.
Lemma stage_bounds k p C : stage k p C -> length (stage_sources is_stage C) <= stage_count k /\ length (stage_sources is_join C) <= join_count k /\ count C <= cell_count k.
Proof.
  assert (Hb : forall l, length (stage_sources is_stage (base_cells l)) = 0 /\ length (stage_sources is_join (base_cells l)) = 0 /\ length (filter not_a_file (base_cells l)) = 0).
  { intro l. rewrite !stage_sources_base by reflexivity. repeat split; try reflexivity. exact (count_base l). }
  intros []; try (unfold count; simpl; repeat split; lia).
  destruct (Hb l) as (H1 & H2 & H3). unfold stage_sources, count in *. simpl. rewrite H1, H2, H3. lia.
Qed.
Lemma stages_bounds ks ps S : stages ks ps S ->
  length (stage_sources is_stage S) <= list_sum (map stage_count ks) /\ length (stage_sources is_join S) <= list_sum (map join_count ks) /\ count S <= list_sum (map cell_count ks).
Proof.
  induction 1 as [|k p C ks ps S HC HS (IH1 & IH2 & IH3)]; [repeat split; apply Nat.le_refl|]. destruct (stage_bounds _ _ _ HC) as (H1 & H2 & H3).
  rewrite !stage_sources_app, !app_length, count_app. simpl. lia.
Qed.
Lemma source_in f x o S : In (x, o) S -> f o = true -> In x (stage_sources f S).
Proof. intros Hx Ho. unfold stage_sources. apply in_map_iff. exists (x, o). split; [reflexivity|]. apply filter_In. split; [exact Hx|exact Ho]. Qed.

Lemma join_stage y : is_join y = true -> is_stage y = true.
Proof. destruct y; try discriminate. destruct impl; try discriminate. reflexivity. Qed.
Lemma tree0_size fl F it p T S X CR o : f_rm fl = false -> (forall p a b, In (p, a) F -> In (p, b) F -> a = b) ->
  tree0 fl F it p T -> forall ps r, stages kinds ps S -> stage KRemove r CR -> incl F (S ++ X) -> incl X (CR ++ source_cells o) -> length T <= 56.
Proof.
  intros Hrm Hfun [[_ ->]|(_ & s & Hs & HT)] ps r HS HR HF HX; [simpl; lia|].
  assert (Hin : forall f, (forall y, f y = true -> is_stage y = true) -> within F it f s (stage_sources f S)).
  { intros f Hf x y _ Hx Hy. apply (source_in f x y); [|exact Hy]. apply HF, in_app_or in Hx as [Hx|Hx]; [exact Hx|]. exfalso. apply Hf in Hy. apply HX, in_app_or in Hx as [Hx|Hx].
    - inversion HR; subst; [destruct Hx|]. unfold vec in Hx. simpl in Hx. repeat (destruct Hx as [Hx|Hx]; [injection Hx as <- <-; discriminate Hy|]). destruct Hx.
    - destruct o as [s0|]; simpl in Hx; [|destruct Hx]. destruct Hx as [Hx|[]]. injection Hx as <- <-. discriminate Hy. }
  destruct (stages_bounds _ _ _ HS) as (H1 & H2 & _). simpl in H1, H2.
  pose proof (tree_size fl F it Hrm Hfun s p T HT (src_acc fl F it Hrm Hfun s Hs) _ _ (Hin is_stage (fun y H => H)) (Hin is_join join_stage) H2) as HL.
  unfold most in HL. destruct (length (stage_sources is_join S) =? 0); lia.
Qed.

Lemma iterator_size fl o q p C : f_rm fl = false -> (forall x a b, In (x, a) (C ++ source_cells o) -> In (x, b) (C ++ source_cells o) -> a = b) ->
  iterator fl (source_cells o) q p C -> count C <= 143.
Proof.
  intros Hrm Hfun HC. destruct HC as [nf it t F X CR C Hnf Hk Ha HG _ HX]. destruct HG as [K1 K2 T1 T2 S ps r Gq GK1 GK2 GT1 GT2 Go GS Gr Gi].
  assert (HF : forall x a b, In (x, a) F -> In (x, b) F -> a = b).
  { intros x a b H1 H2. apply (Hfun x).
    - apply Gi, in_app_or in H1 as [H1|H1]; [mem|]. apply HX, in_app_or in H1 as [H1|H1]; mem.
    - apply Gi, in_app_or in H2 as [H2|H2]; [mem|]. apply HX, in_app_or in H2 as [H2|H2]; mem. }
  pose proof (tree0_size fl F it _ T1 S X CR o Hrm HF GT1 ps r GS Gr Gi HX) as L1. pose proof (tree0_size fl F it _ T2 S X CR o Hrm HF GT2 ps r GS Gr Gi HX) as L2.
  destruct (stages_bounds _ _ _ GS) as (_ & _ & L3). destruct (stage_bounds _ _ _ Gr) as (_ & _ & L4). simpl in L3, L4.
  pose proof (kbuf_length _ _ GK1). pose proof (kbuf_length _ _ GK2). pose proof (count_length K1). pose proof (count_length K2). pose proof (count_length T1). pose proof (count_length T2).
  rewrite !count_cons, !count_app. cbn [not_a_file snd]. lia.
Qed.
Lemma whole_size s p C : whole s p C -> count C <= 143.
Proof.
  intros [it m T HT]. rewrite !count_cons. pose proof (count_length T). assert (length T <= 1) by (destruct HT as [[_ ->]|(x & _ & _ & ->)]; simpl; lia). cbn [not_a_file snd]. lia.
Qed.
Lemma entry_size e k C m : NoDup (map fst (cells m)) -> incl C (cells m) -> entry e k C -> count C <= 9 + data_of m e.
Proof.
  intros Hd Hi HC. destruct HC as [v d l mp info name bw Cm Ci H1 H2 _].
  assert (E : data_of m e = length l).
  { unfold data_of. rewrite (lookup_in e (OEntry k v mp info name bw)); [|exact Hd|apply Hi; mem]. rewrite (lookup_in v (OVec d l)); [reflexivity|exact Hd|apply Hi; unfold vec; mem]. }
  rewrite E. rewrite !count_cons, !count_app. pose proof (kbuf_length _ _ H1). pose proof (kbuf_length _ _ H2). pose proof (count_length Cm). pose proof (count_length Ci).
  pose proof (count_length (blk name)). pose proof (count_length (blk bw)). pose proof (blk_length name). pose proof (blk_length bw). pose proof (count_length (rdata_cells l)) as L. unfold rdata_cells in L at 2. rewrite map_length in L.
  pose proof (count_length (vec v d l)) as Lv. simpl in Lv. cbn [not_a_file snd]. lia.
Qed.

(** ** What a client holds *)
Lemma held_size rm W H m w : rm = false -> inv rm W H -> incl H (cells m) -> NoDup (map fst (cells m)) -> In w W -> count (it_cells w) <= share m (it_handle w).
Proof.
  intros -> HI HH Hd Hw. pose proof (inv_held _ _ _ HI w Hw) as Hh. pose proof (inv_linked _ _ _ HI w Hw) as Hl.
  assert (Hin : incl (it_cells w) (cells m)) by (eapply incl_tran; [apply (inv_in _ _ _ _ HI Hw)|exact HH]).
  assert (Hfun : forall x a b, In (x, a) (cells m) -> In (x, b) (cells m) -> a = b).
  { intros x a b H1 H2. apply (lookup_in _ _ _ Hd) in H1. apply (lookup_in _ _ _ Hd) in H2. congruence. }
  destruct w as [h f C]. unfold linked in Hl. simpl in *. destruct Hh as [s|r s|r f s l Hf|q v d Hv|i q o tm bw C HC|i s C HC|e k C HC|s|f].
  - apply Nat.le_refl.
  - unfold count. simpl. lia.
  - rewrite !count_cons, count_base. cbn [not_a_file snd share]. lia.
  - unfold query_cells. rewrite count_cons, !count_app. cbn [not_a_file snd share].
    pose proof (count_length (blk (q_rdata d))). pose proof (count_length (blk (q_name d))). pose proof (count_length (blk (q_bailiwick d))). pose proof (count_length (blk (q_err d))).
    pose proof (blk_length (q_rdata d)). pose proof (blk_length (q_name d)). pose proof (blk_length (q_bailiwick d)). pose proof (blk_length (q_err d)). lia.
  - apply (iterator_size {| f_rm := false; f_tm := tm; f_bw := bw |} o q i C eq_refl); [|exact HC].
    assert (Hs : incl (C ++ source_cells o) (cells m)).
    { apply incl_app; [exact Hin|]. destruct o as [s|]; [|intros x []]. destruct Hl as [Hl _]. destruct (Hl s eq_refl) as (x & Hx & Ex).
      pose proof (inv_held _ _ _ HI x Hx) as Hhx. rewrite Ex in Hhx. eapply incl_tran; [|exact HH]. eapply incl_tran; [|apply (inv_in _ _ _ _ HI Hx)]. inversion Hhx. apply incl_refl. }
    intros x a b H1 H2. apply (Hfun x); apply Hs; assumption.
  - apply (whole_size s i C HC).
  - apply (entry_size e k C m Hd Hin HC).
  - apply Nat.le_refl.
  - apply Nat.le_refl.
Qed.
Lemma kept_size c H m : kept false c H -> holds false H m -> in_use m <= shares m c.
Proof.
  intros (W & -> & HI) ((_ & Hd & _) & L & [_ HL] & HP). rewrite (HL eq_refl), app_nil_r in HP.
  unfold in_use. fold (count (cells m)). rewrite (count_perm _ _ HP), (count_perm _ _ (inv_blocks _ _ _ HI)).
  assert (Hw : forall w, In w W -> count (it_cells w) <= share m (it_handle w)).
  { intros w. apply (held_size false W H m w eq_refl HI); [|exact Hd]. intros x Hx. rewrite HP. exact Hx. }
  clear HI HP. unfold shares, handles, blocks. induction W as [|w W IH]; [apply Nat.le_refl|]. simpl. rewrite count_app.
  pose proof (Hw w (or_introl eq_refl)). assert (count (concat (map it_cells W)) <= list_sum (map (share m) (map it_handle W))) by (apply IH; intros x Hx; apply Hw; right; exact Hx). lia.
Qed.
