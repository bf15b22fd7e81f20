(** A way to meet the contract with libmtbl, and three files, for the examples. *)
From Coq Require Import Permutation.
From Verif Require Import Base BaseFacts ModelVarint VarintProofs ModelMerge SpecMerge MergeProofs ModelIter SpecIter IterProofs ModelQuery SpecQuery ModelFileset SpecFileset Demo.

Lemma beq_refl : forall a, beq a a = true.
Proof. intro a. apply beq_true. reflexivity. Qed.

(** ** Merging *)

Fixpoint insert_merge (k v : bytes) (t : table) : res table :=
  match t with
  | [] => Ok [(k, v)]
  | (k', v') :: r =>
      match bytes_compare k k' with
      | Lt => Ok ((k, v) :: t)
      | Eq => let* m := merge_func k v v' in Ok ((k, m) :: r)
      | Gt => let* r' := insert_merge k v r in Ok ((k', v') :: r')
      end
  end.
Fixpoint merge_entries (l : table) : res table :=
  match l with
  | [] => Ok []
  | (k, v) :: r => let* t := merge_entries r in insert_merge k v t
  end.

Definition same_keyed (k : bytes) (l : table) : list bytes := map snd (filter (fun e => beq (fst e) k) l).

Lemma insert_merge_key : forall k v t t', insert_merge k v t = Ok t' -> forall k', has_key k' t' <-> k' = k \/ has_key k' t.
Proof.
  intros k v t. induction t as [|[k1 v1] t IH]; intros t' H k'; cbn [insert_merge] in H.
  - injection H as <-. split; [intros (x & [E|[]]); injection E as -> ->; auto|intros [-> |(x & [])]; exists v; left; reflexivity].
  - destruct (bytes_compare k k1) eqn:E.
    + apply bytes_compare_eq in E. subst k1. destruct (merge_func k v v1) as [m| | | |]; try discriminate H. injection H as <-.
      split.
      * intros (x & [Ex|Hx]); [injection Ex as -> ->; auto|]. right. exists x. right. exact Hx.
      * intros [-> |(x & [Ex|Hx])]; [exists m; left; reflexivity|injection Ex as -> ->; exists m; left; reflexivity|exists x; right; exact Hx].
    + injection H as <-. split; [intros (x & [Ex|Hx]); [injection Ex as -> ->; auto|right; exists x; exact Hx]|].
      intros [-> |(x & Hx)]; [exists v; left; reflexivity|exists x; right; exact Hx].
    + destruct (insert_merge k v t) as [r'| | | |] eqn:Er; try discriminate H. injection H as <-. specialize (IH r' eq_refl k'). split.
      * intros (x & [Ex|Hx]); [injection Ex as -> ->; right; exists x; left; reflexivity|].
        destruct (proj1 IH (ex_intro _ x Hx)) as [-> |(y & Hy)]; auto. right. exists y. right. exact Hy.
      * intros [-> |(x & [Ex|Hx])].
        -- destruct (proj2 IH (or_introl eq_refl)) as (y & Hy). exists y. right. exact Hy.
        -- injection Ex as -> ->. exists x. left. reflexivity.
        -- destruct (proj2 IH (or_intror (ex_intro _ x Hx))) as (y & Hy). exists y. right. exact Hy.
Qed.

Lemma strict_cons : forall e t, strict (e :: t) <-> strict t /\ forall k, has_key k t -> blt (fst e) k = true.
Proof.
  intros e t. split.
  - intro H. inversion H as [|? ? H1 H2]; subst. split; [exact H1|]. intros k (v & Hv). rewrite Forall_forall in H2. apply (H2 _ Hv).
  - intros [H1 H2]. constructor; [exact H1|]. apply Forall_forall. intros [k v] Hx. apply (H2 k). exists v. exact Hx.
Qed.

Lemma insert_merge_strict : forall k v t t', strict t -> insert_merge k v t = Ok t' -> strict t'.
Proof.
  intros k v t. induction t as [|[k1 v1] t IH]; intros t' HS H; pose proof (insert_merge_key _ _ _ _ H) as HK; cbn [insert_merge] in H.
  - injection H as <-. apply strict_cons. split; [constructor|intros k' (x & [])].
  - apply strict_cons in HS. destruct HS as [HS HL]. cbn [fst] in HL. destruct (bytes_compare k k1) eqn:E.
    + apply bytes_compare_eq in E. subst k1. destruct (merge_func k v v1) as [m| | | |]; try discriminate H. injection H as <-.
      apply strict_cons. split; [exact HS|exact HL].
    + injection H as <-. apply strict_cons. cbn [fst]. assert (B : blt k k1 = true) by (unfold blt; rewrite E; reflexivity).
      split; [apply strict_cons; split; assumption|]. intros k' (x & [Ex|Hx]); [injection Ex as -> ->; exact B|].
      eapply blt_trans; [exact B|]. apply HL. exists x. exact Hx.
    + destruct (insert_merge k v t) as [r'| | | |] eqn:Er; try discriminate H. injection H as <-. apply strict_cons. cbn [fst]. split; [apply IH; auto|].
      intros k' Hk'. apply (insert_merge_key _ _ _ _ Er) in Hk'. destruct Hk' as [-> |Hk']; [|apply HL; exact Hk'].
      unfold blt. rewrite bytes_compare_antisym, E. reflexivity.
Qed.

Lemma insert_merge_value : forall k v t t', strict t -> insert_merge k v t = Ok t' -> forall k' x, In (k', x) t' ->
  (k' <> k /\ In (k', x) t) \/ (k' = k /\ ((x = v /\ ~ has_key k t) \/ exists v', In (k, v') t /\ merge_func k v v' = Ok x)).
Proof.
  intros k v t. induction t as [|[k1 v1] t IH]; intros t' HS H k' x Hx; cbn [insert_merge] in H.
  - injection H as <-. destruct Hx as [Ex|[]]. injection Ex as -> ->. right. split; [reflexivity|]. left. split; [reflexivity|]. intros (y & []).
  - apply strict_cons in HS. destruct HS as [HS HL]. cbn [fst] in HL. destruct (bytes_compare k k1) eqn:E.
    + apply bytes_compare_eq in E. subst k1. destruct (merge_func k v v1) as [m| | | |] eqn:Em; try discriminate H. injection H as <-.
      destruct Hx as [Ex|Hx]; [injection Ex as <- <-; right; split; [reflexivity|]; right; exists v1; split; [left; reflexivity|exact Em]|].
      left. split; [|right; exact Hx]. intros ->. pose proof (HL k (ex_intro _ x Hx)) as B. rewrite blt_irrefl in B. discriminate B.
    + injection H as <-. assert (B : blt k k1 = true) by (unfold blt; rewrite E; reflexivity).
      assert (NK : ~ has_key k ((k1, v1) :: t)).
      { intros (y & [Ey|Hy]); [injection Ey as -> ->; rewrite blt_irrefl in B; discriminate B|].
        pose proof (blt_trans _ _ _ B (HL k (ex_intro _ y Hy))) as C. rewrite blt_irrefl in C. discriminate C. }
      destruct Hx as [Ex|Hx]; [injection Ex as <- <-; right; auto|].
      left. split; [intros ->; apply NK; exists x; exact Hx|exact Hx].
    + destruct (insert_merge k v t) as [r'| | | |] eqn:Er; try discriminate H. injection H as <-.
      assert (NE : k1 <> k) by (intros ->; rewrite bytes_compare_refl in E; discriminate E).
      destruct Hx as [Ex|Hx]; [injection Ex as <- <-; left; split; [exact NE|left; reflexivity]|].
      destruct (IH r' HS eq_refl k' x Hx) as [[A B]|[-> [[-> A]|(v' & A & B)]]].
      * left. split; [exact A|right; exact B].
      * right. split; [reflexivity|]. left. split; [reflexivity|]. intros (y & [Ey|Hy]); [injection Ey as Ey _; congruence|]. apply A. exists y. exact Hy.
      * right. split; [reflexivity|]. right. exists v'. split; [right; exact A|exact B].
Qed.

Lemma same_keyed_none : forall k l, ~ has_key k l -> same_keyed k l = [].
Proof.
  intros k l H. unfold same_keyed. induction l as [|[k1 v1] l IH]; [reflexivity|]. cbn [filter fst].
  destruct (beq k1 k) eqn:E; [apply beq_true in E; subst; exfalso; apply H; exists v1; left; reflexivity|].
  apply IH. intros (v & Hv). apply H. exists v. right. exact Hv.
Qed.

Lemma merge_entries_ok : forall l t, merge_entries l = Ok t ->
  strict t /\ (forall k, has_key k t <-> has_key k l) /\
  (forall k v, In (k, v) t -> exists tr, Permutation (mleaves tr) (same_keyed k l) /\ meval k tr = Ok v).
Proof.
  induction l as [|[k v] l IH]; intros t H; cbn [merge_entries] in H.
  - injection H as <-. split; [constructor|]. split; [reflexivity|intros k v []].
  - destruct (merge_entries l) as [t0| | | |]; try discriminate H. cbn [bind] in H. destruct (IH t0 eq_refl) as (S0 & K0 & V0).
    split; [eapply insert_merge_strict; eauto|]. split.
    + intro k'. rewrite (insert_merge_key _ _ _ _ H k'), K0. split.
      * intros [-> |(x & Hx)]; [exists v; left; reflexivity|exists x; right; exact Hx].
      * intros (x & [Ex|Hx]); [injection Ex as -> ->; auto|right; exists x; exact Hx].
    + intros k' x Hx. destruct (insert_merge_value _ _ _ _ S0 H k' x Hx) as [[A B]|[-> [[-> A]|(v' & A & B)]]].
      * destruct (V0 k' x B) as (tr & P & M). exists tr. split; [|exact M]. unfold same_keyed in *. cbn [filter fst].
        destruct (beq k k') eqn:E; [apply beq_true in E; congruence|exact P].
      * exists (MLeaf v). split; [|reflexivity]. unfold same_keyed. cbn [filter fst]. rewrite beq_refl. cbn [map snd].
        fold (same_keyed k l). rewrite same_keyed_none; [reflexivity|]. rewrite <- K0. exact A.
      * destruct (V0 k v' A) as (tr & P & M). exists (MNode (MLeaf v) tr). split.
        -- unfold same_keyed. cbn [filter fst]. rewrite beq_refl. cbn [map snd mleaves]. cbn [app]. constructor. exact P.
        -- cbn [meval bind]. rewrite M. exact B.
Qed.

(** ** Listing duplicates *)

Fixpoint insert_sort (k v : bytes) (t : table) : table :=
  match t with
  | [] => [(k, v)]
  | (k', v') :: r =>
      match bytes_compare k k' with
      | Lt => (k, v) :: t
      | Eq => match dnstable_dupsort_func k v v' with Ok Gt => (k', v') :: insert_sort k v r | _ => (k, v) :: t end
      | Gt => (k', v') :: insert_sort k v r
      end
  end.
Definition sort_entries (l : table) : table := fold_right (fun e t => insert_sort (fst e) (snd e) t) [] l.

Lemma insert_sort_perm : forall k v t, Permutation ((k, v) :: t) (insert_sort k v t).
Proof.
  intros k v t. induction t as [|[k' v'] t IH]; [reflexivity|]. cbn [insert_sort].
  assert (G : Permutation ((k, v) :: (k', v') :: t) ((k', v') :: insert_sort k v t)) by (rewrite perm_swap; constructor; exact IH).
  destruct (bytes_compare k k'); [|reflexivity|exact G]. destruct (dnstable_dupsort_func k v v') as [[]| | | |]; try reflexivity. exact G.
Qed.

Lemma sort_entries_perm : forall l, Permutation l (sort_entries l).
Proof. induction l as [|[k v] l IH]; [constructor|]. cbn [sort_entries fold_right fst snd]. rewrite <- insert_sort_perm. constructor. exact IH. Qed.

Fixpoint ordered_dupsb (t : table) : bool :=
  match t with
  | [] => true
  | e :: r => forallb (fun e' => ble (fst e) (fst e') &&
        (negb (beq (fst e) (fst e')) || match dnstable_dupsort_func (fst e) (snd e) (snd e') with Ok Gt => false | Ok _ => true | _ => false end)) r
      && ordered_dupsb r
  end.
Lemma ordered_dupsb_ok : forall t, ordered_dupsb t = true -> sorted t /\
  StronglySorted (fun a b => fst a = fst b -> exists c, dnstable_dupsort_func (fst a) (snd a) (snd b) = Ok c /\ c <> Gt) t.
Proof.
  induction t as [|e t IH]; intro H; [split; constructor|]. cbn [ordered_dupsb] in H. apply andb_prop in H. destruct H as [H1 H2].
  destruct (IH H2) as [A B]. rewrite forallb_forall in H1. split; constructor; auto; apply Forall_forall; intros e' He'; specialize (H1 e' He'); apply andb_prop in H1; destruct H1 as [H1 H3]; auto.
  intro E. rewrite E in H3. rewrite beq_refl in H3. cbn [negb orb] in H3. rewrite E.
  destruct (dnstable_dupsort_func (fst e') (snd e) (snd e')) as [[]| | | |]; try discriminate H3; eexists; split; try reflexivity; congruence.
Qed.

(** ** The contract *)

Definition lib0 : libmtbl :=
  {| lib_merged := fun files => match merge_entries (concat files) with Ok t => t | _ => [] end;
     lib_unmerged := fun files => sort_entries (concat files) |}.

Fixpoint sublists {A} (l : list A) : list (list A) :=
  match l with [] => [[]] | a :: r => let s := sublists r in map (cons a) s ++ s end.
Lemma selects_sublist : forall A (P : A -> Prop) l m, selects P l m -> In m (sublists l).
Proof.
  intros A P l m H. induction H as [|a l m Pa H IH|a l m Pa H IH]; cbn [sublists]; [left; reflexivity| |]; apply in_or_app; [left; apply in_map; exact IH|right; exact IH].
Qed.

Lemma merges0 : forall files,
  forallb (fun part => match merge_entries (concat part) with Ok _ => true | _ => false end) (sublists files) = true -> merges lib0 files.
Proof.
  intros files H P part HP. rewrite forallb_forall in H. specialize (H part (selects_sublist _ _ _ _ HP)). cbn [lib_merged lib0].
  destruct (merge_entries (concat part)) as [t| | | |] eqn:E; try discriminate H. destruct (merge_entries_ok _ _ E) as (A & B & C).
  split; [exact A|]. split; [|exact C]. intro k. rewrite B. unfold has_key. split.
  - intros (v & Hv). apply in_concat in Hv. destruct Hv as (f & Hf & Hv). exists f. split; [exact Hf|]. exists v. exact Hv.
  - intros (f & Hf & v & Hv). exists v. apply in_concat. exists f. split; assumption.
Qed.

Lemma lists_duplicates0 : forall files, forallb (fun part => ordered_dupsb (sort_entries (concat part))) (sublists files) = true -> lists_duplicates lib0 files.
Proof.
  intros files H P part HP. rewrite forallb_forall in H. specialize (H part (selects_sublist _ _ _ _ HP)).
  destruct (ordered_dupsb_ok _ H) as [A B]. split; [apply sort_entries_perm|]. split; assumption.
Qed.

(** ** Three files *)

(** Times 60 to 250, 100 to 400 and 10 to 20. *)
Definition file1 : list record :=
  [ RRset [L_www; L_ex; L_com] 1 [L_ex; L_com] [[10; 0; 0; 1]] (ob 60 250 7);
    OwnerIndex [L_www; L_ex; L_com] [0; 1; 64];
    Other [254] [60; 250; 1] ].
Definition file2 : list record :=
  [ RRset [L_mx; L_ex; L_com] 1 [L_ex; L_com] [[10; 0; 0; 2]] (ob 100 400 5);
    RRset [L_www; L_ex; L_com] 1 [L_ex; L_com] [[10; 0; 0; 1]] (ob 200 400 1);
    OwnerIndex [L_mx; L_ex; L_com] [0; 1; 64];
    OwnerIndex [L_www; L_ex; L_com] [0; 1; 64];
    Other [254] [100; 144; 3] ].
Definition file3 : list record :=
  [ RRset [L_mx; L_ex; L_com] 1 [L_ex; L_com] [[10; 0; 0; 2]] (ob 10 20 3);
    OwnerIndex [L_mx; L_ex; L_com] [0; 1; 64];
    Other [254] [10; 20] ].
Definition demo_recss : list (list record) := [file1; file2; file3].
Definition demo_files : list table := map (map put) demo_recss.

Lemma demo_merges : merges lib0 demo_files.
Proof. apply merges0. vm_compute. reflexivity. Qed.
Lemma demo_lists_duplicates : lists_duplicates lib0 demo_files.
Proof. apply lists_duplicates0. vm_compute. reflexivity. Qed.
Lemma demo_databases : Forall2 database demo_recss demo_files.
Proof. repeat (constructor; [apply demo_ok; vm_compute; reflexivity|]). constructor. Qed.

Lemma put_obs_seen : forall o, obs_okb o = true -> obs_ok o /\ obs_value o (put_obs o).
Proof. intros o H. apply obs_okb_ok in H. split; [exact H|apply put_obs_ok; exact H]. Qed.

Definition timely (mn mx : N) (r : record) : bool :=
  match r with
  | RRset _ _ _ _ o | RData _ _ _ _ o => obs_okb o && (o_first o <=? o_last o) && (mn <=? o_first o) && (o_last o <=? mx)
  | Other k _ => negb (hd 0 k =? 0) && negb (hd 0 k =? 2)
  | _ => true
  end.
Lemma demo_file_ok : forall recs mn mx, strictb (map put recs) = true -> mn < u64 -> mx < u64 ->
  In (Other [254] (varint_encode64 mn ++ varint_encode64 mx)) recs -> forallb (timely mn mx) recs = true -> file_ok (map put recs).
Proof.
  intros recs mn mx HS H1 H2 HI HF. split; [apply strictb_ok; exact HS|]. exists (Some (mn, mx)). split.
  - apply (tr_some _ mn mx (varint_encode64 mn ++ varint_encode64 mx) H1 H2).
    + apply (in_map put) in HI. exact HI.
    + exists (varint_encode64 mn), (varint_encode64 mx). split; [apply leb128_encode64; exact H1|]. split; [apply leb128_encode64; exact H2|reflexivity].
  - intros k v Hin (b & rest & -> & Hb). apply in_map_iff in Hin. destruct Hin as (r & E & Hr). rewrite forallb_forall in HF. specialize (HF r Hr).
    destruct r as [ow ty bw rs o|ow ty h tl o|ow m|n m|k' v']; cbn [put timely] in *.
    + injection E as _ _ <-. do 3 (apply andb_prop in HF; destruct HF as [HF ?]). destruct (put_obs_seen o HF) as [A B]. exists o. split; [exact A|]. split; [exact B|]. lia.
    + injection E as _ _ <-. do 3 (apply andb_prop in HF; destruct HF as [HF ?]). destruct (put_obs_seen o HF) as [A B]. exists o. split; [exact A|]. split; [exact B|]. lia.
    + exfalso. injection E as <- _. destruct Hb; discriminate.
    + exfalso. injection E as <- _. destruct Hb; discriminate.
    + exfalso. injection E as -> _. cbn [hd] in HF. destruct Hb as [-> | ->]; discriminate HF.
Qed.

Lemma demo_files_ok : Forall file_ok demo_files.
Proof.
  unfold demo_files, demo_recss. cbn [map]. constructor; [|constructor; [|constructor; [|constructor]]].
  - apply (demo_file_ok file1 60 250); try (vm_compute; reflexivity). vm_compute. tauto.
  - apply (demo_file_ok file2 100 400); try (vm_compute; reflexivity). vm_compute. tauto.
  - apply (demo_file_ok file3 10 20); try (vm_compute; reflexivity). vm_compute. tauto.
Qed.
