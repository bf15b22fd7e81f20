(** Proofs about the iterator model. *)
From Coq Require Import Permutation.
From Verif Require Import Base BaseFacts ModelIter SpecIter.

(** * Sorted tables *)

Lemma strict_sorted : forall t, strict t -> sorted t.
Proof.
  induction 1 as [|a t H IH F]; constructor; auto.
  eapply Forall_impl; [|exact F]. intros b Hb. apply blt_ble. exact Hb.
Qed.

Lemma sorted_app_inv : forall a b, sorted (a ++ b) -> sorted a /\ sorted b /\
  (forall x y, In x a -> In y b -> ble (fst x) (fst y) = true).
Proof.
  induction a as [|e a IH]; cbn [app]; intros b H.
  - split; [constructor|split; [exact H|intros ? ? []]].
  - inversion H as [|? ? H1 H2]; subst. destruct (IH _ H1) as (Ha & Hb & Hab).
    rewrite Forall_app in H2. destruct H2 as [F1 F2]. split; [constructor; auto|split; auto].
    intros x y [->|Hx] Hy; auto. rewrite Forall_forall in F2. auto.
Qed.

Lemma strict_app_inv : forall a b, strict (a ++ b) -> strict a /\ strict b /\
  (forall x y, In x a -> In y b -> blt (fst x) (fst y) = true).
Proof.
  induction a as [|e a IH]; cbn [app]; intros b H.
  - split; [constructor|split; [exact H|intros ? ? []]].
  - inversion H as [|? ? H1 H2]; subst. destruct (IH _ H1) as (Ha & Hb & Hab).
    rewrite Forall_app in H2. destruct H2 as [F1 F2]. split; [constructor; auto|split; auto].
    intros x y [->|Hx] Hy; auto. rewrite Forall_forall in F2. auto.
Qed.

Lemma sorted_filter : forall p t, sorted t -> sorted (filter p t).
Proof.
  induction 1 as [|a t H IH F]; cbn [filter]; [constructor|].
  destruct (p a); auto. constructor; auto. rewrite Forall_forall in *.
  intros x Hx. apply filter_In in Hx. apply F. tauto.
Qed.

Lemma strict_filter : forall p t, strict t -> strict (filter p t).
Proof.
  induction 1 as [|a t H IH F]; cbn [filter]; [constructor|].
  destruct (p a); auto. constructor; auto. rewrite Forall_forall in *.
  intros x Hx. apply filter_In in Hx. apply F. tauto.
Qed.

Lemma drop_before_from : forall k t, sorted t -> drop_before k t = from k t.
Proof.
  induction 1 as [|a t H IH F]; [reflexivity|]. cbn [drop_before from filter].
  rewrite ble_not_blt. destruct (blt (fst a) k) eqn:E; cbn [negb]; auto.
  f_equal. symmetry. unfold from. clear IH H. induction t as [|b t IH]; [reflexivity|].
  inversion F; subst. cbn [filter]. rewrite IH by auto.
  replace (ble k (fst b)) with true; [reflexivity|]. symmetry.
  eapply ble_trans; [|eassumption]. rewrite ble_not_blt, E. reflexivity.
Qed.

Lemma from_filter : forall k p t, from k (filter p t) = filter p (from k t).
Proof.
  unfold from. induction t as [|a t IH]; [reflexivity|]. cbn [filter].
  destruct (p a) eqn:P, (ble k (fst a)) eqn:B; cbn [filter]; rewrite ?P, ?B, IH; reflexivity.
Qed.

Lemma drop_before_suffix : forall k t, exists pre, t = pre ++ drop_before k t.
Proof.
  induction t as [|a t [pre IH]]; [exists []; reflexivity|]. cbn [drop_before].
  destruct (blt (fst a) k); [exists (a :: pre); cbn; congruence|exists []; reflexivity].
Qed.

Lemma drop_before_app : forall k a b, (forall x, In x a -> blt (fst x) k = true) ->
  drop_before k (a ++ b) = drop_before k b.
Proof.
  induction a as [|e a IH]; cbn [app drop_before]; intros b H; auto.
  rewrite H by (left; reflexivity). apply IH. intros; apply H; right; auto.
Qed.

Lemma drop_before_len : forall k t, (length (drop_before k t) <= length t)%nat.
Proof.
  intros k t. destruct (drop_before_suffix k t) as [pre E]. rewrite E at 2. rewrite app_length. lia.
Qed.

Lemma drop_before_ge : forall k t, sorted t -> forall e, In e (drop_before k t) -> ble k (fst e) = true.
Proof. intros k t H e. rewrite drop_before_from by auto. unfold from. rewrite filter_In. tauto. Qed.

Lemma drop_before_split : forall k t, exists pre, t = pre ++ drop_before k t /\
  forall x, In x pre -> blt (fst x) k = true.
Proof.
  induction t as [|a t (pre & IH & P)]; [exists []; split; [reflexivity|intros ? []]|]. cbn [drop_before].
  destruct (blt (fst a) k) eqn:E.
  - exists (a :: pre). split; [cbn; congruence|]. intros x [<-|Hx]; auto.
  - exists []. split; [reflexivity|intros ? []].
Qed.

Lemma filter_nil : forall (A : Type) (p : A -> bool) l, (forall x, In x l -> p x = false) -> filter p l = [].
Proof.
  induction l as [|a l IH]; intros H; cbn [filter]; auto. rewrite H by (left; auto).
  apply IH. intros; apply H; right; auto.
Qed.

(** [suffix r t]: [r] is what is left of [t]. *)
Definition suffix (r t : table) : Prop := exists pre, t = pre ++ r.

Lemma suffix_refl : forall t, suffix t t.
Proof. exists []. reflexivity. Qed.
Lemma suffix_nil : forall t, suffix [] t.
Proof. intros t. exists t. rewrite app_nil_r. reflexivity. Qed.
Lemma suffix_cons : forall e r t, suffix (e :: r) t -> suffix r t.
Proof. intros e r t [pre ->]. exists (pre ++ [e]). rewrite <- app_assoc. reflexivity. Qed.
Lemma suffix_in : forall r t e, suffix r t -> In e r -> In e t.
Proof. intros r t e [pre ->] H. apply in_or_app. auto. Qed.
Lemma suffix_filter : forall p r t, suffix r t -> suffix (filter p r) (filter p t).
Proof. intros p r t [pre ->]. rewrite filter_app. eexists. reflexivity. Qed.
Lemma suffix_map : forall f r t, suffix r t -> suffix (map f r) (map f t).
Proof. intros p r t [pre ->]. rewrite map_app. eexists. reflexivity. Qed.
Lemma suffix_sorted : forall r t, suffix r t -> sorted t -> sorted r.
Proof. intros r t [pre ->] H. apply sorted_app_inv in H. tauto. Qed.
Lemma suffix_drop : forall k t, suffix (drop_before k t) t.
Proof. intros. destruct (drop_before_suffix k t) as [pre E]. exists pre. exact E. Qed.

Lemma sorted_head : forall e r t x, suffix (e :: r) t -> sorted t -> In x r -> ble (fst e) (fst x) = true.
Proof.
  intros e r t x S H Hx. apply suffix_sorted in S; auto. inversion S as [|? ? ? F]; subst.
  rewrite Forall_forall in F. auto.
Qed.

(** * What the stages leave alone *)

Definition same_env (w w' : world) : Prop :=
  w_now w' = w_now w /\ w_deadline w' = w_deadline w /\ w_seek_end w' = w_seek_end w /\
  w_offset w' = w_offset w /\ (w_tick w <= w_tick w')%nat.

Lemma same_env_refl : forall w, same_env w w.
Proof. repeat split; auto. Qed.
Lemma same_env_trans : forall a b c, same_env a b -> same_env b c -> same_env a c.
Proof. unfold same_env. intros a b c (A & B & C & D & E) (A' & B' & C' & D' & E'). repeat split; try congruence; lia. Qed.
Lemma same_env_bump : forall s c w, same_env w (bump s c w).
Proof. repeat split; auto. Qed.
Lemma same_env_note : forall e w, same_env w (note e w).
Proof. repeat split; auto. Qed.
Lemma same_env_note_bump : forall e s c w, same_env w (note e (bump s c w)).
Proof. repeat split; auto. Qed.
#[global] Hint Resolve same_env_refl same_env_bump same_env_note same_env_note_bump : env.

(** * The refinement relation *)

(** Pure meaning of a left join. *)
Definition lookup (k : bytes) (t : table) : option bytes :=
  match find (fun e => beq (fst e) k) t with Some e => Some (snd e) | None => None end.
Definition join_fn (mf : merge_fn) (t : table) (e : kv) : kv :=
  match lookup (fst e) t with
  | Some rv => match mf (fst e) (snd e) rv with Ok m => (fst e, m) | _ => e end
  | None => e
  end.
Definition mergeable (mf : merge_fn) (r l : table) : Prop :=
  forall k v rv, In (k, v) l -> In (k, rv) r -> exists m, mf k v rv = Ok m.

Definition key_in (k : bytes) (t : table) : bool := existsb (fun e => beq (fst e) k) t.

(** A side iterator over the strictly sorted [t] has lost nothing that the
    entries [l] still to come could meet: [cur] is its current entry. *)
Definition side_ok (t : table) (cur : option kv) (rest : table) (l : table) : Prop :=
  exists pre, t = pre ++ (match cur with Some e => [e] | None => [] end) ++ rest /\
    forall x y, In x pre -> In y l -> blt (fst x) (fst y) = true.
Definition all_before (t l : table) : Prop := forall x y, In x t -> In y l -> blt (fst x) (fst y) = true.

Definition rm_ok (h : how) (l : table) (re : rm_entry) : Prop :=
  strict (re_table re) /\
  match re_it re with
  | None => re_finished re = false
  | Some b =>
      b_win b = window h (re_table re) /\
      if re_finished re then all_before (b_win b) l
      else exists v, side_ok (b_win b) (Some (re_key re, v)) (b_rest b) l
  end.

Definition removed_by (h : how) (rms : list table) (e : kv) : bool :=
  existsb (fun t => key_in (fst e) (window h t)) rms.

Fixpoint R (it : iter) (full rest : table) : Prop :=
  sorted full /\ suffix rest full /\
  match it with
  | IBase b => b_win b = full /\ b_rest b = rest
  | ITimeout u => R u full rest
  | IFilter s f u => exists ufull urest p, R u ufull urest /\ good_filter f p ufull /\
      full = filter p ufull /\ rest = filter p urest
  | IRemove h rms u => exists ufull urest, R u ufull urest /\ Forall (rm_ok h urest) rms /\
      full = filter (fun e => negb (removed_by h (map re_table rms) e)) ufull /\
      rest = filter (fun e => negb (removed_by h (map re_table rms) e)) urest
  | ILjoin mf b cur fin u => exists ufull urest, R u ufull urest /\ strict (b_win b) /\
      mergeable mf (b_win b) ufull /\
      (if fin then all_before (b_win b) urest else side_ok (b_win b) cur (b_rest b) urest) /\
      full = map (join_fn mf (b_win b)) ufull /\ rest = map (join_fn mf (b_win b)) urest
  end.

Lemma R_sorted : forall it full rest, R it full rest -> sorted full.
Proof. destruct it; cbn; tauto. Qed.
Lemma R_suffix : forall it full rest, R it full rest -> suffix rest full.
Proof. destruct it; cbn; tauto. Qed.

Fixpoint has_timeout (it : iter) : bool :=
  match it with
  | IBase _ => false
  | ITimeout _ => true
  | IFilter _ _ u | IRemove _ _ u | ILjoin _ _ _ _ u => has_timeout u
  end.

Lemma in_window_filter : forall h t e, In e (window h t) <-> In e t /\ in_window h (fst e) = true.
Proof. intros. unfold window. apply filter_In. Qed.

Lemma base_seek_ok : forall k b w ok b', base_seek k b w = (ok, b') ->
  b' = {| b_win := b_win b; b_rest := drop_before k (b_win b) |} /\
  (ok = false -> drop_before k (b_win b) = []).
Proof.
  unfold base_seek. intros k b w ok b' H. destruct (drop_before k (b_win b)); inversion H; subst; split; auto.
  discriminate.
Qed.

(** A side iterator after a seek to [k] when only keys from [k] on are to come. *)
Lemma side_after_seek : forall t k l, sorted t -> (forall y, In y l -> ble k (fst y) = true) ->
  side_ok t None (drop_before k t) l.
Proof.
  intros t k l _ H. destruct (drop_before_split k t) as (pre & E & P). exists pre. split; [exact E|].
  intros x y Hx Hy. eapply blt_ble_trans; [apply P; auto|apply H; auto].
Qed.

Lemma before_of_empty : forall t k l, sorted t -> (forall y, In y l -> ble k (fst y) = true) ->
  drop_before k t = [] -> all_before t l.
Proof.
  intros t k l S H E. destruct (drop_before_split k t) as (pre & E' & P). rewrite E, app_nil_r in E'. subst pre.
  intros x y Hx Hy. eapply blt_ble_trans; [apply P; auto|apply H; auto].
Qed.

Lemma side_take : forall t e r l, side_ok t None (e :: r) l -> side_ok t (Some e) r l.
Proof. intros t e r l (pre & E & P). exists pre. split; auto. Qed.

Lemma side_sub : forall t c r l l', (forall x, In x l' -> In x l) -> side_ok t c r l -> side_ok t c r l'.
Proof. intros t c r l l' S (pre & E & P). exists pre. split; auto. Qed.
Lemma before_sub : forall t l l', (forall x, In x l' -> In x l) -> all_before t l -> all_before t l'.
Proof. unfold all_before. auto. Qed.

Lemma rm_ok_sub : forall h l l' re, (forall x, In x l' -> In x l) -> rm_ok h l re -> rm_ok h l' re.
Proof.
  unfold rm_ok. intros h l l' re S [A B]. split; auto. destruct (re_it re); auto.
  destruct B as [B C]. split; auto. destruct (re_finished re).
  - eapply before_sub; eauto.
  - destruct C as [v C]. exists v. eapply side_sub; eauto.
Qed.

Lemma strict_window : forall h t, strict t -> strict (window h t).
Proof. intros. apply strict_filter. auto. Qed.

(** * Seeking *)

Lemma rm_seek_ok : forall h k l re w re' w', rm_ok h [] re \/ True ->
  strict (re_table re) -> (exists l0, rm_ok h l0 re) ->
  (forall y, In y l -> ble k (fst y) = true) ->
  remove_entry_seek k re w = (re', w') ->
  rm_ok h l re' /\ re_table re' = re_table re /\ same_env w w'.
Proof.
  intros h k l re w re' w' _ ST (l0 & _ & HK) HL. unfold remove_entry_seek.
  destruct (re_it re) as [b|] eqn:EI.
  2:{ intros H; inversion H; subst. split; [|split; auto with env]. split; auto. rewrite EI. exact HK. }
  destruct HK as [HW HK].
  assert (SW : strict (b_win b)) by (rewrite HW; apply strict_window; auto).
  destruct (re_finished re || blt k (re_key re)) eqn:EC.
  - destruct (base_seek k b w) as [ok b1] eqn:ES. apply base_seek_ok in ES. destruct ES as [-> EF].
    destruct ok.
    + cbn [base_next b_rest b_win]. destruct (drop_before k (b_win b)) as [|e r] eqn:ED; unfold base_next; cbn [b_rest b_win].
      * intros H; inversion H; subst. split; [|split; auto with env]. split; auto. cbn. split; auto.
        eapply before_of_empty; eauto. apply strict_sorted; auto.
      * intros H; inversion H; subst. split; [|split; auto with env]. split; auto. cbn. split; auto.
        exists (snd e). destruct e as [ek ev]. cbn [fst snd]. apply side_take. rewrite <- ED.
        apply side_after_seek; auto. apply strict_sorted; auto.
    + intros H; inversion H; subst. split; [|split; auto with env]. split; auto. cbn. split; auto.
      eapply before_of_empty; eauto. apply strict_sorted; auto.
  - intros H; inversion H; subst. split; [|split; auto with env]. split; auto. rewrite EI. split; auto.
    apply orb_false_iff in EC. destruct EC as [EF EK]. rewrite EF in *. destruct HK as (v & pre & E & P).
    exists v, pre. split; auto. intros x y Hx Hy. rewrite E in SW. cbn [app] in SW.
    apply strict_app_inv in SW. destruct SW as (_ & _ & SW).
    eapply blt_ble_trans; [apply (SW x (re_key re', v)); cbn; auto|]. cbn [fst].
    eapply ble_trans; [|apply HL; exact Hy]. rewrite ble_not_blt, EK. reflexivity.
Qed.

Lemma rms_seek_ok : forall h k l rms w rms' w',
  (exists l0, Forall (rm_ok h l0) rms) -> (forall y, In y l -> ble k (fst y) = true) ->
  remove_entries_seek k rms w = (rms', w') ->
  Forall (rm_ok h l) rms' /\ map re_table rms' = map re_table rms /\ same_env w w'.
Proof.
  induction rms as [|re rms IH]; intros w rms' w' (l0 & F) HL; cbn [remove_entries_seek].
  - intros H; inversion H; subst. repeat split; auto with env.
  - destruct (remove_entry_seek k re w) as [re1 w1] eqn:E1.
    destruct (remove_entries_seek k rms w1) as [r2 w2] eqn:E2.
    intros H; inversion H; subst. inversion F as [|? ? F1 F2]; subst.
    edestruct (rm_seek_ok h k l) as (A & B & C); [right; exact I|destruct F1; eauto|exists l0; eauto|eauto|exact E1|].
    edestruct IH as (A2 & B2 & C2); [exists l0; eauto|eauto|exact E2|].
    split; [constructor; auto|]. split; [cbn; congruence|]. eapply same_env_trans; eauto.
Qed.

Lemma from_map_join : forall mf t k l, from k (map (join_fn mf t) l) = map (join_fn mf t) (from k l).
Proof.
  unfold from. induction l as [|a l IH]; [reflexivity|]. cbn [map filter].
  replace (fst (join_fn mf t a)) with (fst a).
  - destruct (ble k (fst a)); cbn [map]; rewrite IH; reflexivity.
  - unfold join_fn. destruct (lookup (fst a) t); auto. destruct (mf _ _ _); auto.
Qed.

Lemma fst_join_fn : forall mf t a, fst (join_fn mf t a) = fst a.
Proof. intros. unfold join_fn. destruct (lookup (fst a) t); auto. destruct (mf _ _ _); auto. Qed.

Lemma suffix_from : forall k t, sorted t -> suffix (from k t) t.
Proof. intros. rewrite <- drop_before_from by auto. apply suffix_drop. Qed.

Theorem seek_R : forall it full rest k w ok it' w', R it full rest -> seek k it w = (ok, it', w') ->
  R it' full (from k full) /\ (ok = false -> from k full = []) /\ same_env w w' /\ has_timeout it' = has_timeout it.
Proof.
  induction it as [b|s f u IH|u IH|h rms u IH|mf b cur fin u IH]; intros full rest k w ok it' w' HR HS;
    cbn [seek] in HS; cbn [R] in HR; destruct HR as (S & X & HR).
  - destruct HR as [HW HRst]. destruct (base_seek k b w) as [ok1 b1] eqn:E. inversion HS; subst.
    apply base_seek_ok in E. destruct E as [-> EF]. cbn [R b_win b_rest].
    rewrite (drop_before_from k (b_win b)) in * by auto.
    repeat split; auto with env. apply suffix_from; auto.
  - destruct HR as (uf & ur & p & HR & G & -> & ->).
    destruct (seek k u w) as [[ok1 u1] w1] eqn:E. inversion HS; subst.
    edestruct IH as (A & B & C & D); eauto. cbn [R has_timeout]. split; [|split; [|split; auto]].
    + split; auto. split; [apply suffix_from; auto|]. exists uf, (from k uf), p. rewrite from_filter. auto.
    + intros Hk. rewrite from_filter, (B Hk). reflexivity.
  - destruct (seek k u w) as [[ok1 u1] w1] eqn:E. inversion HS; subst.
    edestruct IH as (A & B & C & D); eauto. cbn [R has_timeout]. split; [|split; [|split; auto]]; auto.
    split; auto. split; auto. apply suffix_from; auto.
  - destruct HR as (uf & ur & HR & FR & -> & ->).
    destruct (remove_entries_seek k rms w) as [rms1 w1] eqn:E1.
    destruct (seek k u w1) as [[ok1 u1] w2] eqn:E. inversion HS; subst.
    edestruct IH as (A & B & C & D); eauto. cbn [has_timeout].
    edestruct (rms_seek_ok h k (from k uf)) as (A2 & B2 & C2); [exists ur; eauto| |exact E1|].
    { unfold from. intros y Hy. apply filter_In in Hy. tauto. }
    split; [|split; [|split; auto]].
    + cbn [R]. split; auto. split; [apply suffix_from; auto|]. exists uf, (from k uf).
      rewrite B2, from_filter. auto.
    + intros Hk. rewrite from_filter, (B Hk). reflexivity.
    + eapply same_env_trans; eauto.
  - destruct HR as (uf & ur & HR & SB & MG & SO & -> & ->).
    destruct (seek k u w) as [[ok1 u1] w1] eqn:E. edestruct IH as (A & B & C & D); eauto.
    destruct ok1.
    + destruct (base_seek k b w1) as [rok b1] eqn:EB. inversion HS; subst.
      apply base_seek_ok in EB. destruct EB as [-> EF]. cbn [has_timeout].
      split; [|split; [discriminate|split; auto]]. cbn [R b_win b_rest]. split; auto.
      split; [apply suffix_from; auto|]. exists uf, (from k uf). rewrite from_map_join. split; auto. split; auto.
      split; auto. split; auto.
      assert (HG : forall y, In y (from k uf) -> ble k (fst y) = true)
        by (unfold from; intros y Hy; apply filter_In in Hy; tauto).
      destruct rok; cbn [negb].
      * apply side_after_seek; auto. apply strict_sorted; auto.
      * eapply before_of_empty; eauto. apply strict_sorted; auto.
    + inversion HS; subst. specialize (B eq_refl). cbn [has_timeout].
      split; [|split; [intros _; rewrite from_map_join, B; reflexivity|split; auto]].
      cbn [R]. split; auto. split; [apply suffix_from; auto|]. exists uf, (from k uf). rewrite from_map_join.
      rewrite B in *. split; auto. split; auto. split; auto. split; auto.
      destruct fin; [eapply before_sub; [|exact SO]; intros ? []|eapply side_sub; [|exact SO]; intros ? []].
Qed.

(** * Removing *)

Lemma key_in_true : forall k t, key_in k t = true <-> has_key k t.
Proof.
  unfold key_in, has_key. intros. rewrite existsb_exists. split.
  - intros ((k' & v) & Hin & E). apply beq_true in E. cbn in E. subst. eauto.
  - intros (v & Hin). exists (k, v). split; auto. apply beq_true. reflexivity.
Qed.

Lemma key_in_false : forall k t, key_in k t = false <-> ~ has_key k t.
Proof.
  intros. rewrite <- key_in_true. destruct (key_in k t); split; intros H; auto; congruence.
Qed.

(** Position of a side iterator relative to a wanted key. *)
Lemma side_lookup_gt : forall t e rest l k, strict t -> side_ok t (Some e) rest l ->
  (exists v, In (k, v) l) -> blt k (fst e) = true -> ~ has_key k t.
Proof.
  intros t e rest l k S (pre & -> & P) (v & Hl) HK (v' & Hin). cbn [app] in *.
  apply in_app_or in Hin. destruct Hin as [Hin|[->|Hin]].
  - specialize (P _ _ Hin Hl). cbn in P. rewrite blt_irrefl in P. discriminate.
  - cbn in HK. rewrite blt_irrefl in HK. discriminate.
  - apply strict_app_inv in S. destruct S as (_ & S & _). inversion S as [|? ? _ F]; subst.
    rewrite Forall_forall in F. specialize (F _ Hin). cbn in F.
    pose proof (blt_trans _ _ _ HK F) as C. rewrite blt_irrefl in C. discriminate.
Qed.

Lemma before_lookup : forall t l k, all_before t l -> (exists v, In (k, v) l) -> ~ has_key k t.
Proof.
  intros t l k B (v & Hl) (v' & Ht). specialize (B _ _ Ht Hl). cbn in B. rewrite blt_irrefl in B. discriminate.
Qed.

Lemma side_cur_in : forall t e rest l, side_ok t (Some e) rest l -> In e t.
Proof. intros t e rest l (pre & -> & _). apply in_or_app. right. left. reflexivity. Qed.

Lemma compare_lt : forall a b, bytes_compare a b = Lt <-> blt a b = true.
Proof. intros. unfold blt. destruct (bytes_compare a b); split; congruence. Qed.
Lemma compare_gt : forall a b, bytes_compare a b = Gt <-> blt b a = true.
Proof. intros. unfold blt. rewrite (bytes_compare_antisym a b). destruct (bytes_compare a b); cbn; split; congruence. Qed.

(** [open_entry] gives a started entry in order; [l] = entries from [key] on. *)
Definition started (re : rm_entry) : Prop := re_it re <> None.

Lemma open_entry_ok : forall h key l re w re' w',
  rm_ok h l re -> (forall y, In y l -> ble key (fst y) = true) ->
  open_entry h key re w = (re', w') ->
  rm_ok h l re' /\ started re' /\ re_table re' = re_table re /\ same_env w w'.
Proof.
  intros h key l re w re' w' (ST & HK) HL. unfold open_entry.
  destruct (re_it re) as [b|] eqn:EI.
  - intros H; inversion H; subst. split; [split; auto; rewrite EI; auto|].
    split; [unfold started; congruence|split; auto with env].
  - destruct (base_seek key (base_open h (re_table re)) w) as [ok b1] eqn:ES.
    apply base_seek_ok in ES. destruct ES as [-> EF]. cbn [base_open b_win] in *.
    assert (SW : strict (window h (re_table re))) by (apply strict_window; auto).
    destruct ok.
    + unfold base_next. cbn [b_rest b_win]. destruct (drop_before key (window h (re_table re))) as [|e r] eqn:ED.
      * intros H; inversion H; subst. split; [|split; [unfold started; cbn; congruence|split; auto with env]].
        split; auto. cbn. split; auto. eapply before_of_empty; eauto. apply strict_sorted; auto.
      * intros H; inversion H; subst. split; [|split; [unfold started; cbn; congruence|split; auto with env]].
        split; auto. cbn. split; auto. rewrite HK. exists (snd e). destruct e as [ek ev]. cbn [fst snd].
        apply side_take. rewrite <- ED. apply side_after_seek; auto. apply strict_sorted; auto.
    + intros H; inversion H; subst. split; [|split; [unfold started; cbn; congruence|split; auto with env]].
      split; auto. cbn. split; auto. eapply before_of_empty; eauto. apply strict_sorted; auto.
Qed.

Lemma match_entry_ok : forall h key l re w,
  rm_ok h l re -> started re -> (forall y, In y l -> ble key (fst y) = true) -> (exists v, In (key, v) l) ->
  exists m re' w', (forall fuel, (2 <= fuel)%nat -> match_entry fuel key re w = Some (m, re', w')) /\
    rm_ok h l re' /\ re_table re' = re_table re /\ same_env w w' /\
    m = key_in key (window h (re_table re)).
Proof.
  intros h key l re w HR HS HL HK. destruct HR as (ST & HR).
  unfold started in HS. destruct (re_it re) as [b|] eqn:EI; [|congruence]. clear HS.
  destruct HR as [HW HR].
  assert (SW : strict (b_win b)) by (rewrite HW; apply strict_window; auto).
  destruct (re_finished re) eqn:EF.
  { exists false, re, w. split; [intros [|f] Hf; [lia|]; cbn [match_entry]; rewrite EF; reflexivity|].
    split; [split; auto; rewrite EI, EF; auto|]. split; auto. split; auto with env.
    symmetry. apply key_in_false. rewrite <- HW. eapply before_lookup; eauto. }
  destruct HR as [v HR].
  destruct (bytes_compare (re_key re) key) eqn:EC.
  - exists true, re, w. split; [intros [|f] Hf; [lia|]; cbn [match_entry]; rewrite EF, EI, EC; reflexivity|].
    split; [split; auto; rewrite EI, EF; eauto|]. split; auto. split; auto with env.
    symmetry. apply key_in_true. apply bytes_compare_eq in EC. exists v. rewrite <- HW, <- EC.
    eapply side_cur_in; eauto.
  - destruct (base_seek key b w) as [ok b1] eqn:ES. destruct (base_seek_ok _ _ _ _ _ ES) as [-> EFl].
    destruct ok.
    + destruct (drop_before key (b_win b)) as [|e r] eqn:ED.
      * exists false. eexists. eexists. split.
        { intros [|f] Hf; [lia|]; cbn [match_entry]; rewrite EF, EI, EC, ES; unfold base_next; cbn [b_rest b_win]. reflexivity. }
        split; [|split; [reflexivity|split; auto with env]].
        -- split; auto. cbn. split; auto. eapply before_of_empty; eauto. apply strict_sorted; auto.
        -- symmetry. apply key_in_false. rewrite <- HW. eapply before_lookup; eauto.
           eapply before_of_empty; eauto. apply strict_sorted; auto.
      * assert (SO : side_ok (b_win b) (Some e) r l).
        { apply side_take. rewrite <- ED. apply side_after_seek; auto. apply strict_sorted; auto. }
        assert (HE : ble key (fst e) = true).
        { eapply drop_before_ge; [apply strict_sorted; exact SW|]. rewrite ED. left. reflexivity. }
        exists (key_in key (window h (re_table re))). eexists. eexists. split.
        { intros [|f] Hf; [lia|]; cbn [match_entry]; rewrite EF, EI, EC, ES; unfold base_next; cbn [b_rest b_win].
          destruct f as [|f]; [lia|]. cbn [match_entry re_finished re_it re_key].
          assert (EQ : bytes_compare (fst e) key = Eq -> key_in key (window h (re_table re)) = true).
          { intros Hc. apply bytes_compare_eq in Hc. apply key_in_true. exists (snd e). rewrite <- HW, <- Hc.
            destruct e; cbn. eapply side_cur_in; eauto. }
          assert (GT : bytes_compare (fst e) key = Gt -> key_in key (window h (re_table re)) = false).
          { intros Hc. apply key_in_false. rewrite <- HW. eapply side_lookup_gt; eauto. apply compare_gt; auto. }
          destruct (bytes_compare (fst e) key) eqn:EC2.
          - rewrite EQ by auto. reflexivity.
          - apply compare_lt in EC2. rewrite ble_not_blt, EC2 in HE. discriminate.
          - rewrite GT by auto. reflexivity. }
        split; [|split; [reflexivity|split; auto with env]].
        split; auto. cbn. split; auto. exists (snd e). destruct e; exact SO.
    + exists false. eexists. eexists. split.
      { intros [|f] Hf; [lia|]; cbn [match_entry]; rewrite EF, EI, EC, ES; reflexivity. }
      split; [|split; [reflexivity|split; auto with env]].
      * split; auto. cbn. split; auto. eapply before_of_empty; eauto. apply strict_sorted; auto.
      * symmetry. apply key_in_false. rewrite <- HW. eapply before_lookup; eauto.
        eapply before_of_empty; eauto. apply strict_sorted; auto.
  - exists false, re, w. split; [intros [|f] Hf; [lia|]; cbn [match_entry]; rewrite EF, EI, EC; reflexivity|].
    split; [split; auto; rewrite EI, EF; eauto|]. split; auto. split; auto with env.
    symmetry. apply key_in_false. rewrite <- HW. eapply side_lookup_gt; eauto. cbn. apply compare_gt; auto.
Qed.

Lemma match_key_ok : forall h key val l rms w,
  Forall (rm_ok h l) rms -> (forall y, In y l -> ble key (fst y) = true) -> In (key, val) l ->
  exists m rms' w', (forall fuel, (2 <= fuel)%nat -> match_key fuel h key val rms w = Some (m, rms', w')) /\
    Forall (rm_ok h l) rms' /\ Permutation (map re_table rms') (map re_table rms) /\ same_env w w' /\
    m = removed_by h (map re_table rms) (key, val) /\ (m = true -> rms' <> []).
Proof.
  intros h key val l rms. induction rms as [|re rms IH]; intros w HF HL HK.
  - exists false, [], w. split; [reflexivity|]. repeat split; auto with env. discriminate.
  - inversion HF as [|? ? F1 F2]; subst.
    destruct (open_entry h key re w) as [re1 w1] eqn:EO.
    destruct (open_entry_ok _ _ _ _ _ _ _ F1 HL EO) as (R1 & S1 & T1 & E1).
    destruct (match_entry_ok h key l re1 w1 R1 S1 HL) as (m & re2 & w2 & EM & R2 & T2 & E2 & Em); [eauto|].
    destruct m.
    + exists true. eexists. eexists. split.
      { intros fuel Hf. cbn [match_key]. rewrite EO, EM by lia. reflexivity. }
      split; [constructor; auto|]. split; [cbn [map]; rewrite T2, T1; apply Permutation_refl|].
      split. { eapply same_env_trans; [exact E1|]. eapply same_env_trans; [exact E2|]. apply same_env_note_bump. }
      split; [|congruence]. cbn [map removed_by existsb fst]. rewrite T1 in Em. rewrite <- Em. reflexivity.
    + destruct (IH w2 F2 HL HK) as (m' & rms' & w' & EI & RI & PI & EE & Em' & NE).
      rewrite T1 in *.
      assert (ENV : same_env w w') by (eapply same_env_trans; [exact E1|eapply same_env_trans; eauto]).
      assert (EB : m' = removed_by h (map re_table (re :: rms)) (key, val)).
      { unfold removed_by in *. cbn [map existsb fst] in *. rewrite <- Em. exact Em'. }
      destruct m'.
      * destruct rms' as [|m1 r1]; [specialize (NE eq_refl); congruence|].
        exists true. eexists. eexists. split.
        { intros fuel Hf. cbn [match_key]. rewrite EO, EM by lia. rewrite EI by lia. reflexivity. }
        inversion RI; subst. split; [constructor; auto|]. split.
        { cbn [map] in *. rewrite T2. eapply Permutation_trans; [apply perm_swap|].
          apply perm_skip. exact PI. }
        split; auto. split; auto. congruence.
      * exists false. eexists. eexists. split.
        { intros fuel Hf. cbn [match_key]. rewrite EO, EM by lia. rewrite EI by lia. reflexivity. }
        split; [constructor; auto|]. split.
        { cbn [map]. rewrite T2. apply perm_skip. exact PI. }
        split; auto. split; auto. congruence.
Qed.

Lemma removed_by_perm : forall h a b e, Permutation a b -> removed_by h a e = removed_by h b e.
Proof.
  intros h a b e P. unfold removed_by. induction P; cbn [existsb]; auto.
  - rewrite IHP. reflexivity.
  - destruct (key_in (fst e) (window h x)), (key_in (fst e) (window h y)); reflexivity.
  - congruence.
Qed.

(** The removal counter moves with the answers. *)
Definition cnt_rm (w : world) : N := w_cnt w StRemoveStrict CFiltered.

Lemma cnt_rm_seek : forall k w, cnt_rm (note (EvSeek StRemoveStrict k) (bump StRemoveStrict CSeek w)) = cnt_rm w.
Proof. reflexivity. Qed.

Lemma open_entry_cnt : forall h key re w re' w', open_entry h key re w = (re', w') -> cnt_rm w' = cnt_rm w.
Proof.
  intros h key re w re' w'. unfold open_entry. destruct (re_it re); [intros H; inversion H; auto|].
  destruct (base_seek key _ w) as [[|] b1].
  - destruct (base_next b1) as [[e|] b2]; intros H; inversion H; subst; reflexivity.
  - intros H; inversion H; auto.
Qed.

Lemma match_entry_cnt : forall fuel key re w m re' w', match_entry fuel key re w = Some (m, re', w') -> cnt_rm w' = cnt_rm w.
Proof.
  induction fuel as [|f IH]; intros key re w m re' w' H; cbn [match_entry] in H; [discriminate|].
  destruct (re_finished re); [inversion H; auto|]. destruct (re_it re) as [b|]; [|inversion H; auto].
  destruct (bytes_compare (re_key re) key); try (inversion H; auto; fail).
  destruct (base_seek key b w) as [[|] b1]; [|inversion H; auto].
  destruct (base_next b1) as [[e|] b2]; [apply IH in H; rewrite H; reflexivity|inversion H; reflexivity].
Qed.

Lemma match_key_cnt : forall fuel h key val rms w m rms' w',
  match_key fuel h key val rms w = Some (m, rms', w') -> cnt_rm w' = cnt_rm w + (if m then 1 else 0).
Proof.
  intros fuel h key val. induction rms as [|re rms IH]; intros w m rms' w' H; cbn [match_key] in H.
  - inversion H; subst. lia.
  - destruct (open_entry h key re w) as [re1 w1] eqn:EO. apply open_entry_cnt in EO.
    destruct (match_entry fuel key re1 w1) as [[[[|] re2] w2]|] eqn:EM; [| |discriminate]; apply match_entry_cnt in EM.
    + inversion H; subst. rewrite <- EO, <- EM. reflexivity.
    + destruct (match_key fuel h key val rms w2) as [[[[|] r'] w3]|] eqn:EK; [| |discriminate]; apply IH in EK.
      * destruct r'; inversion H; subst; lia.
      * inversion H; subst; lia.
Qed.

(** * Joining *)

Lemma lookup_some : forall k v t, strict t -> In (k, v) t -> lookup k t = Some v.
Proof.
  intros k v t S. unfold lookup. induction S as [|a t S IH F]; intros H; [destruct H|]. cbn [find].
  destruct (beq (fst a) k) eqn:E.
  - destruct H as [->|H]; auto. apply beq_true in E. rewrite Forall_forall in F. specialize (F _ H). cbn in F.
    rewrite E, blt_irrefl in F. discriminate.
  - destruct H as [->|H]; [|apply IH; auto]. cbn in E. assert (beq k k = true) by (apply beq_true; auto). congruence.
Qed.

Lemma lookup_none : forall k t, ~ has_key k t -> lookup k t = None.
Proof.
  intros k t H. unfold lookup. destruct (find (fun e => beq (fst e) k) t) as [[k' v]|] eqn:E; auto.
  apply find_some in E. destruct E as [Hin E]. apply beq_true in E. cbn in E. subst. exfalso. apply H. exists v. auto.
Qed.

Ltac cnt_red := cbn [w_cnt bump note stage_eqb category_eqb andb].
Ltac cnt_yes := rewrite (proj2 (key_in_true _ _)) by (eexists; eassumption); cnt_red; lia.
Ltac cnt_no := rewrite (proj2 (key_in_false _ _)); [cnt_red; lia|];
  first [eapply before_lookup; eauto; fail
        |eapply side_lookup_gt; eauto; cbn; apply compare_gt; auto; fail].
Ltac ctail := split; [first [cnt_yes|cnt_no]|auto].

Lemma join_right_ok : forall mf b cur (fin : bool) l lk lv w, strict (b_win b) ->
  (forall y, In y l -> ble lk (fst y) = true) -> In (lk, lv) l ->
  (forall rv, In (lk, rv) (b_win b) -> exists m, mf lk lv rv = Ok m) ->
  (if fin then all_before (b_win b) l else side_ok (b_win b) cur (b_rest b) l) ->
  exists b' cur' (fin' : bool) w', (forall fuel, (2 <= fuel)%nat ->
      join_right fuel mf b cur fin lk lv w = (OOk (join_fn mf (b_win b) (lk, lv)), b', cur', fin', w')) /\
    b_win b' = b_win b /\ same_env w w' /\
    w_cnt w' StLjoin CMerged = w_cnt w StLjoin CMerged + (if key_in lk (b_win b) then 1 else 0) /\
    (if fin' then all_before (b_win b) l else side_ok (b_win b) cur' (b_rest b') l).
Proof.
  intros mf b cur fin l lk lv w S HL HK HM HS.
  destruct fin.
  { exists b, cur, true, w. split; [|split; [auto|split; [auto with env|ctail]]].
    intros [|f] Hf; [lia|]. cbn [join_right]. unfold join_fn. cbn [fst].
    rewrite lookup_none by (eapply before_lookup; eauto). reflexivity. }
  (* the entry in hand *)
  assert (STEP : forall e b1, side_ok (b_win b) (Some e) (b_rest b1) l -> b_win b1 = b_win b ->
    exists b' cur' (fin' : bool) w', (forall fuel, (1 <= fuel)%nat ->
      (let (rk, rv) := e in
       match bytes_compare rk lk with
       | Lt =>
           let (ok, rb2) := base_seek lk b1 w in
           if ok then join_right fuel mf rb2 None false lk lv (note (EvSeek StLjoin lk) (bump StLjoin CSeek w))
           else (OOk (lk, lv), rb2, Some (rk, rv), true, w)
       | Gt => (OOk (lk, lv), b1, Some (rk, rv), false, w)
       | Eq =>
           match mf lk lv rv with
           | Ok m => (OOk (lk, m), b1, Some (rk, rv), false, note (EvMerge StLjoin lk) (bump StLjoin CMerged w))
           | Fail => (OFail, b1, Some (rk, rv), false, w)
           | Abort => (OAbort, b1, Some (rk, rv), false, w)
           | UB => (OUB, b1, Some (rk, rv), false, w)
           | Hang => (OHang, b1, Some (rk, rv), false, w)
           end
       end) = (OOk (join_fn mf (b_win b) (lk, lv)), b', cur', fin', w')) /\
    b_win b' = b_win b /\ same_env w w' /\
    w_cnt w' StLjoin CMerged = w_cnt w StLjoin CMerged + (if key_in lk (b_win b) then 1 else 0) /\
    (if fin' then all_before (b_win b) l else side_ok (b_win b) cur' (b_rest b') l)).
  { intros [rk rv] b1 SO W1.
    destruct (bytes_compare rk lk) eqn:EC.
    - apply bytes_compare_eq in EC. subst rk. pose proof (side_cur_in _ _ _ _ SO) as Hin.
      destruct (HM _ Hin) as [m Em]. exists b1, (Some (lk, rv)), false. eexists. split.
      { intros fuel _. rewrite Em. unfold join_fn. cbn [fst snd]. rewrite (lookup_some _ _ _ S Hin), Em. reflexivity. }
      split; auto. split; [auto with env|]. ctail.
    - destruct (base_seek lk b1 w) as [ok b2] eqn:ES. destruct (base_seek_ok _ _ _ _ _ ES) as [-> EFl].
      rewrite W1 in *. destruct ok.
      + destruct (drop_before lk (b_win b)) as [|[k2 v2] r] eqn:ED.
        * assert (AB : all_before (b_win b) l) by (eapply before_of_empty; eauto; apply strict_sorted; auto).
          eexists _, None, true, _. split.
          { intros [|f] Hf; [lia|]. cbn [join_right]. unfold base_next. cbn [b_rest].
            unfold join_fn. cbn [fst]. rewrite lookup_none by (eapply before_lookup; eauto). reflexivity. }
          cbn [b_win b_rest]. split; auto. split; [auto with env|]. ctail.
        * assert (SO2 : side_ok (b_win b) (Some (k2, v2)) r l).
          { apply side_take. rewrite <- ED. apply side_after_seek; auto. apply strict_sorted; auto. }
          assert (HE : ble lk k2 = true).
          { eapply (drop_before_ge lk (b_win b)) with (e := (k2, v2)); [apply strict_sorted; exact S|]. rewrite ED. left. reflexivity. }
          destruct (bytes_compare k2 lk) eqn:EC2.
          -- apply bytes_compare_eq in EC2. subst k2. pose proof (side_cur_in _ _ _ _ SO2) as Hin.
             destruct (HM _ Hin) as [m Em]. eexists _, (Some (lk, v2)), false, _. split.
             { intros [|f] Hf; [lia|]. cbn [join_right]. unfold base_next. cbn [b_rest]. rewrite bytes_compare_refl, Em.
               unfold join_fn. cbn [fst snd]. rewrite (lookup_some _ _ _ S Hin), Em. reflexivity. }
             cbn [b_win b_rest]. split; auto. split; [do 2 (eapply same_env_trans; [apply same_env_note_bump|]; try apply same_env_refl)|]. ctail.
          -- apply compare_lt in EC2. rewrite ble_not_blt, EC2 in HE. discriminate.
          -- eexists _, (Some (k2, v2)), false, _. split.
             { intros [|f] Hf; [lia|]. cbn [join_right]. unfold base_next. cbn [b_rest]. rewrite EC2.
               unfold join_fn. cbn [fst snd]. rewrite lookup_none; [reflexivity|].
               eapply side_lookup_gt; eauto. cbn. apply compare_gt; auto. }
             cbn [b_win b_rest]. split; auto. split; [auto with env|]. ctail.
      + specialize (EFl eq_refl).
        assert (AB : all_before (b_win b) l) by (eapply before_of_empty; eauto; apply strict_sorted; auto).
        eexists _, (Some (rk, rv)), true, _. split.
        { intros fuel _. unfold join_fn. cbn [fst]. rewrite lookup_none by (eapply before_lookup; eauto). reflexivity. }
        cbn [b_win]. split; auto. split; [auto with env|]. ctail.
    - eexists _, (Some (rk, rv)), false, _. split.
      { intros fuel _. unfold join_fn. cbn [fst]. rewrite lookup_none; [reflexivity|].
        eapply side_lookup_gt; eauto. cbn. apply compare_gt; auto. }
      split; auto. split; [auto with env|]. ctail. }
  destruct cur as [e|].
  - destruct (STEP e b HS eq_refl) as (b' & c' & f' & w' & E & A & B & C).
    exists b', c', f', w'. split; auto. intros [|f] Hf; [lia|]. cbn [join_right].
    destruct e as [rk rv]. apply (E f). lia.
  - destruct (b_rest b) as [|e r] eqn:EB.
    + destruct HS as (pre & EW & P). rewrite !app_nil_r in EW. subst pre.
      eexists _, None, true, _. split.
      { intros [|f] Hf; [lia|]. cbn [join_right]. unfold base_next. rewrite EB.
        unfold join_fn. cbn [fst]. rewrite lookup_none by (eapply before_lookup; eauto). reflexivity. }
      split; auto. split; [auto with env|]. ctail.
    + destruct (STEP e {| b_win := b_win b; b_rest := r |}) as (b' & c' & f' & w' & E & A & B & C); auto.
      exists b', c', f', w'. split; auto. intros [|f] Hf; [lia|]. cbn [join_right]. unfold base_next. rewrite EB.
      destruct e as [rk rv]. apply (E f). lia.
Qed.

(** * Next *)

Definition expired_between (w w' : world) : Prop :=
  exists n, (w_tick w <= n < w_tick w')%nat /\ ts_cmp (w_now w n) (w_deadline w) <> Lt.

Fixpoint depth (it : iter) : nat :=
  match it with
  | IBase _ => O
  | IFilter _ _ u | ITimeout u | IRemove _ _ u | ILjoin _ _ _ _ u => S (depth u)
  end.

Lemma seek_depth : forall it k w ok it' w', seek k it w = (ok, it', w') -> depth it' = depth it.
Proof.
  induction it as [b|s f u IH|u IH|h rms u IH|mf b cur fin u IH]; intros k w ok it' w' HS; cbn [seek] in HS.
  - destruct (base_seek k b w). inversion HS; reflexivity.
  - destruct (seek k u w) as [[ok1 u1] w1] eqn:E. inversion HS; subst. cbn. f_equal. eauto.
  - destruct (seek k u w) as [[ok1 u1] w1] eqn:E. inversion HS; subst. cbn. f_equal. eauto.
  - destruct (remove_entries_seek k rms w) as [rms1 w1].
    destruct (seek k u w1) as [[ok1 u1] w2] eqn:E. inversion HS; subst. cbn. f_equal. eauto.
  - destruct (seek k u w) as [[ok1 u1] w1] eqn:E. destruct ok1.
    + destruct (base_seek k b w1). inversion HS; subst. cbn. f_equal. eauto.
    + inversion HS; subst. cbn. f_equal. eauto.
Qed.

Definition next_post (it : iter) (full rest : table) (w : world) (o : out) (it' : iter) (w' : world) : Prop :=
  same_env w w' /\ has_timeout it' = has_timeout it /\ depth it' = depth it /\
  match o with
  | OOk e => exists rest', rest = e :: rest' /\ R it' full rest'
  | OFail => rest = [] /\ R it' full []
  | OExpired => has_timeout it = true /\ expired_between w w' /\ R it' full rest
  | OAbort | OUB | OHang => False
  end.

Lemma expired_trans : forall a b c, same_env a b -> expired_between b c -> expired_between a c.
Proof.
  intros a b c (A & B & _ & _ & T) (n & Hn & E). exists n. rewrite A, B in E. split; auto. lia.
Qed.

Lemma R_filter_intro : forall s f u ufull urest p, R u ufull urest -> good_filter f p ufull ->
  R (IFilter s f u) (filter p ufull) (filter p urest).
Proof.
  intros s f u uf ur p HR G. cbn [R]. split; [apply sorted_filter; eapply R_sorted; eauto|].
  split; [apply suffix_filter; eapply R_suffix; eauto|]. exists uf, ur, p. auto.
Qed.

Lemma R_remove_intro : forall h rms u ufull urest, R u ufull urest -> Forall (rm_ok h urest) rms ->
  R (IRemove h rms u) (filter (fun e => negb (removed_by h (map re_table rms) e)) ufull)
    (filter (fun e => negb (removed_by h (map re_table rms) e)) urest).
Proof.
  intros h rms u uf ur HR F. cbn [R]. split; [apply sorted_filter; eapply R_sorted; eauto|].
  split; [apply suffix_filter; eapply R_suffix; eauto|]. exists uf, ur. auto.
Qed.

Lemma sorted_map_join : forall mf t l, sorted l -> sorted (map (join_fn mf t) l).
Proof.
  induction 1 as [|a l H IH F]; cbn [map]; [constructor|]. constructor; auto.
  rewrite Forall_forall in *. intros x Hx. apply in_map_iff in Hx. destruct Hx as (y & <- & Hy).
  rewrite !fst_join_fn. auto.
Qed.

Lemma R_ljoin_intro : forall mf b cur fin u ufull urest, R u ufull urest -> strict (b_win b) ->
  mergeable mf (b_win b) ufull ->
  (if fin : bool then all_before (b_win b) urest else side_ok (b_win b) cur (b_rest b) urest) ->
  R (ILjoin mf b cur fin u) (map (join_fn mf (b_win b)) ufull) (map (join_fn mf (b_win b)) urest).
Proof.
  intros mf b cur fin u uf ur HR S M SO. cbn [R]. split; [apply sorted_map_join; eapply R_sorted; eauto|].
  split; [apply suffix_map; eapply R_suffix; eauto|]. exists uf, ur. auto 10.
Qed.

Lemma filter_ext_perm : forall h a b l, Permutation a b ->
  filter (fun e => negb (removed_by h a e)) l = filter (fun e => negb (removed_by h b e)) l.
Proof. intros. apply filter_ext. intros e. rewrite (removed_by_perm h a b); auto. Qed.

(** A seek past [k] shortens what is to come after (k, v). *)
Lemma from_shorter : forall k v r t k', sorted t -> suffix ((k, v) :: r) t -> blt k k' = true ->
  (length (from k' t) <= length r)%nat /\ from k' t = from k' r.
Proof.
  intros k v r t k' S [pre ->] HK. rewrite <- drop_before_from by auto.
  assert (HP : forall x, In x (pre ++ [(k, v)]) -> blt (fst x) k' = true).
  { intros x Hx. apply in_app_or in Hx. destruct Hx as [Hx|[<-|[]]]; auto.
    apply sorted_app_inv in S. destruct S as (_ & _ & S). eapply ble_blt_trans; [|exact HK].
    apply (S x (k, v)); cbn; auto. }
  replace (pre ++ (k, v) :: r) with ((pre ++ [(k, v)]) ++ r) by (rewrite <- app_assoc; reflexivity).
  rewrite drop_before_app by exact HP. split; [apply drop_before_len|].
  apply drop_before_from. apply sorted_app_inv in S. destruct S as (_ & S & _). inversion S; auto.
Qed.

Lemma filter_from_skip : forall (p : kv -> bool) k' r, (forall e, In e r -> blt (fst e) k' = true -> p e = false) ->
  filter p (from k' r) = filter p r.
Proof.
  intros p k' r H. unfold from. induction r as [|a r IH]; [reflexivity|]. cbn [filter].
  rewrite ble_not_blt. destruct (blt (fst a) k') eqn:E; cbn [negb filter].
  - rewrite (H a) by (auto; left; auto). apply IH. intros; apply H; auto; right; auto.
  - rewrite IH; auto. intros; apply H; auto; right; auto.
Qed.

Definition next_spec (it : iter) : Prop := forall full rest w, R it full rest ->
  exists F o it' w', (forall fuel, (F <= fuel)%nat -> next fuel it w = (o, it', w')) /\
    next_post it full rest w o it' w'.

Lemma next_filter : forall d, (forall it, depth it = d -> next_spec it) ->
  forall s f p uf n ur u w, (length ur <= n)%nat -> depth u = d -> R u uf ur -> good_filter f p uf ->
  exists F o it' w', (forall fuel, (F <= fuel)%nat -> next fuel (IFilter s f u) w = (o, it', w')) /\
    next_post (IFilter s f u) (filter p uf) (filter p ur) w o it' w'.
Proof.
  intros d IH s f p uf. induction n as [n IHn] using lt_wf_ind. intros ur u w HN HD HR G.
  destruct (IH u HD uf ur w HR) as (F & o & u1 & w1 & EN & EV & HT & DP & PO).
  destruct o as [[k v]| | | | |]; try contradiction.
  - destruct PO as (ur' & -> & HR1).
    assert (Hin : In (k, v) uf) by (eapply suffix_in; [eapply R_suffix; exact HR|left; reflexivity]).
    assert (SF : sorted uf) by (eapply R_sorted; eauto).
    assert (SX : suffix ((k, v) :: ur') uf) by (eapply R_suffix; exact HR).
    destruct (G w1 k v Hin) as [GW GM]. destruct (f w1 k v) as [r w2] eqn:EF. cbn [fst snd] in GW, GM. subst w2.
    destruct r as [| |k'| | |]; try contradiction.
    + exists (S F), (OOk (k, v)), (IFilter s f u1), w1. split.
      { intros [|m] Hm; [lia|]. cbn [next]. rewrite EN by lia. rewrite EF. reflexivity. }
      split; auto. split; auto. split; [cbn; congruence|]. cbn [filter]. rewrite GM. eexists. split; [reflexivity|].
      apply R_filter_intro; auto.
    + cbn [length] in HN.
      destruct (IHn (length ur')) with (ur := ur') (u := u1) (w := note (EvReject s k v) (bump s CFiltered w1))
        as (F2 & o2 & it2 & w2 & E2 & V2 & T2 & D2 & P2); auto; try lia; try congruence.
      exists (S (F + F2)), o2, it2, w2. split.
      { intros [|m] Hm; [lia|]. cbn [next]. rewrite EN by lia. rewrite EF. apply E2. lia. }
      assert (V : same_env w (note (EvReject s k v) (bump s CFiltered w1)))
        by (eapply same_env_trans; [exact EV|apply same_env_note_bump]).
      split; [eapply same_env_trans; eauto|]. split; [cbn [has_timeout] in *; congruence|].
      split; [cbn [depth] in *; congruence|]. cbn [filter]. rewrite GM.
      destruct o2; auto. destruct P2 as (Pa & Pb & Pc). cbn [has_timeout] in *. split; [congruence|].
      split; auto. eapply expired_trans; eauto.
    + destruct GM as [GK GM]. cbn [length] in HN.
      destruct (seek k' u1 (note (EvSeek s k') (bump s CSeek w1))) as [[ok u2] w3] eqn:ES.
      destruct (seek_R _ _ _ _ _ _ _ _ HR1 ES) as (HR2 & HF & EV3 & HT3).
      pose proof (seek_depth _ _ _ _ _ _ ES) as HD3.
      destruct (from_shorter _ _ _ _ _ SF SX GK) as [HL HE].
      assert (EQ : filter p (from k' uf) = filter p ur').
      { rewrite HE. apply filter_from_skip. intros e He Hlt. apply GM; auto.
        - eapply suffix_in; [exact SX|right; exact He].
        - apply (sorted_head (k, v) ur' uf e); auto. }
      assert (HP : p (k, v) = false) by (apply GM; auto; apply ble_refl).
      assert (V3 : same_env w w3).
      { eapply same_env_trans; [exact EV|]. eapply same_env_trans; [apply same_env_note_bump|exact EV3]. }
      destruct ok.
      * assert (HLn : (length (from k' uf) < n)%nat) by (exact (Nat.le_trans _ _ _ (le_n_S _ _ HL) HN)).
        destruct (IHn (length (from k' uf))) with (ur := from k' uf) (u := u2) (w := note (EvReject s k v) (bump s CFiltered w3))
          as (F2 & o2 & it2 & w2 & E2 & V2 & T2 & D2 & P2); auto; try lia; try congruence.
        exists (S (F + F2)), o2, it2, w2. split.
        { intros [|m] Hm; [lia|]. cbn [next]. rewrite EN by lia. rewrite EF, ES. apply E2. lia. }
        assert (V : same_env w (note (EvReject s k v) (bump s CFiltered w3)))
          by (eapply same_env_trans; [exact V3|apply same_env_note_bump]).
        split; [eapply same_env_trans; eauto|]. split; [cbn [has_timeout] in *; congruence|].
        split; [cbn [depth] in *; congruence|]. cbn [filter]. rewrite HP, <- EQ.
        destruct o2; auto. destruct P2 as (Pa & Pb & Pc). cbn [has_timeout] in *. split; [congruence|].
        split; auto. eapply expired_trans; eauto.
      * exists (S F), OFail, (IFilter s f u2), w3. split.
        { intros [|m] Hm; [lia|]. cbn [next]. rewrite EN by lia. rewrite EF, ES. reflexivity. }
        split; auto. split; [cbn [has_timeout] in *; congruence|]. split; [cbn; congruence|].
        specialize (HF eq_refl). rewrite HF in *. cbn [filter] in *. rewrite HP, <- EQ. split; auto.
        exact (R_filter_intro s f u2 uf [] p HR2 G).
    + exists (S F), OFail, (IFilter s f u1), w1. split.
      { intros [|m] Hm; [lia|]. cbn [next]. rewrite EN by lia. rewrite EF. reflexivity. }
      assert (E0 : filter p ur' = []).
      { apply filter_nil. intros x Hx. apply GM; [eapply suffix_in; [exact SX|right; exact Hx]|].
        apply (sorted_head (k, v) ur' uf x); auto. }
      split; auto. split; auto. split; [cbn; congruence|]. cbn [filter]. rewrite (GM (k, v)) by (auto; apply ble_refl).
      split; auto. rewrite <- E0. apply R_filter_intro; auto.
  - destruct PO as [-> HR1]. exists (S F), OFail, (IFilter s f u1), w1. split.
    { intros [|m] Hm; [lia|]. cbn [next]. rewrite EN by lia. reflexivity. }
    split; auto. split; auto. split; [cbn; congruence|]. split; auto.
    exact (R_filter_intro s f u1 uf [] p HR1 G).
  - destruct PO as (HT1 & EX & HR1). exists (S F), OExpired, (IFilter s f u1), w1. split.
    { intros [|m] Hm; [lia|]. cbn [next]. rewrite EN by lia. reflexivity. }
    split; auto. split; auto. split; [cbn; congruence|]. split; auto. split; auto.
    apply R_filter_intro; auto.
Qed.

Lemma next_remove : forall d, (forall it, depth it = d -> next_spec it) ->
  forall h uf n ur u rms w, (length ur <= n)%nat -> depth u = d -> R u uf ur -> Forall (rm_ok h ur) rms ->
  exists F o it' w', (forall fuel, (F <= fuel)%nat -> next fuel (IRemove h rms u) w = (o, it', w')) /\
    next_post (IRemove h rms u) (filter (fun e => negb (removed_by h (map re_table rms) e)) uf)
      (filter (fun e => negb (removed_by h (map re_table rms) e)) ur) w o it' w'.
Proof.
  intros d IH h uf. induction n as [n IHn] using lt_wf_ind. intros ur u rms w HN HD HR HF.
  destruct (IH u HD uf ur w HR) as (F & o & u1 & w1 & EN & EV & HT & DP & PO).
  destruct o as [[k v]| | | | |]; try contradiction.
  - destruct PO as (ur' & -> & HR1).
    assert (SF : sorted uf) by (eapply R_sorted; eauto).
    assert (SX : suffix ((k, v) :: ur') uf) by (eapply R_suffix; exact HR).
    destruct (match_key_ok h k v ((k, v) :: ur') rms w1 HF) as (m & rms' & w2 & EM & FM & PM & VM & Em & NE).
    { intros y [<-|Hy]; [apply ble_refl|]. apply (sorted_head (k, v) ur' uf y); auto. }
    { left; reflexivity. }
    assert (FM' : Forall (rm_ok h ur') rms').
    { eapply Forall_impl; [|exact FM]. intros re Hre. eapply rm_ok_sub; [|exact Hre]. intros; right; auto. }
    assert (V2 : same_env w w2) by (eapply same_env_trans; eauto).
    destruct m.
    + cbn [length] in HN.
      destruct (IHn (length ur')) with (ur := ur') (u := u1) (w := w2) (rms := rms')
        as (F2 & o2 & it2 & w3 & E2 & VV & T2 & D2 & P2); auto; try lia; try congruence.
      exists (S (F + F2 + 2)), o2, it2, w3. split.
      { intros [|m] Hm; [lia|]. cbn [next]. rewrite EN by lia. rewrite EM by lia. apply E2. lia. }
      split; [eapply same_env_trans; eauto|]. split; [cbn [has_timeout] in *; congruence|].
      split; [cbn [depth] in *; congruence|]. cbn [filter]. rewrite <- Em. cbn [negb].
      rewrite <- !(filter_ext_perm h _ _ _ PM).
      destruct o2; auto. destruct P2 as (Pa & Pb & Pc). cbn [has_timeout] in *. split; [congruence|].
      split; auto. eapply expired_trans; eauto.
    + exists (S (F + 2)), (OOk (k, v)), (IRemove h rms' u1), w2. split.
      { intros [|m] Hm; [lia|]. cbn [next]. rewrite EN by lia. rewrite EM by lia. reflexivity. }
      split; auto. split; auto. split; [cbn; congruence|]. cbn [filter]. rewrite <- Em. cbn [negb].
      eexists. split; [reflexivity|]. rewrite <- !(filter_ext_perm h _ _ _ PM). apply R_remove_intro; auto.
  - destruct PO as [-> HR1]. exists (S F), OFail, (IRemove h rms u1), w1. split.
    { intros [|m] Hm; [lia|]. cbn [next]. rewrite EN by lia. reflexivity. }
    split; auto. split; auto. split; [cbn; congruence|]. split; auto.
    exact (R_remove_intro h rms u1 uf [] HR1 HF).
  - destruct PO as (HT1 & EX & HR1). exists (S F), OExpired, (IRemove h rms u1), w1. split.
    { intros [|m] Hm; [lia|]. cbn [next]. rewrite EN by lia. reflexivity. }
    split; auto. split; auto. split; [cbn; congruence|]. split; auto. split; auto.
    apply R_remove_intro; auto.
Qed.

Theorem next_R : forall it, next_spec it.
Proof.
  intros it0. remember (depth it0) as d eqn:Ed. symmetry in Ed. revert it0 Ed.
  induction d as [d IH] using lt_wf_ind. intros it Ed full rest w HR.
  assert (IHu : forall d', (d' < d)%nat -> forall u, depth u = d' -> next_spec u)
    by (intros d' Hd u Hu; exact (IH d' Hd u Hu)).
  destruct it as [b|s f u|u|h rms u|mf b cur fin u].
  - (* table *)
    cbn [R] in HR. destruct HR as (S & X & HW & HRst). subst full rest.
    destruct (b_rest b) as [|e r] eqn:EB.
    + exists 1%nat, OFail, (IBase b), w. split.
      * intros [|n] Hn; [lia|]. cbn [next]. unfold base_next. rewrite EB. reflexivity.
      * split; auto with env. split; auto. split; auto. split; auto. cbn [R]. rewrite EB in *. auto.
    + exists 1%nat. eexists (OOk e), _, w. split.
      * intros [|n] Hn; [lia|]. cbn [next]. unfold base_next. rewrite EB. reflexivity.
      * split; auto with env. split; auto. split; auto. exists r. split; auto. cbn [R b_win b_rest]. split; auto. split; auto.
        eapply suffix_cons; eauto.
  - cbn [R] in HR. destruct HR as (_ & _ & uf & ur & p & HR & G & -> & ->). cbn [depth] in Ed.
    apply (next_filter (depth u)) with (n := length ur); auto. apply IHu. lia.
  - cbn [R] in HR. destruct HR as (S & X & HR). cbn [depth] in Ed.
    destruct (ts_cmp (w_now w (w_tick w)) (w_deadline w)) eqn:EC.
    1, 3: eexists 1%nat, OExpired, (ITimeout u), (snd (gettime w)); split;
      [intros [|n] Hn; [lia|]; cbn [next gettime]; cbn [w_deadline]; rewrite EC; reflexivity|];
      (split; [repeat split; cbn; auto|]); split; auto; split; auto; split; auto; split;
      [exists (w_tick w); split; [cbn; lia|congruence]|cbn [R]; auto].
    destruct (IHu (depth u)) with (u := u) (full := full) (rest := rest) (w := snd (gettime w))
      as (F & o & u1 & w1 & EN & EV & HT & DP & PO); auto; [lia|].
    exists (Datatypes.S F), o, (ITimeout u1), w1. split.
    { intros [|n] Hn; [lia|]. cbn [next gettime]. cbn [w_deadline]. rewrite EC.
      cbn [gettime snd] in EN. rewrite EN by lia. reflexivity. }
    assert (V : same_env w (snd (gettime w))) by (repeat split; cbn; auto).
    split; [eapply same_env_trans; eauto|]. split; auto. split; [cbn; congruence|].
    destruct o; auto.
    + destruct PO as (r' & -> & HR1). exists r'. split; auto. cbn [R]. split; auto. split; auto. eapply suffix_cons; eauto.
    + destruct PO as [-> HR1]. split; auto. cbn [R]. auto.
    + destruct PO as (_ & EX & HR1). split; auto. split; [eapply expired_trans; eauto|]. cbn [R]. auto.
  - cbn [R] in HR. destruct HR as (_ & _ & uf & ur & HR & FR & -> & ->). cbn [depth] in Ed.
    apply (next_remove (depth u)) with (n := length ur); auto. apply IHu. lia.
  - cbn [R] in HR. destruct HR as (_ & _ & uf & ur & HR & SB & MG & SO & -> & ->). cbn [depth] in Ed.
    destruct (IHu (depth u)) with (u := u) (full := uf) (rest := ur) (w := w)
      as (F & o & u1 & w1 & EN & EV & HT & DP & PO); auto; [lia|].
    destruct o as [[k v]| | | | |]; try contradiction.
    + destruct PO as (ur' & -> & HR1).
      assert (SF : sorted uf) by (eapply R_sorted; eauto).
      assert (SX : suffix ((k, v) :: ur') uf) by (eapply R_suffix; exact HR).
      destruct (join_right_ok mf b cur fin ((k, v) :: ur') k v w1 SB) as (b' & c' & f' & w2 & EJ & BW & VJ & _ & SJ); auto.
      { intros y [<-|Hy]; [apply ble_refl|]. apply (sorted_head (k, v) ur' uf y); auto. }
      { left; reflexivity. }
      { intros rv Hrv. apply (MG k v rv); auto. eapply suffix_in; [exact SX|left; reflexivity]. }
      exists (S (F + 2)). eexists _, _, w2. split.
      { intros [|m] Hm; [lia|]. cbn [next]. rewrite EN by lia. rewrite EJ by lia. reflexivity. }
      split; [eapply same_env_trans; eauto|]. split; auto. split; [cbn; congruence|].
      eexists. split; [reflexivity|]. rewrite <- BW. apply R_ljoin_intro; auto; rewrite ?BW; auto.
      destruct f'; [eapply before_sub; [|exact SJ]|eapply side_sub; [|exact SJ]]; intros; right; auto.
    + destruct PO as [-> HR1]. exists (S F), OFail, (ILjoin mf b cur fin u1), w1. split.
      { intros [|m] Hm; [lia|]. cbn [next]. rewrite EN by lia. reflexivity. }
      split; auto. split; auto. split; [cbn; congruence|]. split; auto.
      exact (R_ljoin_intro mf b cur fin u1 uf [] HR1 SB MG SO).
    + destruct PO as (HT1 & EX & HR1). exists (S F), OExpired, (ILjoin mf b cur fin u1), w1. split.
      { intros [|m] Hm; [lia|]. cbn [next]. rewrite EN by lia. reflexivity. }
      split; auto. split; auto. split; [cbn; congruence|]. split; auto. split; auto.
      apply R_ljoin_intro; auto.
Qed.

(** * Opening *)

Fixpoint den (h : how) (s : source) (full : table) : Prop :=
  match s with
  | SBase t => sorted t /\ full = window h t
  | STimeout u => den h u full
  | SFilter _ f u => exists uf p, den h u uf /\ good_filter f p uf /\ full = filter p uf
  | SRemove rms u => exists uf, den h u uf /\ Forall strict rms /\
      full = filter (fun e => negb (removed_by h rms e)) uf
  | SLjoin mf r l => exists uf, den h l uf /\ strict r /\ mergeable mf (window h r) uf /\
      full = map (join_fn mf (window h r)) uf
  end.

Lemma open_R : forall h s full, den h s full -> R (open h s) full full.
Proof.
  intros h s. induction s as [t|st f u IH|u IH|rms u IH|mf r u IH]; intros full HD; cbn [den] in HD; cbn [open].
  - destruct HD as [S ->]. cbn [R base_open b_win b_rest]. split; [apply sorted_filter; auto|].
    split; [apply suffix_refl|auto].
  - destruct HD as (uf & p & HD & G & ->). apply R_filter_intro; auto.
  - cbn [R]. specialize (IH _ HD). split; [eapply R_sorted; eauto|]. split; [apply suffix_refl|auto].
  - destruct HD as (uf & HD & F & ->).
    set (res := map (fun t => {| re_table := t; re_it := None; re_key := []; re_finished := false |}) rms).
    assert (E : map re_table res = rms) by (unfold res; rewrite map_map; apply map_id).
    rewrite <- E. apply R_remove_intro; auto. unfold res. apply Forall_map.
    eapply Forall_impl; [|exact F]. intros t Ht. split; [exact Ht|reflexivity].
  - destruct HD as (uf & HD & S & M & ->).
    change (window h r) with (b_win (base_open h r)). apply R_ljoin_intro; auto.
    + cbn. apply strict_window; auto.
    + exists []. split; [reflexivity|intros ? ? []].
Qed.

(** * Runs *)

Lemma run_R : forall ops it full rest w, R it full rest -> has_timeout it = false ->
  eventually (fun fuel => run fuel it w ops = map answer (cursor full rest ops)).
Proof.
  induction ops as [|[|k] ops IH]; intros it full rest w HR HT.
  - exists O. reflexivity.
  - destruct (next_R it full rest w HR) as (F & o & it1 & w1 & EN & EV & HT1 & DP & PO).
    destruct o as [e| | | | |]; try contradiction.
    + destruct PO as (r' & -> & HR1). destruct (IH it1 full r' w1 HR1) as (F2 & E2); [congruence|].
      exists (F + F2)%nat. intros fuel Hf. cbn [run cursor map answer]. rewrite EN by lia. rewrite E2 by lia. reflexivity.
    + destruct PO as [-> HR1]. destruct (IH it1 full [] w1 HR1) as (F2 & E2); [congruence|].
      exists (F + F2)%nat. intros fuel Hf. cbn [run cursor map answer]. rewrite EN by lia. rewrite E2 by lia. reflexivity.
    + destruct PO as [C _]. congruence.
  - destruct (seek k it w) as [[ok it1] w1] eqn:ES.
    destruct (seek_R _ _ _ _ _ _ _ _ HR ES) as (HR1 & _ & _ & HT1).
    destruct (IH it1 full (from k full) w1 HR1) as (F2 & E2); [congruence|].
    exists F2. intros fuel Hf. cbn [run cursor]. rewrite ES. apply E2. lia.
Qed.

Lemma den_behaves : forall h s full, den h s full -> has_timeout (open h s) = false -> behaves_as (open h s) full.
Proof. intros h s full HD HT w ops. apply run_R; auto. apply open_R; auto. Qed.
