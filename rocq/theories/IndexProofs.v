(** Queries driven by an index. *)
From Coq Require Import Permutation.
From Verif Require Import Base BaseFacts ModelVarint VarintProofs SpecMerge MergeProofs SpecUnion ModelUnion UnionProofs UnionMerge PropsUnion ModelWdns SpecName NameFacts.
From Verif Require Import ModelEntry SpecEntry EntryProofs PropsEntry ModelIter SpecIter IterProofs ModelQuery SpecQuery KeyProofs FilterProofs QueryProofs SelectProofs.

(** ** Splitting a list into groups *)

Lemma partition_perm : forall A B (G : B -> A -> bool) (P : A -> bool) (idx : list B) (l : list A),
  (forall a, In a l -> P a = true -> exists i1 x i2, idx = i1 ++ x :: i2 /\ G x a = true /\
     (forall y, In y i1 -> G y a = false) /\ (forall y, In y i2 -> G y a = false)) ->
  (forall a, In a l -> P a = false -> forall x, In x idx -> G x a = false) ->
  Permutation (concat (map (fun x => filter (G x) l) idx)) (filter P l).
Proof.
  intros A B G P idx l. induction l as [|a l IH]; intros H1 H2.
  - cbn [filter]. replace (concat (map (fun _ : B => []) idx)) with (@nil A); [constructor|].
    clear. induction idx; cbn; auto.
  - assert (HF : forall i, (forall y, In y i -> G y a = false) ->
      map (fun x => filter (G x) (a :: l)) i = map (fun x => filter (G x) l) i).
    { intros i Hi. apply map_ext_in. intros y Hy. cbn [filter]. rewrite (Hi y Hy). reflexivity. }
    assert (IH' : Permutation (concat (map (fun x => filter (G x) l) idx)) (filter P l)).
    { apply IH; intros; [apply H1|apply H2]; auto; right; auto. }
    change (filter P (a :: l)) with (if P a then a :: filter P l else filter P l).
    destruct (P a) eqn:EP.
    + destruct (H1 a (or_introl eq_refl) EP) as (i1 & x & i2 & -> & HG & Ha & Hb).
      rewrite map_app, concat_app in *. cbn [map concat] in *. rewrite (HF i1 Ha), (HF i2 Hb).
      change (filter (G x) (a :: l)) with (if G x a then a :: filter (G x) l else filter (G x) l). rewrite HG. cbn [app].
      rewrite <- Permutation_middle. constructor. exact IH'.
    + rewrite HF; [exact IH'|]. apply (H2 a); [left; reflexivity|exact EP].
Qed.

(** ** Selection with explicit pairing *)

Definition sel (P : kv -> bool) (recs : list record) (t : table) : list record :=
  map fst (filter (fun x => P (snd x)) (combine recs t)).

Lemma sel_ok : forall P M recs t, Forall2 encodes recs t ->
  (forall r e, In r recs -> In e t -> encodes r e -> (P e = true <-> M r)) ->
  selects M recs (sel P recs t) /\ Forall2 encodes (sel P recs t) (filter P t).
Proof.
  intros P M recs t H. induction H as [|r e recs t H HF IH]; intro HM.
  - split; constructor.
  - destruct IH as (S & F); [intros; apply HM; auto; right; auto|].
    specialize (HM r e (or_introl eq_refl) (or_introl eq_refl) H). unfold sel in *. cbn [combine filter snd]. destruct (P e); cbn [map fst].
    + split; [apply sel_yes; [tauto|auto]|constructor; auto].
    + split; [apply sel_no; [|auto]|auto]. intro C. apply HM in C. discriminate.
Qed.

Lemma in_combine_encodes : forall recs t r e, Forall2 encodes recs t -> In (r, e) (combine recs t) -> In r recs /\ In e t /\ encodes r e.
Proof.
  intros recs t r e H. induction H as [|r' e' recs t H HF IH]; intros Hin; [destruct Hin|]. cbn [combine] in Hin.
  destruct Hin as [E|Hin].
  - inversion E; subst. split; [left; auto|]. split; [left; auto|exact H].
  - destruct (IH Hin) as (A & B & C). split; [right; auto|]. split; [right; auto|exact C].
Qed.

Lemma Forall2_map_r : forall A B (R : A -> B -> Prop) (f : A -> B) l, (forall x, In x l -> R x (f x)) -> Forall2 R l (map f l).
Proof.
  intros A B R f l H. induction l as [|a l IH]; cbn [map]; constructor; [apply H; left; auto|]. apply IH. intros; apply H; right; auto.
Qed.

Lemma Forall2_concat : forall A B (R : A -> B -> Prop) ls ms, Forall2 (Forall2 R) ls ms -> Forall2 R (concat ls) (concat ms).
Proof. intros A B R ls ms H. induction H; cbn [concat]; [constructor|]. apply Forall2_app; auto. Qed.

(** ** A query driven by an index, as a whole *)

Definition group_plan (q : query) (t : table) (tb : N) (src : source) (x : kv) (Gx : kv -> bool) : Prop :=
  (index_lookup_key q tb (fst x) (snd x) = Ok None /\ filter Gx t = []) \/
  (exists fk P, index_lookup_key q tb (fst x) (snd x) = Ok (Some fk) /\ picks (HPrefix fk) src P t /\
     (forall e, In e t -> P e = true -> timed_entry e) /\ forall e, In e t -> Gx e = P e && timep q e).

Lemma group_looked : forall q t tb src x Gx, group_plan q t tb src x Gx -> looked q tb (stack0 q src) x (filter Gx t).
Proof.
  intros q t tb src x Gx [[E ->]|(fk & P & E & HP & HT & EG)]; [left; auto|]. right. exists fk. split; [exact E|].
  rewrite (filter_ext_in _ _ _ EG). apply picks_stack; auto.
Qed.

(** What makes a query a walk over an index: the index entries, from [ti], and the
    lookup in [t] for each. *)
Definition indirect_parts (q : query) (t ti : table) (recs recsi : list record) (I : record -> Prop)
  (belongs : record -> record -> Prop) (M : record -> Prop) src tb K idxsrc Pidx (G : kv -> kv -> bool) : Prop :=
  query_init q (if is_timed q then STimeout (SBase t) else SBase t) (if is_timed q then STimeout (SBase ti) else SBase ti) =
    Ok {| p_key := K; p_key2 := None; p_source := src; p_index := Some (tb, open (HPrefix K) idxsrc) |} /\
  src_timeout src = is_timed q /\ src_timeout idxsrc = is_timed q /\
  picks (HPrefix K) idxsrc Pidx ti /\
  (forall h x, In h recsi -> encodes h x -> (Pidx x = true <-> I h)) /\
  (forall h x, In h recsi -> In x ti -> encodes h x -> I h -> group_plan q t tb src x (G x)) /\
  (forall h x r e, In h recsi -> encodes h x -> I h -> In r recs -> encodes r e -> (G x e = true <-> belongs h r /\ M r)) /\
  (forall r, In r recs -> M r -> shown r /\ exists h, In h recsi /\ I h /\ belongs h r) /\
  (forall h h' r x x', I h -> I h' -> belongs h r -> belongs h' r -> encodes h x -> encodes h' x' -> fst x = fst x').
Definition indirect_plan (q : query) (t ti : table) (recs recsi : list record) (I : record -> Prop)
  (belongs : record -> record -> Prop) (M : record -> Prop) : Prop :=
  exists src tb K idxsrc Pidx G, indirect_parts q t ti recs recsi I belongs M src tb K idxsrc Pidx G.

Lemma indirect_planned : forall q t ti recs recsi (I : record -> Prop) (belongs : record -> record -> Prop) (M : record -> Prop)
  src tb K idxsrc Pidx (G : kv -> kv -> bool),
  query_init q (if is_timed q then STimeout (SBase t) else SBase t) (if is_timed q then STimeout (SBase ti) else SBase ti) =
    Ok {| p_key := K; p_key2 := None; p_source := src; p_index := Some (tb, open (HPrefix K) idxsrc) |} ->
  src_timeout src = is_timed q -> src_timeout idxsrc = is_timed q ->
  picks (HPrefix K) idxsrc Pidx ti ->
  (forall h x, In h recsi -> encodes h x -> (Pidx x = true <-> I h)) ->
  (forall h x, In h recsi -> In x ti -> encodes h x -> I h -> group_plan q t tb src x (G x)) ->
  (forall h x r e, In h recsi -> encodes h x -> I h -> In r recs -> encodes r e -> (G x e = true <-> belongs h r /\ M r)) ->
  (forall r, In r recs -> M r -> shown r /\ exists h, In h recsi /\ I h /\ belongs h r) ->
  (forall h h' r x x', I h -> I h' -> belongs h r -> belongs h' r -> encodes h x -> encodes h' x' -> fst x = fst x') ->
  indirect_plan q t ti recs recsi I belongs M.
Proof. intros q t ti recs recsi I B M src tb K idxsrc Pidx G H1 H2 H3 H4 H5 H6 H7 H8 H9. exists src, tb, K, idxsrc, Pidx, G. unfold indirect_parts. auto 12. Qed.

(** The stored entries such a walk goes through, and what they are. *)
Definition walked (t ti : table) (Pidx : kv -> bool) (G : kv -> kv -> bool) : list table :=
  map (fun x => filter (G x) t) (filter Pidx ti).

Lemma indirect_walked : forall q t ti recs recsi I belongs M src tb K idxsrc Pidx G,
  Forall2 encodes recs t -> Forall2 encodes recsi ti -> strict ti ->
  indirect_parts q t ti recs recsi I belongs M src tb K idxsrc Pidx G ->
  exists heads outs es all,
    selects I recsi heads /\
    Forall2 (fun h out => selects (fun r => belongs h r /\ M r) recs out) heads outs /\
    selects M recs all /\ Permutation (concat outs) all /\
    Forall2 shows (concat outs) es /\ Forall2 encodes heads (filter Pidx ti) /\
    Forall2 (Forall2 encodes) outs (walked t ti Pidx G) /\
    decodes (concat (walked t ti Pidx G)) es.
Proof.
  intros q t ti recs recsi I belongs M src tb K idxsrc Pidx G HF HFi HSt (HI & HT & HTi & HP & HPI & HLp & HG & HC & HU).
  set (idx := filter Pidx ti).
  set (P := fun e => existsb (fun x => G x e) idx).
  assert (HX : forall x, In x idx -> exists h, In h recsi /\ encodes h x /\ I h /\ In x ti).
  { intros x Hx. apply filter_In in Hx. destruct Hx as [Hx Px]. destruct (in_encodes _ _ _ HFi Hx) as (h & Hh & He).
    exists h. split; [exact Hh|]. split; [exact He|]. split; [apply (HPI h x); auto|exact Hx]. }
  assert (HPM : forall r e, In r recs -> In e t -> encodes r e -> (P e = true <-> M r)).
  { intros r e Hr Ht He. unfold P. rewrite existsb_exists. split.
    - intros (x & Hx & Gx). destruct (HX x Hx) as (h & Hh & Ehx & Ih & _). apply (HG h x r e) in Gx; tauto.
    - intro Mr. destruct (HC r Hr Mr) as (_ & h & Hh & Ih & Bh). destruct (encodes_in _ _ _ HFi Hh) as (x & Hx & Ehx).
      exists x. split; [apply filter_In; split; [exact Hx|]; apply (HPI h x); auto|]. apply (HG h x r e); auto. }
  destruct (sel_ok Pidx I recsi ti HFi) as (SI & FI); [intros; apply HPI; auto|].
  destruct (sel_ok P M recs t HF HPM) as (SM & FM).
  set (outs := map (fun x => sel (G x) recs t) idx).
  assert (HO : Forall2 (Forall2 encodes) outs (map (fun x => filter (G x) t) idx)).
  { unfold outs. assert (A : forall i, (forall x, In x i -> In x idx) ->
      Forall2 (Forall2 encodes) (map (fun x => sel (G x) recs t) i) (map (fun x => filter (G x) t) i)).
    { induction i as [|x i IHi]; intro Hi; cbn [map]; constructor; [|apply IHi; intros; apply Hi; right; auto].
      destruct (HX x (Hi x (or_introl eq_refl))) as (h & Hh & Ehx & Ih & _).
      apply (sel_ok (G x) (fun r => belongs h r /\ M r) recs t HF). intros r e Hr _ He. apply HG; auto. }
    apply A. auto. }
  pose proof (Forall2_concat _ _ _ _ _ HO) as HOc.
  assert (HPerm : Permutation (concat outs) (sel P recs t)).
  { unfold outs, sel. 
    replace (concat (map (fun x => map fst (filter (fun y : record * kv => G x (snd y)) (combine recs t))) idx))
      with (map fst (concat (map (fun x => filter (fun y : record * kv => G x (snd y)) (combine recs t)) idx))).
    2:{ rewrite concat_map, map_map. reflexivity. }
    apply Permutation_map.
    apply (partition_perm _ _ (fun x (y : record * kv) => G x (snd y)) (fun y : record * kv => P (snd y))).
    - intros [r e] Hin Pe. cbn [snd] in *. destruct (in_combine_encodes _ _ _ _ HF Hin) as (Hr & He & Ere).
      unfold P in Pe. apply existsb_exists in Pe. destruct Pe as (x & Hx & Gx).
      apply in_split in Hx as Hx'. destruct Hx' as (i1 & i2 & Ei). exists i1, x, i2. split; [exact Ei|]. split; [exact Gx|].
      destruct (HX x Hx) as (h & Hh & Ehx & Ih & _). destruct (proj1 (HG h x r e Hh Ehx Ih Hr Ere) Gx) as [Bh _].
      assert (SI2 : strict idx) by (apply strict_filter; exact HSt).
      assert (Kx : forall y, In y idx -> G y e = true -> fst y = fst x).
      { intros y Hy Gy. destruct (HX y Hy) as (h' & Hh' & Ehy & Ih' & _).
        destruct (proj1 (HG h' y r e Hh' Ehy Ih' Hr Ere) Gy) as [Bh' _]. apply (HU h' h r y x); auto. }
      rewrite Ei in SI2. pose proof SI2 as SI3. apply strict_app_inv in SI2. destruct SI2 as (_ & SB & SAB).
      split; intros y Hy; (destruct (G y e) eqn:Gy; [exfalso|reflexivity]).
      + assert (E : fst y = fst x) by (apply Kx; auto; rewrite Ei; apply in_or_app; auto).
        specialize (SAB y x Hy (or_introl eq_refl)). rewrite E, blt_irrefl in SAB. discriminate.
      + assert (E : fst y = fst x) by (apply Kx; auto; rewrite Ei; apply in_or_app; right; right; auto).
        inversion SB as [|? ? _ FB]; subst. rewrite Forall_forall in FB. specialize (FB y Hy). rewrite E, blt_irrefl in FB. discriminate.
    - intros [r e] Hin Pe x Hx. cbn [snd] in *. unfold P in Pe. destruct (G x e) eqn:Gx; [|reflexivity].
      assert (existsb (fun x => G x e) idx = true) by (apply existsb_exists; exists x; auto). congruence. }
  assert (HSh : Forall shown (concat outs)).
  { apply Forall_forall. intros r Hr. apply (Permutation_in _ HPerm) in Hr.
    destruct (selects_in _ _ _ _ SM r Hr) as [Hin Mr]. apply HC; auto. }
  destruct (decode_all _ _ HOc HSh) as (es & HD & HSw).
  exists (sel Pidx recsi ti), outs, es, (sel P recs t). split; [exact SI|]. split.
  { unfold outs. pose proof (selects_in _ _ _ _ SI) as HH. clear - HG HF FI HH. fold idx in FI.
    revert FI HH. generalize (sel Pidx recsi ti) as heads. generalize idx as i. clear idx.
    induction i as [|x i IH]; intros heads FI HH; inversion FI as [|h ? hs ? Ehx FI']; subst; cbn [map]; constructor.
    - destruct (HH h (or_introl eq_refl)) as [Hh Ih].
      apply (sel_ok (G x) (fun r => belongs h r /\ M r) recs t HF). intros r e Hr _ He. apply HG; auto.
    - apply IH; auto. intros y Hy; apply HH; right; auto. }
  split; [exact SM|]. split; [exact HPerm|]. split; [exact HSw|]. split; [exact FI|]. split; [exact HO|exact HD].
Qed.

Lemma indirect_returns : forall q t recs I belongs M, database recs t -> strict t ->
  indirect_plan q t t recs recs I belongs M -> returns_grouped q t recs I belongs M.
Proof.
  intros q t recs I belongs M [HF HS] HSt (src & tb & K & idxsrc & Pidx & G & HPt).
  destruct (indirect_walked _ _ _ _ _ _ _ _ _ _ _ _ _ _ HF HF HSt HPt) as (heads & outs & es & all & H1 & H2 & H3 & H4 & H5 & _ & _ & HD).
  exists heads, outs, es, all. do 5 (split; [assumption|]).
  destruct HPt as (HI & HT & HTi & HP & HPI & HLp & HG & HC & HU).
  unfold dnstable_query_iter, query_iter_common. rewrite HI. cbn [bind p_key p_key2 p_source p_index]. rewrite stack_no_fence.
  eapply (indirect_lists q (stack0 q src) tb _ (filter Pidx t) (walked t t Pidx G) es); try reflexivity.
  - apply open_R. exact HP.
  - rewrite has_timeout_open, HTi. auto.
  - rewrite stack0_timeout, HT. auto.
  - apply Forall2_map_r. intros x Hx. apply filter_In in Hx. destruct Hx as [Hx Px]. destruct (in_encodes _ _ _ HF Hx) as (h & Hh & He).
    apply group_looked. apply (HLp h x); auto. apply (HPI h x); auto.
  - exact HD.
Qed.
