(** Merging part of the files of a set first: proofs. *)
From Coq Require Import Permutation.
From Verif Require Import Base BaseFacts ModelVarint VarintProofs ModelMerge SpecMerge MergeProofs PropsMerge ModelWdns SpecName NameFacts.
From Verif Require Import ModelEntry SpecEntry EntryProofs PropsEntry ModelUnion SpecUnion ModelIter SpecIter IterProofs PropsIter.
From Verif Require Import UnionProofs UnionBuild UnionMerge PropsUnion.
From Verif Require Import ModelQuery SpecQuery KeyProofs FilterProofs QueryProofs SelectProofs RRsetQueries IndexProofs RightWildcard RdataQueries IpProofs IpQueries Demo PropsQuery.
From Verif Require Import ModelReader ModelSetters ModelFileset SpecFileset FilesetProofs FilesetQueries FilesetDirect FilesetGrouped FilesetUnmerged SpecAggregate SpecCompaction.

(** ** Records and their stored form determine each other *)

Lemma rdata_array_det : forall rs a b, rdata_array rs a -> rdata_array rs b -> a = b.
Proof.
  intros rs a b H. revert b. induction H as [|r rs len l B L H IH]; intros b H'; inversion H' as [|? ? len' l' B' L' H2]; subst; [reflexivity|].
  rewrite (leb128_det _ _ _ L L'), (IH _ H2). reflexivity.
Qed.

Lemma encodes_det : forall r e e', shown r -> encodes r e -> encodes r e' -> e = e'.
Proof.
  intros r [k v] [k' v'] HS (_ & H) (_ & H'). destruct r as [ow ty bw rs o|ow ty hd0 tl o| | |]; try contradiction; cbn [fst snd] in *.
  - destruct H as (_ & _ & _ & Ho & (t & rd & Lt & Ra & ->) & V), H' as (_ & _ & _ & _ & (t' & rd' & Lt' & Ra' & ->) & V').
    rewrite (leb128_det _ _ _ Lt Lt'), (rdata_array_det _ _ _ Ra Ra'). apply (obs_value_pack _ _ Ho) in V, V'. congruence.
  - destruct H as (_ & _ & Ho & _ & (t & Lt & ->) & V), H' as (_ & _ & _ & _ & (t' & Lt' & ->) & V').
    rewrite (leb128_det _ _ _ Lt Lt'). apply (obs_value_pack _ _ Ho) in V, V'. congruence.
Qed.

Lemma record_det : forall r r' e, shown r -> encodes r e -> encodes r' e -> r = r'.
Proof.
  intros r r' [k v] HS H H'. pose proof (key_fields r r' k v v H H') as HF.
  destruct r as [ow ty bw rs o|ow ty hd0 tl o| | |]; try contradiction; destruct r' as [ow' ty' bw' rs' o'|ow' ty' hd' tl' o'| | |]; try contradiction.
  - destruct HF as (-> & -> & -> & ->). destruct H as (_ & _ & _ & _ & A & _ & B), H' as (_ & _ & _ & _ & A' & _ & B').
    rewrite (seen_fun v o o' (conj A B) (conj A' B')). reflexivity.
  - destruct HF as (-> & -> & -> & ->). destruct H as (_ & _ & _ & A & _ & _ & B), H' as (_ & _ & _ & A' & _ & _ & B').
    rewrite (seen_fun v o o' (conj A B) (conj A' B')). reflexivity.
Qed.

Lemma shows_det : forall out es es', Forall shown out -> Forall2 shows out es -> Forall2 shows out es' -> es = es'.
Proof.
  intros out es es' HS H. revert es' HS. induction H as [|r e out es (R & kv & E & D) H IH]; intros es' HS H'; inversion H' as [|? e' ? es2 (R' & kv' & E' & D') H2]; subst; [reflexivity|].
  inversion HS as [|? ? S1 S2]; subst. rewrite (encodes_det _ _ _ S1 E E') in D. rewrite (IH _ S2 H2). congruence.
Qed.

(** ** Tables with the same keys and the same records *)

Definition alike (a b : kv) : Prop := fst a = fst b /\ (timed_key (fst a) -> snd a = snd b).

Lemma same_keys : forall t t', strict t -> strict t' -> (forall k, has_key k t <-> has_key k t') -> map fst t = map fst t'.
Proof.
  intros t. induction t as [|[k v] t IH]; intros t' S S' H.
  - destruct t' as [|[k' v'] t']; [reflexivity|]. destruct (proj2 (H k')) as (x & []). exists v'. left. reflexivity.
  - destruct t' as [|[k' v'] t']; [destruct (proj1 (H k)) as (x & []); exists v; left; reflexivity|].
    inversion S as [|? ? S1 F1]; subst. inversion S' as [|? ? S2 F2]; subst. rewrite Forall_forall in F1, F2. cbn [fst] in F1, F2.
    assert (E : k = k').
    { destruct (proj1 (H k)) as (x & Hx); [exists v; left; reflexivity|]. destruct Hx as [Hx|Hx]; [congruence|].
      destruct (proj2 (H k')) as (y & Hy); [exists v'; left; reflexivity|]. destruct Hy as [Hy|Hy]; [congruence|].
      pose proof (F1 _ Hy) as A. pose proof (F2 _ Hx) as B. cbn [fst] in A, B. pose proof (blt_trans _ _ _ A B) as C. rewrite blt_irrefl in C. discriminate. }
    subst k'. cbn [map fst]. f_equal. apply IH; auto. intro k0. split; intros (x & Hx).
    + destruct (proj1 (H k0)) as (y & Hy); [exists x; right; exact Hx|]. destruct Hy as [Hy|Hy]; [|exists y; exact Hy].
      injection Hy as -> ->. pose proof (F1 _ Hx) as A. cbn [fst] in A. rewrite blt_irrefl in A. discriminate.
    + destruct (proj2 (H k0)) as (y & Hy); [exists x; right; exact Hx|]. destruct Hy as [Hy|Hy]; [|exists y; exact Hy].
      injection Hy as -> ->. pose proof (F2 _ Hx) as A. cbn [fst] in A. rewrite blt_irrefl in A. discriminate.
Qed.

Lemma alike_tables : forall t t', map fst t = map fst t' ->
  (forall k v v', In (k, v) t -> In (k, v') t' -> timed_key k -> v = v') -> Forall2 alike t t'.
Proof.
  intros t. induction t as [|[k v] t IH]; intros [|[k' v'] t'] E H; cbn [map fst] in E; try discriminate; constructor.
  - injection E as -> E. split; [reflexivity|]. cbn [fst snd]. intro Hk. apply (H k' v v'); [left; reflexivity|left; reflexivity|exact Hk].
  - injection E as _ E. apply IH; [exact E|]. intros. eapply H; [right; eassumption|right; eassumption|assumption].
Qed.

(** The records of such tables: the same, but for values of index and other entries. *)
Definition nearly (r r' : record) : Prop := same_fields r r' /\ (shown r -> r = r').

Lemma nearly_records : forall t t' recs recs', Forall2 alike t t' -> Forall2 encodes recs t -> Forall2 encodes recs' t' -> Forall2 nearly recs recs'.
Proof.
  intros t t' recs recs' H. revert recs recs'. induction H as [|[k v] [k' v'] t t' (EK & EV) H IH]; intros recs recs' E E'.
  - inversion E; inversion E'; subst. constructor.
  - inversion E as [|r ? recs1 ? A B]; subst. inversion E' as [|r' ? recs1' ? A' B']; subst. cbn [fst snd] in *. subst k'. constructor; [|apply IH; assumption].
    split; [exact (key_fields r r' k v v' A A')|]. intro HS. assert (v = v') by (apply EV; apply (timed_record r k v A); exact HS). subst v'.
    exact (record_det r r' _ HS A A').
Qed.

Lemma nearly_selects : forall (M : record -> Prop) recs recs' out out', (forall r, M r -> shown r) -> Forall2 nearly recs recs' ->
  selects M recs out -> selects M recs' out' -> out = out'.
Proof.
  intros M recs recs' out out' HM H. revert out out'. induction H as [|r r' recs recs' (HS & HE) H IH]; intros out out' S S'.
  - inversion S; inversion S'; reflexivity.
  - assert (X : M r -> r = r') by (intro; auto). assert (Y : M r' -> r = r').
    { intro Mr. apply HE. pose proof (HM r' Mr) as Sh. destruct r, r'; cbn in *; tauto. }
    inversion S as [|? ? ? P S1|? ? ? P S1]; subst; inversion S' as [|? ? ? P' S1'|? ? ? P' S1']; subst.
    + rewrite (X P), (IH _ _ S1 S1'). reflexivity.
    + rewrite (X P) in P. contradiction.
    + rewrite (Y P') in P. contradiction.
    + exact (IH _ _ S1 S1').
Qed.

Lemma nearly_heads : forall (I : record -> Prop) recs recs' heads heads', (forall h h', same_fields h h' -> I h -> I h') -> Forall2 nearly recs recs' ->
  selects I recs heads -> selects I recs' heads' -> Forall2 same_fields heads heads'.
Proof.
  intros I recs recs' heads heads' HI H. revert heads heads'. induction H as [|r r' recs recs' (HS & HE) H IH]; intros out out' S S'.
  - inversion S; inversion S'; constructor.
  - inversion S as [|? ? ? P S1|? ? ? P S1]; subst; inversion S' as [|? ? ? P' S1'|? ? ? P' S1']; subst.
    + constructor; auto.
    + destruct (P' (HI _ _ HS P)).
    + destruct (P (HI _ _ (same_sym _ _ HS) P')).
    + exact (IH _ _ S1 S1').
Qed.

Lemma same_refl : forall r, same_fields r r.
Proof. intros []; cbn; auto. Qed.

Lemma nearly_groups : forall (B : record -> record -> Prop) (M : record -> Prop) recs recs' heads heads' outs outs', (forall r, M r -> shown r) ->
  (forall h h' r r', same_fields h h' -> same_fields r r' -> B h r -> B h' r') -> Forall2 nearly recs recs' -> Forall2 same_fields heads heads' ->
  Forall2 (fun h out => selects (fun r => B h r /\ M r) recs out) heads outs ->
  Forall2 (fun h out => selects (fun r => B h r /\ M r) recs' out) heads' outs' -> outs = outs'.
Proof.
  intros B M recs recs' heads heads' outs outs' HM HB HN HH. revert outs outs'.
  induction HH as [|h h' heads heads' HS HH IH]; intros outs outs' G G'; inversion G as [|? o ? os G1 G2]; inversion G' as [|? o' ? os' G1' G2']; subst; [reflexivity|].
  rewrite (IH _ _ G2 G2'). f_equal. apply (nearly_selects (fun r => B h r /\ M r) recs recs'); [intros r (_ & X); auto|exact HN|exact G1|].
  clear -G1' HB HS. induction G1' as [|a l m P S IHs|a l m P S IHs]; [constructor| |].
  - apply sel_yes; [|exact IHs]. destruct P as [P1 P2]. split; [|exact P2]. apply (HB h' h a a); [apply same_sym; exact HS|apply same_refl|exact P1].
  - apply sel_no; [|exact IHs]. intros [P1 P2]. apply P. split; [|exact P2]. apply (HB h h' a a); [exact HS|apply same_refl|exact P1].
Qed.

(** ** Merging in two steps *)

Lemma nsum_app : forall a b, nsum (a ++ b) = nsum a + nsum b.
Proof. intros a b. induction a as [|x a IH]; cbn [app nsum fold_right]; [reflexivity|]. change (fold_right N.add 0 (a ++ b)) with (nsum (a ++ b)). change (fold_right N.add 0 a) with (nsum a). lia. Qed.
Lemma nsum_perm : forall a b, Permutation a b -> nsum a = nsum b.
Proof. intros a b H. induction H as [|x a b H IH|x y a|a b c H1 IH1 H2 IH2]; cbn [nsum fold_right]; try (unfold nsum in *; lia); congruence. Qed.

Lemma is_min_fun : forall a b l, is_min a l -> is_min b l -> a = b.
Proof. intros a b l (A & B) (C & D). specialize (B b C). specialize (D a A). lia. Qed.
Lemma is_max_fun : forall a b l, is_max a l -> is_max b l -> a = b.
Proof. intros a b l (A & B) (C & D). specialize (B b C). specialize (D a A). lia. Qed.

Lemma total_fun : forall os o o', total os o -> total os o' -> o = o'.
Proof.
  intros os [f l c] [f' l' c'] (A & B & C) (A' & B' & C'). cbn [o_first o_last o_count] in *. rewrite (is_min_fun _ _ _ A A'), (is_max_fun _ _ _ B B'). congruence.
Qed.

Lemma total_perm : forall os os' o, Permutation os os' -> total os o -> total os' o.
Proof.
  intros os os' o P ((A & A') & (B & B') & C).
  pose proof (Permutation_map o_first P) as P1. pose proof (Permutation_map o_last P) as P2. pose proof (Permutation_map o_count P) as P3.
  split; [|split].
  - split; [exact (Permutation_in _ P1 A)|]. intros x Hx. apply A'. exact (Permutation_in _ (Permutation_sym P1) Hx).
  - split; [exact (Permutation_in _ P2 B)|]. intros x Hx. apply B'. exact (Permutation_in _ (Permutation_sym P2) Hx).
  - rewrite C, (nsum_perm _ _ P3). reflexivity.
Qed.

Lemma total_app : forall a b o o', total a o -> total (o :: b) o' -> total (a ++ b) o'.
Proof.
  intros a b o o' ((A & A') & (B & B') & C) ((D & D') & (E & E') & F). cbn [map] in *. unfold total. rewrite !map_app. split; [|split].
  - split.
    + apply in_or_app. destruct D as [<-|D]; [left; exact A|right; exact D].
    + intros x Hx. apply in_app_or in Hx. destruct Hx as [Hx|Hx]; [|apply D'; right; exact Hx].
      specialize (D' (o_first o) (or_introl eq_refl)). specialize (A' x Hx). lia.
  - split.
    + apply in_or_app. destruct E as [<-|E]; [left; exact B|right; exact E].
    + intros x Hx. apply in_app_or in Hx. destruct Hx as [Hx|Hx]; [|apply E'; right; exact Hx].
      specialize (E' (o_last o) (or_introl eq_refl)). specialize (B' x Hx). lia.
  - rewrite F, nsum_app. cbn [nsum fold_right]. change (fold_right N.add 0 (map o_count b)) with (nsum (map o_count b)). rewrite C.
    apply N.add_mod_idemp_l. discriminate.
Qed.

(** The value of a key in merged files stands for the total of the values. *)
Lemma merged_total : forall files t k v os, timed_key k -> merged_from files t -> In (k, v) t ->
  Forall2 seen_as (values_of k files) os -> exists o, seen_as v o /\ total os o.
Proof.
  intros files t k v os (b & rest & -> & Hb) (_ & _ & HV) Hin HS. destruct (HV _ _ Hin) as (tr & HP & HE).
  destruct (Permutation_Forall2 (Permutation_sym HP) HS) as (os' & HP' & HS').
  assert (H1 : Forall obs_ok os') by (clear -HS'; induction HS' as [|? ? ? ? (A & _)]; constructor; auto).
  assert (H2 : Forall2 (fun v o => obs_value o v) (mleaves tr) os') by (clear -HS'; induction HS' as [|? ? ? ? (_ & A)]; constructor; auto).
  destruct (merge_any_grouping b rest tr os' Hb H1 H2) as (f & l & v' & E & Mi & Ma & Vo). rewrite HE in E. injection E as <-.
  exists {| o_first := f; o_last := l; o_count := nsum (map o_count os') mod u64 |}. split.
  - split; [|exact Vo]. destruct Mi as [Mi _], Ma as [Ma _]. apply in_map_iff in Mi, Ma. destruct Mi as (x & <- & Hx), Ma as (y & <- & Hy).
    rewrite Forall_forall in H1. destruct (H1 x Hx) as (X & _). destruct (H1 y Hy) as (_ & Y & _). repeat split; cbn; auto. apply N.mod_lt. discriminate.
  - apply (total_perm os' os); [apply Permutation_sym; exact HP'|]. split; [exact Mi|]. split; [exact Ma|reflexivity].
Qed.

Lemma seen_all : forall k files, observed k files -> exists os, Forall2 seen_as (values_of k files) os.
Proof.
  intros k files H. apply observed_values in H. induction H as [|v l (o & Ho) H (os & IH)]; [exists []; constructor|]. exists (o :: os). constructor; assumption.
Qed.

Lemma seen_total : forall v v' o os, seen_as v o -> total os o -> forall o', seen_as v' o' -> total os o' -> v = v'.
Proof.
  intros v v' o os (A & B) T o' (A' & B') T'. rewrite (total_fun os o o' T T') in *. apply (obs_value_pack _ _ A') in B, B'. congruence.
Qed.

(** Values of a key in one file with strictly ascending keys. *)
Lemma value_of_one : forall t k v, strict t -> In (k, v) t -> values_of k [t] = [v].
Proof.
  intros t k v S Hin. unfold values_of. cbn [concat]. rewrite app_nil_r. induction S as [|[k' v'] t S IH F]; [destruct Hin|]. cbn [filter fst].
  rewrite Forall_forall in F. destruct Hin as [E|Hin].
  - injection E as -> ->. rewrite (proj2 (beq_true k k) eq_refl). cbn [map snd]. f_equal. rewrite filter_nil; [reflexivity|].
    intros [k1 v1] H1. cbn [fst]. destruct (beq k1 k) eqn:EB; [|reflexivity]. apply beq_true in EB. subst k1. pose proof (F _ H1) as A. cbn [fst] in A. rewrite blt_irrefl in A. discriminate.
  - destruct (beq k' k) eqn:EB; [|apply IH; exact Hin]. apply beq_true in EB. subst k'. pose proof (F _ Hin) as A. cbn [fst] in A. rewrite blt_irrefl in A. discriminate.
Qed.

Lemma perm_in_iff : forall A (l l' : list A) x, Permutation l l' -> (In x l <-> In x l').
Proof. intros A l l' x P. split; apply Permutation_in; [exact P|apply Permutation_sym; exact P]. Qed.

Lemma reordered_alike : forall files files' T T', Permutation files files' -> (forall k, timed_key k -> observed k files) ->
  merged_from files T -> merged_from files' T' -> Forall2 alike T T'.
Proof.
  intros files files' T T' P HO M M'. apply alike_tables.
  - apply same_keys; [apply M|apply M'|]. intro k. rewrite (proj1 (proj2 M) k), (proj1 (proj2 M') k). split; intros (f & Hf & Hk); exists f; (split; [|exact Hk]); apply (perm_in_iff _ _ _ f P); exact Hf.
  - intros k v v' H H' Hk. destruct (seen_all k files (HO k Hk)) as (os & HS).
    destruct (Permutation_Forall2 (values_perm k _ _ P) HS) as (os' & P' & HS').
    destruct (merged_total files T k v os Hk M H HS) as (o & A & B). destruct (merged_total files' T' k v' os' Hk M' H' HS') as (o' & A' & B').
    apply (seen_total v v' o os A B o' A'). apply (total_perm os' os); [apply Permutation_sym; exact P'|exact B'].
Qed.

Lemma compacted_alike : forall files part c files' T T', compacted files part c files' -> (forall k, timed_key k -> observed k files) ->
  merged_from files T -> merged_from files' T' -> Forall2 alike T T'.
Proof.
  intros files part c files' T T' [rest P Mc P'] HO M M'. apply alike_tables.
  - apply same_keys; [apply M|apply M'|]. intro k. rewrite (proj1 (proj2 M) k), (proj1 (proj2 M') k). split; intros (f & Hf & Hk).
    + apply (perm_in_iff _ _ _ f P) in Hf. apply in_app_or in Hf. destruct Hf as [Hf|Hf].
      * exists c. split; [apply (perm_in_iff _ _ _ c P'); left; reflexivity|]. apply (proj1 (proj2 Mc) k). eauto.
      * exists f. split; [apply (perm_in_iff _ _ _ f P'); right; exact Hf|exact Hk].
    + apply (perm_in_iff _ _ _ f P') in Hf. destruct Hf as [<-|Hf].
      * apply (proj1 (proj2 Mc) k) in Hk. destruct Hk as (g & Hg & Hk). exists g. split; [|exact Hk]. apply (perm_in_iff _ _ _ g P). apply in_or_app. left. exact Hg.
      * exists f. split; [|exact Hk]. apply (perm_in_iff _ _ _ f P). apply in_or_app. right. exact Hf.
  - intros k v v' H H' Hk.
    assert (Op : observed k part) by (intros f w Hf Hw; apply (HO k Hk f w); [apply (perm_in_iff _ _ _ f P); apply in_or_app; left; exact Hf|exact Hw]).
    assert (Or : observed k rest) by (intros f w Hf Hw; apply (HO k Hk f w); [apply (perm_in_iff _ _ _ f P); apply in_or_app; right; exact Hf|exact Hw]).
    destruct (seen_all k part Op) as (op & Sp). destruct (seen_all k rest Or) as (or & Sr).
    assert (Sa : Forall2 seen_as (values_of k (part ++ rest)) (op ++ or)) by (rewrite values_app; apply Forall2_app; assumption).
    destruct (Permutation_Forall2 (values_perm k _ _ (Permutation_sym P)) Sa) as (oa & Pa & Sa').
    destruct (merged_total files T k v oa Hk M H Sa') as (o & A & B). apply (total_perm oa (op ++ or)) in B; [|apply Permutation_sym; exact Pa].
    assert (X : exists oc, Forall2 seen_as (values_of k [c]) oc /\ forall o', total (oc ++ or) o' -> total (op ++ or) o').
    { destruct (values_of k [c]) as [|w l] eqn:E.
      - exists []. split; [constructor|]. intros o' Ho. assert (EP : values_of k part = []).
        { apply values_nil. intros f Hf Hh. assert (Hc : has_key k c) by (apply (proj1 (proj2 Mc) k); eauto). destruct Hc as (w & Hw).
          rewrite (value_of_one c k w (proj1 Mc) Hw) in E. discriminate. }
        rewrite EP in Sp. inversion Sp; subst. exact Ho.
      - assert (Hw : In (k, w) c). { assert (Z : In w (values_of k [c])) by (rewrite E; left; reflexivity). apply values_in in Z. destruct Z as (f & [<-|[]] & Hw). exact Hw. }
        rewrite (value_of_one c k w (proj1 Mc) Hw) in E. injection E as <-. destruct (merged_total part c k w op Hk Mc Hw Sp) as (oc & Y1 & Y2).
        exists [oc]. split; [constructor; [exact Y1|constructor]|]. intros o' Ho. exact (total_app op or oc o' Y2 Ho). }
    destruct X as (oc & Sc & HX).
    assert (Sb : Forall2 seen_as (values_of k (c :: rest)) (oc ++ or)) by (change (c :: rest) with ([c] ++ rest); rewrite values_app; apply Forall2_app; assumption).
    destruct (Permutation_Forall2 (values_perm k _ _ (Permutation_sym P')) Sb) as (ob & Pb & Sb').
    destruct (merged_total files' T' k v' ob Hk M' H' Sb') as (o' & A' & B'). apply (total_perm ob (oc ++ or)) in B'; [|apply Permutation_sym; exact Pb].
    apply (seen_total v v' o (op ++ or) A B o' A'). apply HX. exact B'.
Qed.

(** ** The merged file *)

Lemma forall_choice : forall A B (P : A -> B -> Prop) l, (forall x, In x l -> exists y, P x y) -> exists m, Forall2 P l m.
Proof.
  intros A B P l. induction l as [|x l IH]; intro H; [exists []; constructor|]. destruct (H x (or_introl eq_refl)) as (y & Hy).
  destruct IH as (m & Hm); [intros; apply H; right; assumption|]. exists (y :: m). constructor; assumption.
Qed.

Lemma forall2_left : forall A B (R : A -> B -> Prop) l m x, Forall2 R l m -> In x l -> exists y, In y m /\ R x y.
Proof.
  intros A B R l m x H. induction H as [|a b l m H0 H IH]; intros []; [subst; exists b; split; [left; reflexivity|assumption]|].
  destruct IH as (y & Y1 & Y2); [assumption|]. exists y. split; [right; exact Y1|exact Y2].
Qed.

Lemma part_merged_ok : forall part c, Forall file_ok part -> ranges_alike part -> merged_from part c -> file_ok c.
Proof.
  intros part c HF HR HM. split; [apply HM|]. rewrite Forall_forall in HF.
  assert (OB : forall k, timed_key k -> observed k part).
  { intros k Hk f v Hf Hin. destruct (HF f Hf) as (_ & r & _ & HO). destruct (HO k v Hin Hk) as (o & A & B & _). exists o. split; assumption. }
  assert (LE : forall k v o, timed_key k -> In (k, v) c -> seen_as v o -> o_first o <= o_last o /\
    exists f g vf vg o1 o2, In f part /\ In g part /\ In (k, vf) f /\ In (k, vg) g /\ seen_as vf o1 /\ seen_as vg o2 /\ o_first o = o_first o1 /\ o_last o = o_last o2).
  { intros k v o Hk Hin Hs. destruct (merged_obs k part c v Hk (OB k Hk) HM Hin) as (o' & Hs' & (f & vf & of & Hf & Hvf & Hsf & Ef) & (g & vg & og & Hg & Hvg & Hsg & Eg) & HB).
    rewrite (seen_fun v o' o Hs' Hs) in *. destruct (HB f vf of Hf Hvf Hsf) as (B1 & B2). destruct (HF f Hf) as (_ & r & _ & HO). destruct (HO k vf Hvf Hk) as (ox & X1 & X2 & X3 & _).
    rewrite (seen_fun vf ox of (conj X1 X2) Hsf) in X3. split; [lia|]. exists f, g, vf, vg, of, og. auto 10. }
  assert (CE : part = [] \/ exists f0, In f0 part) by (destruct part as [|f0 p]; [left; reflexivity|right; exists f0; left; reflexivity]).
  destruct CE as [->|(f0 & Hf0)].
  { exists None. split; [apply tr_none; intros k v Hin|intros k v Hin]; assert (Hk : has_key k c) by (exists v; exact Hin); apply HM in Hk; destruct Hk as (f & [] & _). }
  destruct HR as [HR|HR].
  - assert (Hc : has_key [254] c).
    { apply HM. destruct (HR f0 Hf0) as (mn & mx & X). inversion X as [? ? v ? ? Hin HV|]; subst. exists f0. split; [exact Hf0|exists v; exact Hin]. }
    destruct Hc as (v & Hv). destruct HM as (HS & HK & HV). destruct (HV _ _ Hv) as (tr & HP & HE).
    assert (ONE : forall f w mn mx, In f part -> In ([254], w) f -> time_range f (Some (mn, mx)) -> time_range_value w (Some (mn, mx))).
    { intros f w mn mx Hf Hw X. inversion X as [? ? w' ? ? Hin HPv|]; subst.
      pose proof (value_of_one f [254] w (proj1 (HF f Hf)) Hw) as E1. rewrite (value_of_one f [254] w' (proj1 (HF f Hf)) Hin) in E1. injection E1 as ->.
      split; [assumption|]. split; assumption. }
    destruct (forall_choice _ _ (fun w p => time_range_value w (Some p)) (mleaves tr)) as (ps & Hps).
    { intros w Hw. apply (Permutation_in _ HP) in Hw. apply values_in in Hw. destruct Hw as (f & Hf & Hin). destruct (HR f Hf) as (mn & mx & X). exists (mn, mx). eapply ONE; eauto. }
    assert (Hos : Forall2 time_range_value (mleaves tr) (map Some ps)) by (clear -Hps; induction Hps; constructor; auto).
    destruct (merge_time_ranges tr _ Hos) as (_ & Y). destruct (Y ps eq_refl) as (F & L & v' & E & Mi & Ma & (V1 & V2 & V3)). change [ENTRY_TYPE_TIME_RANGE] with [254] in E. rewrite HE in E. injection E as <-.
    exists (Some (F, L)). split; [exact (tr_some c F L v V1 V2 Hv V3)|].
    assert (RNG : forall f w o, In f part -> forall k, timed_key k -> In (k, w) f -> seen_as w o -> F <= o_first o /\ o_last o <= L).
    { intros f w o Hf k Hk Hin Ho. destruct (HF f Hf) as (HSf & r & Hr & HO). destruct (HO k w Hin Hk) as (o' & O1 & O2 & _ & O3).
      rewrite (seen_fun w o' o (conj O1 O2) Ho) in O3. destruct (HR f Hf) as (mn & mx & X). rewrite (time_range_fun f r (Some (mn, mx)) HSf Hr X) in O3.
      inversion X as [? ? w' ? ? Hw' HPv|]; subst.
      assert (Hl : In w' (mleaves tr)) by (apply (Permutation_in _ (Permutation_sym HP)); apply values_in; eauto).
      assert (Hp : In (mn, mx) ps).
      { destruct (forall2_left _ _ _ _ _ _ Hps Hl) as (p & Hp & (P1 & P2 & P3)). destruct p as [a b]. cbn [fst snd] in *.
        destruct (pair_encoding_roundtrip a b w' P1 P2 P3) as (_ & U & _). destruct (pair_encoding_roundtrip mn mx w') as (_ & U' & _); [assumption|assumption|assumption|].
        rewrite U in U'. injection U' as -> ->. exact Hp. }
      destruct Mi as (_ & Mi), Ma as (_ & Ma). pose proof (Mi mn (in_map fst ps _ Hp)). pose proof (Ma mx (in_map snd ps _ Hp)). lia. }
    intros k w Hin Hk. destruct (merged_obs k part c w Hk (OB k Hk) (conj HS (conj HK HV)) Hin) as (o & (O1 & O2) & _).
    destruct (LE k w o Hk Hin (conj O1 O2)) as (HL & f & g & vf & vg & o1 & o2 & Hf & Hg & Hvf & Hvg & S1 & S2 & E1 & E2).
    exists o. do 3 (split; [assumption|]). rewrite E1, E2. split; [apply (RNG f vf o1 Hf k Hk Hvf S1)|apply (RNG g vg o2 Hg k Hk Hvg S2)].
  - exists None. split.
    + apply tr_none. intros k v Hin. assert (Hk : has_key k c) by (exists v; exact Hin). apply HM in Hk. destruct Hk as (f & Hf & w & Hw).
      pose proof (HR f Hf) as X. inversion X as [|HX]; subst. exact (HX k w Hw).
    + intros k w Hin Hk. destruct (merged_obs k part c w Hk (OB k Hk) HM Hin) as (o & (O1 & O2) & _).
      destruct (LE k w o Hk Hin (conj O1 O2)) as (HL & _). exists o. auto.
Qed.

(** ** The set of files after merging *)

Lemma part_indexed_ok : forall files recss part c recs, Forall2 database recss files -> Forall indexed recss -> (forall f, In f part -> In f files) ->
  merged_from part c -> database recs c -> indexed recs.
Proof.
  intros files recss part c recs HD HX HP HM HDc. destruct (part_own_indexed files recss part c recs HD HX HP HM HDc) as (A & B).
  split; [exact A|]. split; [exact B|]. intros n m Hin.
  assert (X : exists k r0, union_key k /\ encodes r0 (k, m) /\ In (k, m) c /\ (r0 = OwnerIndex n m \/ r0 = RdataIndex n m)).
  { destruct Hin as [Hin|Hin]; destruct (encodes_in _ _ _ (proj1 HDc) Hin) as ([k w] & He & HE); pose proof HE as (_ & _ & E); injection E as -> ->.
    - exists (rrset_name_key n), (OwnerIndex n m). split; [exists (wire n); left; reflexivity|auto].
    - exists (rdata_name_key n), (RdataIndex n m). split; [exists (rwire n); right; reflexivity|auto]. }
  destruct X as (k & r0 & HU & HE & Hc & Hr0). destruct HM as (_ & _ & HV). destruct (HV k m Hc) as (tr & HPm & HEv).
  apply (merged_types k tr m HU); [|exact HEv]. apply Forall_forall. intros w Hw. apply (Permutation_in _ HPm) in Hw. apply values_in in Hw. destruct Hw as (f & Hf & Hin2).
  destruct (stored_record files recss HD f k w (HP f Hf) Hin2) as (recf & r & Hrf & Hr & _ & HEr). rewrite Forall_forall in HX. destruct (HX recf Hrf) as (_ & _ & HI).
  destruct Hr0 as [-> | ->].
  - rewrite (owner_entry r n m k w HE HEr) in Hr. apply (HI n w). left. exact Hr.
  - rewrite (rdata_entry r n m k w HE HEr) in Hr. apply (HI n w). right. exact Hr.
Qed.

Lemma perm_records : forall files files' recss, Forall2 database recss files -> Permutation files files' ->
  exists recss', Permutation recss recss' /\ Forall2 database recss' files'.
Proof.
  intros files files' recss H P. assert (H' : Forall2 (fun f r => database r f) files recss) by (clear -H; induction H; constructor; auto).
  destruct (Permutation_Forall2 P H') as (recss' & P' & H2). exists recss'. split; [exact P'|]. clear -H2. induction H2; constructor; auto.
Qed.

Lemma covered_perm : forall a b, Permutation a b -> covered (concat b) (concat a).
Proof.
  intros a b P r Hr. exists r. split; [|apply same_refl]. apply in_concat in Hr. destruct Hr as (x & Hx & Hr). apply in_concat. exists x. split; [|exact Hr].
  apply (Permutation_in _ (Permutation_sym P) Hx).
Qed.

Lemma compacted_records : forall files part c files' recss, compacted files part c files' -> Forall2 database recss files ->
  exists recss', Forall2 database recss' files' /\ covered (concat recss') (concat recss) /\ (Forall indexed recss -> Forall indexed recss').
Proof.
  intros files part c files' recss [rest P Mc P'] HD.
  assert (HPt : forall f, In f part -> In f files) by (intros f Hf; apply (perm_in_iff _ _ _ f P); apply in_or_app; left; exact Hf).
  destruct (merged_database files recss HD part c HPt Mc) as (recs & HDc & HC).
  destruct (perm_records _ _ _ HD P) as (rs & Prs & Hrs). apply Forall2_app_inv_r in Hrs. destruct Hrs as (rp & rr & Hrp & Hrr & ->).
  destruct (perm_records (c :: rest) files' (recs :: rr)) as (recss' & P2 & H2); [constructor; assumption|apply Permutation_sym; exact P'|].
  exists recss'. split; [exact H2|]. split.
  - apply (covered_trans _ (concat (recs :: rr))); [apply covered_perm; exact P2|]. intros r Hr. cbn [concat] in Hr. apply in_app_or in Hr. destruct Hr as [Hr|Hr]; [apply HC; exact Hr|].
    apply (covered_perm _ _ Prs). rewrite concat_app. apply in_or_app. right. exact Hr.
  - intro HX. assert (HXr : Forall indexed (recs :: rr)).
    { constructor; [exact (part_indexed_ok files recss part c recs HD HX HPt Mc HDc)|]. rewrite Forall_forall in HX. apply Forall_forall. intros x Hx. apply HX.
      apply (Permutation_in _ (Permutation_sym Prs)). apply in_or_app. right. exact Hx. }
    rewrite Forall_forall in HXr. apply Forall_forall. intros x Hx. apply HXr. apply (Permutation_in _ (Permutation_sym P2) Hx).
Qed.
