(** Property C89: records added to a file take no answer away. *)
From Coq Require Import Permutation.
From Verif Require Import Base BaseFacts SpecMerge SpecName ModelEntry SpecEntry ModelIter SpecIter ModelQuery SpecQuery PropsQuery SelectProofs.
From Verif Require Import ModelReader SpecReader PropsReader ModelSetters ModelFileset SpecFileset FilesetProofs FilesetDirect FilesetQueries FilesetGrouped CompactionProofs FilesetDemo SpecOrder Demo PropsIter SpecCompaction PropsCompaction PropsFileset SpecAggregate.

Lemma part_in : forall (A : Type) (a l : list A) x, in_order a l -> In x a -> In x l.
Proof. intros A a l x H. induction H; cbn; tauto. Qed.
Lemma part_selects : forall (A : Type) (P : A -> Prop) l l' m m', in_order l l' -> selects P l m -> selects P l' m' -> in_order m m'.
Proof.
  intros A P l l' m m' H. revert m m'. induction H as [l|x a l H IH|x a l H IH]; intros m m' S S'.
  - inversion S; subst. constructor.
  - inversion S; subst; inversion S'; subst; try contradiction; [apply ord_take; auto|auto].
  - inversion S'; subst; [apply ord_skip; auto|auto].
Qed.
Lemma part_refl : forall (A : Type) (l : list A), in_order l l.
Proof. intros A l. induction l; constructor; assumption. Qed.
Lemma part_shows : forall out out' es es', in_order out out' -> (forall r, In r out' -> shown r) -> Forall2 shows out es -> Forall2 shows out' es' -> in_order es es'.
Proof.
  intros out out' es es' H. revert es es'. induction H as [l|x a l H IH|x a l H IH]; intros es es' SH W W'.
  - inversion W; subst. constructor.
  - inversion W as [|? e ? es1 E W1]; subst. inversion W' as [|? e' ? es2 E' W2]; subst.
    assert (X : [e] = [e']) by (apply (shows_det [x]); [constructor; [apply SH; left; reflexivity|constructor]|constructor; [exact E|constructor]|constructor; [exact E'|constructor]]).
    injection X as <-. apply ord_take. apply IH; [intros r Hr; apply SH; right; exact Hr|assumption|assumption].
  - inversion W' as [|? e' ? es2 E' W2]; subst. apply ord_skip. apply IH; [intros r Hr; apply SH; right; exact Hr|assumption|assumption].
Qed.
Lemma part_app : forall (A : Type) (a l b m : list A), in_order a l -> in_order b m -> in_order (a ++ b) (l ++ m).
Proof.
  intros A a l b m H K. induction H as [l|x a l H IH|x a l H IH]; cbn [app]; [|apply ord_take; exact IH|apply ord_skip; exact IH].
  induction l as [|x l IH]; [exact K|apply ord_skip; exact IH].
Qed.
Lemma part_skip_app : forall (A : Type) (a l b : list A), in_order a l -> in_order a (b ++ l).
Proof. intros A a l b H. induction b as [|x b IH]; [exact H|apply ord_skip; exact IH]. Qed.
Lemma part_tail : forall (A : Type) (x : A) a l, in_order (x :: a) l -> in_order a l.
Proof. intros A x a l H. remember (x :: a) as b eqn:E. revert E. induction H; intro E; [discriminate E|injection E as -> ->; apply ord_skip; assumption|apply ord_skip; auto]. Qed.
Lemma part_skipn : forall (A : Type) (a l : list A), in_order a l -> forall n, in_order (skipn n a) (skipn n l).
Proof.
  intros A a l H. induction H as [l|x a l H IH|x a l H IH]; intros [|n]; cbn [skipn].
  - constructor.
  - constructor.
  - apply ord_take. exact H.
  - apply IH.
  - apply ord_skip. exact H.
  - destruct a as [|y a]; cbn [skipn]; [constructor|]. specialize (IH n). clear H. revert IH. generalize (skipn n l). intros l'. revert y a. induction n as [|n IHn]; intros y a H; [cbn [skipn] in *; apply (part_tail _ y); exact H|].
    cbn [skipn] in H. destruct a as [|z a]; cbn [skipn] in *; [constructor|]. apply (IHn z a). exact H.
Qed.
Lemma part_groups : forall (R : record -> record -> Prop) recs recs' heads heads' outs outs', in_order recs recs' -> in_order heads heads' ->
  Forall2 (fun h out => selects (R h) recs out) heads outs -> Forall2 (fun h out => selects (R h) recs' out) heads' outs' -> in_order (concat outs) (concat outs').
Proof.
  intros R recs recs' heads heads' outs outs' HR H. revert outs outs'. induction H as [l|x a l H IH|x a l H IH]; intros outs outs' G G'.
  - inversion G; subst. cbn [concat]. constructor.
  - inversion G; subst. inversion G'; subst. cbn [concat]. apply part_app; [|auto].
    match goal with A : selects _ recs ?o, C : selects _ recs' ?o' |- in_order ?o ?o' => exact (part_selects _ _ _ _ _ _ HR A C) end.
  - inversion G'; subst. cbn [concat]. apply part_skip_app. auto.
Qed.
Lemma nothing_added : forall (A : Type) (P : A -> Prop) l l' m m', in_order l l' -> NoDup l' -> (forall x, In x l' -> P x -> In x l) -> selects P l m -> selects P l' m' -> m = m'.
Proof.
  intros A P l l' m m' H. revert m m'. induction H as [l|x a l H IH|x a l H IH]; intros m m' ND HN S S'.
  - inversion S; subst. clear ND. revert m' S'. induction l as [|x l IH]; intros m' S'; inversion S' as [|? ? m0 HP S1|? ? m0 HP S1]; subst; [reflexivity| |].
    + destruct (HN x (or_introl eq_refl) HP).
    + apply IH; [|exact S1]. intros y Hy. apply HN. right. exact Hy.
  - inversion ND as [|? ? N1 N2]; subst.
    assert (HN' : forall y, In y l -> P y -> In y a) by (intros y Hy Py; destruct (HN y (or_intror Hy) Py) as [->|X]; [contradiction|exact X]).
    inversion S; subst; inversion S'; subst; try contradiction; [f_equal; eapply IH; eauto|eapply IH; eauto].
  - inversion ND as [|? ? N1 N2]; subst. inversion S' as [|? ? m0 HP S1|? ? m0 HP S1]; subst.
    + exfalso. apply N1. eapply part_in; [exact H|]. apply (HN x (or_introl eq_refl) HP).
    + eapply IH; eauto. intros y Hy. apply HN. right. exact Hy.
Qed.
Lemma part_covered : forall a l, in_order a l -> covered a l.
Proof. intros a l H r Hr. exists r. split; [eapply part_in; eauto|]. destruct r; cbn; auto. Qed.

(** ** C89 *)
(** A file to which records are added still answers with all it answered before, in the same
    order and with the new ones in between, also where the first [n] answers are left out for
    an offset; and with the same if none of the added records was asked for. *)
Theorem added_records_take_nothing : forall q t t' recs recs' M, database recs t -> database recs' t' -> in_order recs recs' -> asks q recs' M ->
  exists es es', lists q (dnstable_query_iter q t) es /\ lists q (dnstable_query_iter q t') es' /\ (forall n, in_order (skipn n es) (skipn n es')) /\
    (NoDup recs' -> (forall r, In r recs' -> M r -> In r recs) -> es = es').
Proof.
  intros q t t' recs recs' M HD HD' HI HA.
  destruct (query_returns q t recs M HD (asks_covered _ _ _ _ (part_covered _ _ HI) HA)) as (out & es & S & W & L).
  destruct (query_returns q t' recs' M HD' HA) as (out' & es' & S' & W' & L').
  assert (SH : forall r, M r -> shown r) by (intro r; apply (asks_shown q recs'); exact HA).
  assert (SO : forall r, In r out' -> shown r) by (intros r Hr; apply SH; apply (selects_in _ _ _ _ S' r Hr)).
  exists es, es'. split; [exact L|]. split; [exact L'|]. split.
  - apply part_skipn. eapply part_shows; [eapply part_selects; eauto|exact SO|exact W|exact W'].
  - intros ND HN. pose proof (nothing_added _ _ _ _ _ _ HI ND HN S S') as E. subst out'. apply (shows_det out); [apply Forall_forall; exact SO|exact W|exact W'].
Qed.
Print Assumptions added_records_take_nothing.

(** The same for queries that go through an index, if the records are indexed before and
    after. *)
Theorem added_records_take_nothing_grouped : forall q t t' recs recs' I B M, database recs t -> database recs' t' -> strict t -> strict t' -> in_order recs recs' ->
  asks_grouped q recs I B M -> asks_grouped q recs' I B M ->
  exists es es', lists q (dnstable_query_iter q t) es /\ lists q (dnstable_query_iter q t') es' /\ (forall n, in_order (skipn n es) (skipn n es')).
Proof.
  intros q t t' recs recs' I B M HD HD' HS HS' HI HA HA'.
  destruct (query_returns_grouped q t recs I B M HD HS HA) as (heads & outs & es & all & S & G & A & P & W & L).
  destruct (query_returns_grouped q t' recs' I B M HD' HS' HA') as (heads' & outs' & es' & all' & S' & G' & A' & P' & W' & L').
  destruct (grouped_unbounded q _ I B M HA') as (M0 & HA0 & HFn). destruct (grouped_same _ _ _ _ _ (fence_unbounded q) HA0) as (_ & _ & _ & SSh).
  exists es, es'. split; [exact L|]. split; [exact L'|].
  apply part_skipn. eapply part_shows; [eapply (part_groups (fun h r => B h r /\ M r)); [exact HI|exact (part_selects _ _ _ _ _ _ HI S S')|exact G|exact G']| |exact W|exact W'].
  intros r Hr. apply SSh. apply (HFn r). apply (Permutation_in _ P') in Hr. apply (selects_in _ _ _ _ A' r Hr).
Qed.
Print Assumptions added_records_take_nothing_grouped.

(** The demonstration database without its third record, and with it. *)
Definition demo_less : list record := firstn 2 demo ++ skipn 3 demo.
Definition Q89 := ask QRrset None (Some (wire [[star_sign]; L_ex; L_com])) None None [] [] 1 None None None None.
Definition Q89i := ask QRrset None (Some (wire [L_www; [star_sign]])) None None [] [] 0 None None None None.
Lemma demo_less_part : in_order demo_less demo.
Proof. unfold demo_less, demo. cbn [firstn skipn app]. do 2 apply ord_take. apply ord_skip. apply part_refl. Qed.
Example c89_case : database demo_less (map put demo_less) /\ database demo demo_table /\ in_order demo_less demo /\ NoDup demo /\
  asks Q89 demo (below_rrset Q89 star_sign [L_ex; L_com] None) /\
  seen_by 3 Q89 (map put demo_less) = [Some (0, Ok (wire [L_mx; L_ex; L_com]), Ok 1); Some (0, Ok (wire [L_www; L_ex; L_com]), Ok 28); None] /\
  seen_by 4 Q89 demo_table = [Some (0, Ok (wire [L_mx; L_ex; L_com]), Ok 1); Some (0, Ok (wire [L_www; L_ex; L_com]), Ok 1); Some (0, Ok (wire [L_www; L_ex; L_com]), Ok 28); None].
Proof.
  split; [apply demo_ok; vm_compute; reflexivity|]. split; [apply demo_database|]. split; [apply demo_less_part|]. split.
  { assert (ND : NoDup demo_table) by (destruct demo_database as [_ HS]; clear -HS; induction HS as [|e t HS IH HF]; constructor; [intro HI; rewrite Forall_forall in HF; specialize (HF _ HI); rewrite blt_irrefl in HF; discriminate|exact IH]).
    apply (NoDup_map_inv put). exact ND. }
  split; [|split; vm_compute; reflexivity].
  apply asks_below_rrset; auto; split; try reflexivity; apply name_okb_ok; reflexivity.
Qed.
Example c89_grouped_case : strict (map put demo_less) /\ strict demo_table /\
  asks_grouped Q89i demo_less (after_index star_sign [L_www]) same_owner (after_rrset Q89i star_sign [L_www] None) /\
  asks_grouped Q89i demo (after_index star_sign [L_www]) same_owner (after_rrset Q89i star_sign [L_www] None) /\
  seen_by 3 Q89i (map put demo_less) = [Some (0, Ok (wire [L_www; L_ex; L_com]), Ok 28); Some (0, Ok (wire [L_www; L_net]), Ok 5); None] /\
  seen_by 4 Q89i demo_table = [Some (0, Ok (wire [L_www; L_ex; L_com]), Ok 1); Some (0, Ok (wire [L_www; L_ex; L_com]), Ok 28); Some (0, Ok (wire [L_www; L_net]), Ok 5); None].
Proof.
  assert (G : forall recs, owners_indexed recs -> asks_grouped Q89i recs (after_index star_sign [L_www]) same_owner (after_rrset Q89i star_sign [L_www] None)).
  { intros recs HI. apply (asks_after_rrset Q89i _ star_sign [L_www] None); auto.
    - split; [reflexivity|apply name_okb_ok; reflexivity].
    - no_wild_left.
    - split; [reflexivity|exact I].
    - intro H. discriminate H.
    - intro H. discriminate H. }
  split; [apply demo_ok; vm_compute; reflexivity|]. split; [apply demo_database|].
  split; [|split; [apply G, demo_owners_indexed|split; vm_compute; reflexivity]].
  apply G. intros ow ty bw rs o H. apply (part_in _ _ _ _ demo_less_part) in H. destruct (demo_owners_indexed _ _ _ _ _ H) as (m & Hm & HT).
  exists m. split; [|exact HT]. unfold demo in Hm. cbn [In] in Hm. unfold demo_less, demo. cbn [firstn skipn app In].
  destruct Hm as [E|[E|[E|Hm]]]; [discriminate E|discriminate E|discriminate E|right; right; exact Hm].
Qed.

(** ** Files added to a set *)
(** The same record, seen over a time that reaches at least as far both ways. *)
Definition widens (r r' : record) : Prop :=
  match r, r' with
  | RRset ow ty bw rs o, RRset ow' ty' bw' rs' o' => ow = ow' /\ ty = ty' /\ bw = bw' /\ rs = rs' /\ o_first o' <= o_first o /\ o_last o <= o_last o'
  | RData ow ty head tail o, RData ow' ty' head' tail' o' => ow = ow' /\ ty = ty' /\ head = head' /\ tail = tail' /\ o_first o' <= o_first o /\ o_last o <= o_last o'
  | _, _ => False
  end.

Lemma part_table : forall (T' T : table), strict T -> strict T' -> (forall k, has_key k T -> has_key k T') ->
  exists K, in_order K T' /\ Forall2 (fun e e' : kv => fst e = fst e') T K.
Proof.
  induction T' as [|[k' v'] T' IH]; intros T S S' H.
  - destruct T as [|[k v] T]; [exists []; split; constructor|]. destruct (H k) as (x & []). exists v. left. reflexivity.
  - destruct T as [|[k v] T]; [exists []; split; constructor|]. inversion S as [|? ? S1 F1]; subst. inversion S' as [|? ? S2 F2]; subst. rewrite Forall_forall in F1, F2. cbn [fst] in F1, F2.
    destruct (list_eq_dec N.eq_dec k k') as [<-|NE].
    + destruct (IH T S1 S2) as (K & A & B).
      { intros k1 (v1 & H1). destruct (H k1) as (x & [Hx|Hx]); [exists v1; right; exact H1| |exists x; exact Hx]. injection Hx as <- _. pose proof (F1 _ H1) as X. cbn [fst] in X. rewrite blt_irrefl in X. discriminate. }
      exists ((k, v') :: K). split; [apply ord_take; exact A|constructor; [reflexivity|exact B]].
    + destruct (H k) as (x & [Hx|Hx]); [exists v; left; reflexivity|injection Hx as E _; congruence|].
      destruct (IH ((k, v) :: T) S S2) as (K & A & B); [|exists K; split; [apply ord_skip; exact A|exact B]].
      intros k1 (v1 & H1). destruct (H k1) as (y & [Hy|Hy]); [exists v1; exact H1| |exists y; exact Hy]. injection Hy as <- _.
      pose proof (F2 _ Hx) as X. cbn [fst] in X. destruct H1 as [H1|H1]; [injection H1 as E _; congruence|]. pose proof (F1 _ H1) as Y. cbn [fst] in Y.
      pose proof (blt_trans _ _ _ X Y) as Z. rewrite blt_irrefl in Z. discriminate.
Qed.
Lemma part_forall2 : forall (A B : Type) (R : A -> B -> Prop) a K T', in_order K T' -> Forall2 R a T' -> exists b, in_order b a /\ Forall2 R b K.
Proof.
  intros A B R a K T' H. revert a. induction H as [l|x k l H IH|x k l H IH]; intros a F.
  - exists []. split; constructor.
  - inversion F as [|y ? a' ? F1 F2]; subst. destruct (IH _ F2) as (b & P & Q). exists (y :: b). split; [apply ord_take; exact P|constructor; assumption].
  - inversion F as [|y ? a' ? F1 F2]; subst. destruct (IH _ F2) as (b & P & Q). exists b. split; [apply ord_skip; exact P|exact Q].
Qed.
Lemma select_related : forall (A : Type) (R : A -> A -> Prop) (P : A -> Prop) l l' m, Forall2 R l l' -> (forall x y, R x y -> (P x <-> P y)) -> selects P l m ->
  exists m', selects P l' m' /\ Forall2 R m m'.
Proof.
  intros A R P l l' m H HP. revert m. induction H as [|x y l l' H1 H IH]; intros m S; inversion S as [|? ? m0 X S1|? ? m0 X S1]; subst.
  - exists []. split; constructor.
  - destruct (IH _ S1) as (m' & C & D). exists (y :: m'). split; [apply sel_yes; [apply (HP _ _ H1); exact X|exact C]|constructor; assumption].
  - destruct (IH _ S1) as (m' & C & D). exists m'. split; [apply sel_no; [intro Y; apply X; apply (HP _ _ H1); exact Y|exact C]|exact D].
Qed.
Lemma seen_incl : forall vs vs' os os', incl vs vs' -> Forall2 seen_as vs os -> Forall2 seen_as vs' os' -> incl os os'.
Proof.
  intros vs vs' os os' HI H H' o Ho.
  assert (E : exists v, In v vs /\ seen_as v o) by (clear -H Ho; induction H as [|v x vs os A H IH]; [destruct Ho|]; destruct Ho as [<-|Ho]; [exists v; split; [left; reflexivity|exact A]|destruct (IH Ho) as (w & W1 & W2); exists w; split; [right; exact W1|exact W2]]).
  destruct E as (v & Hv & HS). apply HI in Hv. clear -Hv HS H'. induction H' as [|w x vs os A H IH]; [destruct Hv|].
  destruct Hv as [->|Hv]; [left; exact (seen_fun v x o A HS)|right; apply IH; exact Hv].
Qed.
Lemma total_incl : forall os os' o o', incl os os' -> total os o -> total os' o' -> o_first o' <= o_first o /\ o_last o <= o_last o'.
Proof.
  intros os os' o o' HI ((A & _) & (B & _) & _) ((_ & C) & (_ & D) & _). split.
  - apply C. apply in_map_iff in A. destruct A as (x & E & Hx). apply in_map_iff. exists x. auto.
  - apply D. apply in_map_iff in B. destruct B as (x & E & Hx). apply in_map_iff. exists x. auto.
Qed.

Definition grown (r r' : record) : Prop := same_fields r r' /\ (shown r -> widens r r').
Lemma grown_records : forall lib lib' files files' recss' recs1 recs2, merges lib files -> merges lib' files' -> incl files files' -> Forall2 database recss' files' ->
  database recs1 (lib_merged lib files) -> database recs2 (lib_merged lib' files') -> exists kept, in_order kept recs2 /\ Forall2 grown recs1 kept.
Proof.
  intros lib lib' files files' recss' recs1 recs2 HL HL' HI HD' D1 D2.
  pose proof (all_merged lib files HL) as M1. pose proof (all_merged lib' files' HL') as M2.
  destruct (part_table (lib_merged lib' files') (lib_merged lib files) (proj1 M1) (proj1 M2)) as (K & KO & KF).
  { intros k Hk. apply (proj1 (proj2 M1)) in Hk. destruct Hk as (f & Hf & Hk). apply (proj1 (proj2 M2)). exists f. split; [apply HI, Hf|exact Hk]. }
  destruct (part_forall2 _ _ encodes recs2 K _ KO (proj1 D2)) as (kept & QO & QF).
  exists kept. split; [exact QO|].
  assert (G : forall T0 rs0 ks K0, Forall2 encodes rs0 T0 -> Forall2 encodes ks K0 -> Forall2 (fun e e' : kv => fst e = fst e') T0 K0 ->
      incl T0 (lib_merged lib files) -> incl K0 (lib_merged lib' files') -> Forall2 grown rs0 ks).
    { intros T0 rs0 ks K0 H1. revert ks K0. induction H1 as [|r [k v] rs0 T0 E H1 IH]; intros ks K0 H2 H3 I1 I2; inversion H3 as [|? [k2 v2] ? K1 EK H4]; subst; inversion H2 as [|r2 ? ks1 ? E2 H5]; subst; [constructor|].
      cbn [fst] in EK. subst k2. constructor; [|apply (IH _ K1 H5 H4); [intros x Hx; apply I1; right; exact Hx|intros x Hx; apply I2; right; exact Hx]].
      pose proof (key_fields _ _ _ _ _ E E2) as SF. split; [exact SF|]. intro Sh.
      pose proof (proj2 (timed_record _ _ _ E) Sh) as TK.
      destruct (seen_all k files (observed_files files' recss' HD' k files HI TK)) as (os & Hos).
      destruct (seen_all k files' (observed_files files' recss' HD' k files' (fun f H => H) TK)) as (os' & Hos').
      destruct (merged_total files _ k v os TK M1 (I1 _ (or_introl eq_refl)) Hos) as (o & SO & TO).
      destruct (merged_total files' _ k v2 os' TK M2 (I2 _ (or_introl eq_refl)) Hos') as (o' & SO' & TO').
      assert (HV : incl (values_of k files) (values_of k files')).
      { intros x Hx. apply values_in in Hx. destruct Hx as (f & Hf & Hx). apply values_in. exists f. split; [apply HI, Hf|exact Hx]. }
      pose proof (total_incl os os' o o' (seen_incl _ _ _ _ HV Hos Hos') TO TO') as [T1 T2].
      destruct E as (_ & E), E2 as (_ & E2). destruct r as [ow ty bw rs ob1|ow ty h t ob1| | |]; try contradiction; destruct r2 as [ow2 ty2 bw2 rs2 ob2|ow2 ty2 h2 t2 ob2| | |]; try contradiction.
      - destruct E as (_ & _ & _ & A & _ & B), E2 as (_ & _ & _ & A2 & _ & B2). destruct SF as (-> & -> & -> & ->).
        rewrite (seen_fun v ob1 o (conj A B) SO), (seen_fun v2 ob2 o' (conj A2 B2) SO'). cbn. auto 10.
      - destruct E as (_ & _ & A & _ & _ & B), E2 as (_ & _ & A2 & _ & _ & B2). destruct SF as (-> & -> & -> & ->).
        rewrite (seen_fun v ob1 o (conj A B) SO), (seen_fun v2 ob2 o' (conj A2 B2) SO'). cbn. auto 10. }
    apply (G _ _ _ _ (proj1 D1) QF KF); [intros x Hx; exact Hx|intros x Hx; apply (part_in _ _ _ _ KO Hx)].
Qed.

(** A set of files to which files are added still answers with all it answered before, in the
    same order, with new answers in between; the times of an answer only reach further.  For
    queries without time bounds: with them, an answer may leave the bounds. *)
Theorem added_files_take_nothing : forall lib lib' q files files' recss' M,
  merges lib files -> merges lib' files' -> incl files files' -> Forall has_range files' -> Forall2 database recss' files' ->
  q_aggregated q = true -> has_time_bound q = false -> asks q (concat recss') M ->
  exists out es out' es' kept, Forall2 shows out es /\ Forall2 shows out' es' /\
    lists q (dnstable_reader_query lib (dnstable_reader_init_setfile files) q) es /\
    lists q (dnstable_reader_query lib' (dnstable_reader_init_setfile files') q) es' /\
    in_order kept out' /\ Forall2 widens out kept.
Proof.
  intros lib lib' q files files' recss' M HL HL' HI HO' HD' HG HT HM. cbn [dnstable_reader_query dnstable_reader_init_setfile r_fs].
  assert (HO : Forall has_range files) by (rewrite Forall_forall in *; intros f Hf; apply HO', HI, Hf).
  rewrite (unbounded_merged lib q files HO HG HT), (unbounded_merged lib' q files' HO' HG HT).
  pose proof (all_merged lib files HL) as M1. pose proof (all_merged lib' files' HL') as M2.
  destruct (merged_database files' recss' HD' files _ HI M1) as (recs1 & D1 & C1).
  destruct (merged_database files' recss' HD' files' _ (fun f H => H) M2) as (recs2 & D2 & C2).
  destruct (query_returns q _ recs1 M D1 (asks_covered _ _ _ _ C1 HM)) as (out & es & S1 & W1 & L1).
  destruct (query_returns q _ recs2 M D2 (asks_covered _ _ _ _ C2 HM)) as (out' & es' & S2 & W2 & L2).
  assert (HFn : forall o, in_fence q o).
  { intro o. unfold has_time_bound in HT. apply orb_false_iff in HT. destruct HT as [HT E4]. apply orb_false_iff in HT. destruct HT as [HT E3]. apply orb_false_iff in HT. destruct HT as [E1 E2].
    unfold in_fence. rewrite E1, E2, E3, E4. repeat split; discriminate. }
  destruct (grown_records lib lib' files files' recss' recs1 recs2 HL HL' HI HD' D1 D2) as (kept & QO & HR).
  destruct (select_related _ grown M recs1 kept out HR) as (ko & SK & RK); [|exact S1|].
  { intros x y (SF & _). split; intro X; [exact (asks_same q _ M x y HFn HM SF X)|exact (asks_same q _ M y x HFn HM (same_sym _ _ SF) X)]. }
  exists out, es, out', es', ko. split; [exact W1|]. split; [exact W2|]. split; [exact L1|]. split; [exact L2|].
  split; [exact (part_selects _ _ _ _ _ _ QO SK S2)|].
  assert (SH : forall r, In r out -> shown r) by (intros r Hr; apply (asks_shown q _ M r HM); apply (selects_in _ _ _ _ S1 r Hr)).
  clear -RK SH. induction RK as [|r r' out ko (_ & X) RK IH]; constructor; [apply X, SH; left; reflexivity|apply IH; intros y Hy; apply SH; right; exact Hy].
Qed.
Print Assumptions added_files_take_nothing.

Lemma part_records : forall files files' recss', incl files files' -> Forall2 database recss' files' -> exists recss, Forall2 database recss files /\ incl recss recss'.
Proof.
  intros files files' recss' HI HD. induction files as [|f files IH]; [exists []; split; [constructor|intros x []]|].
  destruct IH as (recss & A & B); [intros x Hx; apply HI; right; exact Hx|].
  assert (E : exists recs, In recs recss' /\ database recs f).
  { assert (Hf : In f files') by (apply HI; left; reflexivity). clear -Hf HD. induction HD as [|recs g recss' files' D HD IH]; [destruct Hf|].
    destruct Hf as [->|Hf]; [exists recs; split; [left; reflexivity|exact D]|destruct (IH Hf) as (r & R1 & R2); exists r; split; [right; exact R1|exact R2]]. }
  destruct E as (recs & E1 & E2). exists (recs :: recss). split; [constructor; assumption|]. intros x [<-|Hx]; [exact E1|apply B, Hx].
Qed.
Lemma grown_groups : forall (B : record -> record -> Prop) (M : record -> Prop) recs1 recs2 kept heads hk heads2 outs outs2,
  (forall h h' r r', same_fields h h' -> same_fields r r' -> B h r -> B h' r') -> (forall r r', same_fields r r' -> M r -> M r') ->
  in_order kept recs2 -> Forall2 grown recs1 kept -> Forall2 grown heads hk -> in_order hk heads2 ->
  Forall2 (fun h out => selects (fun r => B h r /\ M r) recs1 out) heads outs -> Forall2 (fun h out => selects (fun r => B h r /\ M r) recs2 out) heads2 outs2 ->
  exists ko, in_order ko (concat outs2) /\ Forall2 grown (concat outs) ko.
Proof.
  intros B M recs1 recs2 kept heads hk heads2 outs outs2 SB SM KO HR HH HO. revert heads outs outs2 HH. induction HO as [l|h' hk l HO IH|h' hk l HO IH]; intros heads outs outs2 HH G1 G2.
  - inversion HH; subst. inversion G1; subst. exists []. split; constructor.
  - inversion HH as [|h ? heads' ? [SF _] HH']; subst. inversion G1 as [|? out ? outs' S1 G1']; subst. inversion G2 as [|? out2 ? outs2' S2 G2']; subst.
    destruct (IH _ _ _ HH' G1' G2') as (ko & P & Q).
    assert (S1' : selects (fun r => B h' r /\ M r) recs1 out).
    { clear -S1 SB SF. induction S1 as [|x a m P S IHs|x a m P S IHs]; [constructor| |].
      - apply sel_yes; [|exact IHs]. destruct P as [P1 P2]. split; [|exact P2]. apply (SB h h' x x SF (same_refl x) P1).
      - apply sel_no; [|exact IHs]. intros [P1 P2]. apply P. split; [|exact P2]. apply (SB h' h x x (same_sym _ _ SF) (same_refl x) P1). }
    destruct (select_related _ grown (fun r => B h' r /\ M r) recs1 kept out HR) as (k1 & SK & RK); [|exact S1'|].
    { intros x y (F & _). split; intros [X Y].
      - split; [exact (SB h' h' x y (same_refl h') F X)|exact (SM x y F Y)].
      - split; [exact (SB h' h' y x (same_refl h') (same_sym _ _ F) X)|exact (SM y x (same_sym _ _ F) Y)]. }
    exists (k1 ++ ko). cbn [concat]. split; [apply part_app; [exact (part_selects _ _ _ _ _ _ KO SK S2)|exact P]|apply Forall2_app; assumption].
  - inversion G2 as [|? out2 ? outs2' S2 G2']; subst. destruct (IH _ _ _ HH G1 G2') as (ko & P & Q). exists ko. cbn [concat]. split; [apply part_skip_app; exact P|exact Q].
Qed.

(** The same for queries that go through an index. *)
Theorem added_files_take_nothing_grouped : forall lib lib' q files files' recss' I B M,
  merges lib files -> merges lib' files' -> incl files files' -> Forall has_range files' -> Forall2 database recss' files' ->
  q_aggregated q = true -> has_time_bound q = false -> Forall indexed recss' -> parts_index_safe lib q files -> parts_index_safe lib' q files' ->
  asks_grouped q (concat recss') I B M ->
  exists out es out' es' kept, Forall2 shows out es /\ Forall2 shows out' es' /\
    lists q (dnstable_reader_query lib (dnstable_reader_init_setfile files) q) es /\
    lists q (dnstable_reader_query lib' (dnstable_reader_init_setfile files') q) es' /\
    in_order kept out' /\ Forall2 widens out kept.
Proof.
  intros lib lib' q files files' recss' I B M HL HL' HI HO' HD' HG HT HX HS HS' HM. cbn [dnstable_reader_query dnstable_reader_init_setfile r_fs].
  assert (HO : Forall has_range files) by (rewrite Forall_forall in *; intros f Hf; apply HO', HI, Hf).
  rewrite (unbounded_merged lib q files HO HG HT), (unbounded_merged lib' q files' HO' HG HT).
  destruct (part_records files files' recss' HI HD') as (recss & HD & HIn).
  assert (HX1 : Forall indexed recss) by (rewrite Forall_forall in *; intros f Hf; apply HX, HIn, Hf).
  assert (HC : covered (concat recss) (concat recss')).
  { intros r Hr. apply in_concat in Hr. destruct Hr as (l & Hl & Hr). exists r. split; [apply in_concat; exists l; split; [apply HIn, Hl|exact Hr]|apply same_refl]. }
  destruct (merged_grouped lib q files recss (concat recss') I B M HL HD HX1 HS HC HM) as (recs1 & heads & outs & all & es & D1 & _ & H1 & G1 & A1 & P1 & W1 & L1).
  destruct (merged_grouped lib' q files' recss' (concat recss') I B M HL' HD' HX HS' (covered_refl _) HM) as (recs2 & heads2 & outs2 & all2 & es2 & D2 & _ & H2 & G2 & A2 & P2 & W2 & L2).
  assert (HFq : forall o, in_fence q o).
  { intro o. unfold has_time_bound in HT. apply orb_false_iff in HT. destruct HT as [HT E4]. apply orb_false_iff in HT. destruct HT as [HT E3]. apply orb_false_iff in HT. destruct HT as [E1 E2].
    unfold in_fence. rewrite E1, E2, E3, E4. repeat split; discriminate. }
  destruct (grouped_same _ _ _ _ _ HFq HM) as (SI & SB & SM & SSh).
  destruct (grown_records lib lib' files files' recss' recs1 recs2 HL HL' HI HD' D1 D2) as (kept & QO & HR).
  destruct (select_related _ grown I recs1 kept heads HR) as (hk & SK & RK); [|exact H1|].
  { intros x y (SF & _). split; intro X; [exact (SI x y SF X)|exact (SI y x (same_sym _ _ SF) X)]. }
  destruct (grown_groups B M recs1 recs2 kept heads hk heads2 outs outs2 SB SM QO HR RK (part_selects _ _ _ _ _ _ QO SK H2) G1 G2) as (ko & KO & KR).
  exists (concat outs), es, (concat outs2), es2, ko. do 4 (split; [assumption|]). split; [exact KO|].
  assert (SH : forall r, In r (concat outs) -> shown r) by (intros r Hr; apply SSh; apply (Permutation_in _ P1) in Hr; apply (selects_in _ _ _ _ A1 r Hr)).
  clear -KR SH. induction KR as [|r r' out ko (_ & X) KR IH]; constructor; [apply X, SH; left; reflexivity|apply IH; intros y Hy; apply SH; right; exact Hy].
Qed.
Print Assumptions added_files_take_nothing_grouped.

Lemma selects_both : forall (P : record -> Prop) l l2 a b, selects P l a -> selects P (l ++ l2) b -> exists c, b = a ++ c.
Proof.
  intros P l l2 a b H. revert b. induction H as [|x l a X H IH|x l a X H IH]; intros b K.
  - exists b. reflexivity.
  - cbn [app] in K. inversion K as [|? ? b0 Y K1|? ? b0 Y K1]; subst; [|contradiction]. destruct (IH _ K1) as (c & ->). exists c. reflexivity.
  - cbn [app] in K. inversion K as [|? ? b0 Y K1|? ? b0 Y K1]; subst; [contradiction|]. exact (IH _ K1).
Qed.

(** Without aggregation the answers are those of the files, each on its own: files added to
    the set add their answers to those there were, whatever the time bounds. *)
Theorem added_files_unaggregated : forall lib lib' q files more recss recssm M,
  lists_duplicates lib files -> lists_duplicates lib' (files ++ more) -> Forall file_ok (files ++ more) ->
  Forall2 database recss files -> Forall2 database recssm more -> q_aggregated q = false -> asks q (concat (recss ++ recssm)) M ->
  exists es es' rest, lists q (dnstable_reader_query lib (dnstable_reader_init_setfile files) q) es /\
    lists q (dnstable_reader_query lib' (dnstable_reader_init_setfile (files ++ more)) q) es' /\ Permutation (es ++ rest) es'.
Proof.
  intros lib lib' q files more recss recssm M HL HL' HO HD HDm HG HM.
  assert (HO1 : Forall file_ok files) by (apply Forall_app in HO; apply HO).
  assert (HC : covered (concat recss) (concat (recss ++ recssm))).
  { intros r Hr. exists r. split; [rewrite concat_app; apply in_or_app; left; exact Hr|apply same_refl]. }
  destruct (fileset_query_unaggregated lib q files recss M HL HO1 HD HG (asks_covered _ _ _ _ HC HM)) as (sel & out & kvs & es & S & P & _ & _ & W & L).
  destruct (fileset_query_unaggregated lib' q (files ++ more) (recss ++ recssm) M HL' HO (Forall2_app HD HDm) HG HM) as (sel' & out' & kvs' & es' & S' & P' & _ & _ & W' & L').
  rewrite concat_app in S'. destruct (selects_both M _ _ _ _ S S') as (c & ->).
  assert (PO : Permutation out' (out ++ c)) by (eapply perm_trans; [apply Permutation_sym; exact P'|apply Permutation_app_tail; exact P]).
  destruct (Permutation_Forall2 PO W') as (e2 & PE & W2). apply Forall2_app_inv_l in W2. destruct W2 as (ea & eb & Wa & Wb & ->).
  assert (SH : Forall shown out).
  { apply Forall_forall. intros r Hr. apply (asks_shown q _ M r HM). apply (Permutation_in _ (Permutation_sym P)) in Hr. apply (selects_in _ _ _ _ S r Hr). }
  pose proof (shows_det out es ea SH W Wa) as ->. exists ea, es', eb. split; [exact L|]. split; [exact L'|]. apply Permutation_sym. exact PE.
Qed.
Print Assumptions added_files_unaggregated.

(** The same for queries that go through an index. *)
Theorem added_files_unaggregated_grouped : forall lib lib' q files more recss recssm I B M,
  merges lib files -> merges lib' (files ++ more) -> lists_duplicates lib files -> lists_duplicates lib' (files ++ more) -> Forall file_ok (files ++ more) ->
  Forall2 database recss files -> Forall2 database recssm more -> q_aggregated q = false -> Forall indexed (recss ++ recssm) ->
  parts_index_safe lib q files -> parts_index_safe lib' q (files ++ more) ->
  asks_grouped q (concat recss) I B M -> asks_grouped q (concat (recss ++ recssm)) I B M ->
  exists es es' rest, lists q (dnstable_reader_query lib (dnstable_reader_init_setfile files) q) es /\
    lists q (dnstable_reader_query lib' (dnstable_reader_init_setfile (files ++ more)) q) es' /\ Permutation (es ++ rest) es'.
Proof.
  intros lib lib' q files more recss recssm I B M HG1 HG2 HL HL' HO HD HDm HG HX HS HS' HM HM'.
  assert (HO1 : Forall file_ok files) by (apply Forall_app in HO; apply HO).
  assert (HX1 : Forall indexed recss) by (apply Forall_app in HX; apply HX).
  destruct (fileset_query_unaggregated_grouped lib q files recss I B M HG1 HL HO1 HD HG HX1 HS HM) as (heads & hkvs & outs & kvss & sel & es & _ & _ & _ & _ & S & P & _ & _ & W & L).
  destruct (fileset_query_unaggregated_grouped lib' q (files ++ more) (recss ++ recssm) I B M HG2 HL' HO (Forall2_app HD HDm) HG HX HS' HM') as (heads' & hkvs' & outs' & kvss' & sel' & es' & _ & _ & _ & _ & S' & P' & _ & _ & W' & L').
  rewrite concat_app in S'. destruct (selects_both M _ _ _ _ S S') as (c & ->).
  assert (PO : Permutation (concat outs') (concat outs ++ c)) by (eapply perm_trans; [apply Permutation_sym; exact P'|apply Permutation_app_tail; exact P]).
  destruct (Permutation_Forall2 PO W') as (e2 & PE & W2). apply Forall2_app_inv_l in W2. destruct W2 as (ea & eb & Wa & Wb & ->).
  destruct (grouped_unbounded q _ I B M HM) as (M0 & HA0 & HFn). destruct (grouped_same _ _ _ _ _ (fence_unbounded q) HA0) as (_ & _ & _ & SSh).
  assert (SH : Forall shown (concat outs)).
  { apply Forall_forall. intros r Hr. apply SSh. apply (HFn r). apply (Permutation_in _ (Permutation_sym P)) in Hr. apply (selects_in _ _ _ _ S r Hr). }
  pose proof (shows_det (concat outs) es ea SH W Wa) as ->. exists ea, es', eb. split; [exact L|]. split; [exact L'|]. apply Permutation_sym. exact PE.
Qed.
Print Assumptions added_files_unaggregated_grouped.

(** One of the demonstration files, and all of them. *)
Definition Q89f := ask QRrset (Some 1) (Some (wire [[star_sign]; L_ex; L_com])) None None [] [] 0 None None None None.
Example c89_files_case : merges lib0 (firstn 1 demo_files) /\ merges lib0 demo_files /\ incl (firstn 1 demo_files) demo_files /\ Forall has_range demo_files /\
  Forall2 database demo_recss demo_files /\ q_aggregated Q89f = true /\ has_time_bound Q89f = false /\
  asks Q89f (concat demo_recss) (below_rrset Q89f star_sign [L_ex; L_com] None) /\
  seen_in 2 Q89f (firstn 1 demo_files) = [Some (Ok (wire [L_www; L_ex; L_com]), Ok 60, Ok 250, Ok 7); None] /\
  seen_in 3 Q89f demo_files = [Some (Ok (wire [L_mx; L_ex; L_com]), Ok 10, Ok 400, Ok 8); Some (Ok (wire [L_www; L_ex; L_com]), Ok 60, Ok 400, Ok 8); None].
Proof.
  split; [apply merges0; vm_compute; reflexivity|]. split; [apply demo_merges|]. split; [intros f [<-|[]]; left; reflexivity|].
  split. { eapply Forall_impl; [|exact demo_files_ok]. intros f (A & r & B & _). split; [exact A|exists r; exact B]. }
  split; [apply demo_databases|]. split; [reflexivity|]. split; [reflexivity|].
  split; [apply asks_below_rrset; auto; split; try reflexivity; apply name_okb_ok; reflexivity|].
  split; vm_compute; reflexivity.
Qed.
(** With a time bound an added file may take an answer away: it was last seen before 300, and
    later in the added file.  So the bound cannot be allowed in the theorem. *)
Definition Q89t := ask QRrset (Some 1) (Some (wire [[star_sign]; L_ex; L_com])) None None [] [] 0 None None None (Some 300).
Example added_files_bounds_refuted : merges lib0 (firstn 1 demo_files) /\ merges lib0 demo_files /\ Forall file_ok demo_files /\ Forall2 database demo_recss demo_files /\
  asks Q89t (concat demo_recss) (below_rrset Q89t star_sign [L_ex; L_com] None) /\
  seen_in 2 Q89t (firstn 1 demo_files) = [Some (Ok (wire [L_www; L_ex; L_com]), Ok 60, Ok 250, Ok 7); None] /\
  seen_in 2 Q89t demo_files = [None; None].
Proof.
  split; [apply merges0; vm_compute; reflexivity|]. split; [apply demo_merges|]. split; [exact demo_files_ok|]. split; [apply demo_databases|].
  split; [apply asks_below_rrset; auto; split; try reflexivity; apply name_okb_ok; reflexivity|].
  split; vm_compute; reflexivity.
Qed.

(** A query through the index over one of the files and over all. *)
Definition Q89g := ask QRrset None (Some (wire [L_www; [star_sign]])) None None [] [] 0 None None None None.
Example c89_files_grouped_case : merges lib0 (firstn 1 demo_files) /\ merges lib0 demo_files /\ incl (firstn 1 demo_files) demo_files /\
  Forall indexed demo_recss /\ parts_index_safe lib0 Q89g (firstn 1 demo_files) /\ parts_index_safe lib0 Q89g demo_files /\ has_time_bound Q89g = false /\
  asks_grouped Q89g (concat demo_recss) (after_index star_sign [L_www]) same_owner (after_rrset Q89g star_sign [L_www] None) /\
  seen_in 2 Q89g (firstn 1 demo_files) = [Some (Ok (wire [L_www; L_ex; L_com]), Ok 60, Ok 250, Ok 7); None] /\
  seen_in 2 Q89g demo_files = [Some (Ok (wire [L_www; L_ex; L_com]), Ok 60, Ok 400, Ok 8); None].
Proof.
  split; [apply merges0; vm_compute; reflexivity|]. split; [apply demo_merges|]. split; [intros f [<-|[]]; left; reflexivity|]. split; [apply demo_files_indexed|].
  split; [intro H; discriminate H|]. split; [intro H; discriminate H|]. split; [reflexivity|]. split; [|split; vm_compute; reflexivity].
  apply (asks_after_rrset Q89g _ star_sign [L_www] None); auto.
  - split; [reflexivity|apply name_okb_ok; reflexivity].
  - no_wild_left.
  - split; [reflexivity|exact I].
  - intro H. discriminate H.
  - intros ow ty bw rs o H. apply in_concat in H. destruct H as (recs & HR & H). pose proof demo_files_indexed as HI. rewrite Forall_forall in HI.
    destruct (HI recs HR) as (A & _). destruct (A _ _ _ _ _ H) as (m & Hm & Ht). exists m. split; [apply in_concat; exists recs; auto|exact Ht].
  - intro H. discriminate H.
Qed.

(** The first file, and the other two added, without aggregation and with time bounds. *)
Example c89_unaggregated_case : lists_duplicates lib0 (firstn 1 demo_files) /\ lists_duplicates lib0 (firstn 1 demo_files ++ skipn 1 demo_files) /\
  Forall file_ok (firstn 1 demo_files ++ skipn 1 demo_files) /\ Forall2 database (firstn 1 demo_recss) (firstn 1 demo_files) /\ Forall2 database (skipn 1 demo_recss) (skipn 1 demo_files) /\
  q_aggregated Q31f = false /\ asks Q31f (concat (firstn 1 demo_recss ++ skipn 1 demo_recss)) (below_rrset Q31f star_sign [L_ex; L_com] None) /\
  seen_in 2 Q31f (firstn 1 demo_files) = [Some (Ok (wire [L_www; L_ex; L_com]), Ok 60, Ok 250, Ok 7); None] /\
  seen_in 4 Q31f (firstn 1 demo_files ++ skipn 1 demo_files) =
    [Some (Ok (wire [L_mx; L_ex; L_com]), Ok 100, Ok 400, Ok 5);
     Some (Ok (wire [L_www; L_ex; L_com]), Ok 60, Ok 250, Ok 7); Some (Ok (wire [L_www; L_ex; L_com]), Ok 200, Ok 400, Ok 1); None].
Proof.
  rewrite !firstn_skipn. split; [apply lists_duplicates0; vm_compute; reflexivity|]. split; [apply demo_lists_duplicates|]. split; [apply demo_files_ok|].
  pose proof demo_databases as D. unfold demo_recss, demo_files in D. cbn [map] in D. inversion D as [|? ? ? ? D1 D2]; subst.
  split; [constructor; [exact D1|constructor]|]. split; [exact D2|]. split; [reflexivity|].
  split; [apply asks_below_rrset; auto; split; try reflexivity; apply name_okb_ok; reflexivity|].
  split; vm_compute; reflexivity.
Qed.
