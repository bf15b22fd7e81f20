(** Queries over filesets. *)
From Coq Require Import Permutation.
From Verif Require Import Base BaseFacts ModelVarint VarintProofs SpecMerge ModelMerge MergeProofs PropsMerge ModelWdns SpecName NameFacts.
From Verif Require Import ModelEntry SpecEntry EntryProofs PropsEntry ModelUnion SpecUnion ModelIter SpecIter IterProofs PropsIter.
From Verif Require Import ModelQuery SpecQuery KeyProofs FilterProofs QueryProofs SelectProofs RRsetQueries IndexProofs RightWildcard RdataQueries IpProofs IpQueries PropsQuery.
From Verif Require Import ModelReader ModelSetters ModelFileset SpecFileset.

(** ** Strictly sorted tables *)

Lemma strict_eq : forall a b, strict a -> strict b -> (forall e, In e a <-> In e b) -> a = b.
Proof.
  intros a. induction a as [|x a IH]; intros b Sa Sb H.
  - destruct b as [|y b]; [reflexivity|]. exfalso. apply (proj2 (H y)). left. reflexivity.
  - destruct b as [|y b]; [exfalso; apply (proj1 (H x)); left; reflexivity|].
    inversion Sa as [|? ? Sa' Fa]; subst. inversion Sb as [|? ? Sb' Fb]; subst. rewrite Forall_forall in Fa, Fb.
    assert (E : x = y).
    { destruct (proj1 (H x) (or_introl eq_refl)) as [->|Hx]; [reflexivity|].
      destruct (proj2 (H y) (or_introl eq_refl)) as [->|Hy]; [reflexivity|].
      specialize (Fa y Hy). specialize (Fb x Hx). exfalso. pose proof (blt_trans _ _ _ Fa Fb) as C. rewrite blt_irrefl in C. discriminate. }
    subst y. f_equal. apply IH; auto. intro e. split; intro He.
    + destruct (proj1 (H e) (or_intror He)) as [<-|G]; [|exact G]. specialize (Fa x He). rewrite blt_irrefl in Fa. discriminate.
    + destruct (proj2 (H e) (or_intror He)) as [<-|G]; [|exact G]. specialize (Fb x He). rewrite blt_irrefl in Fb. discriminate.
Qed.

Lemma strict_map_join : forall mf t l, strict l -> strict (map (join_fn mf t) l).
Proof.
  intros mf t l S. induction S as [|e l S IH F]; cbn [map]; constructor; auto.
  apply Forall_map. eapply Forall_impl; [|exact F]. intros a Ha. rewrite !fst_join_fn. exact Ha.
Qed.

Lemma has_in : forall k v (t : table), In (k, v) t -> has_key k t.
Proof. intros. exists v. assumption. Qed.

(** ** The time range of a file *)

Lemma strict_least : forall t e, strict t -> In e t -> (forall x, In x t -> ble (fst e) (fst x) = true) -> exists rest, t = e :: rest.
Proof.
  intros t e S Hin HL. destruct t as [|x t]; [destruct Hin|]. destruct Hin as [->|Hin]; [eauto|].
  inversion S as [|? ? _ F]; subst. rewrite Forall_forall in F. specialize (F e Hin). specialize (HL x (or_introl eq_refl)).
  exfalso. rewrite blt_not_ble, HL in F. discriminate.
Qed.

Definition tr_query : query := match dnstable_query_init QTimeRange with Ok q => q | _ => without_bounds (ask QTimeRange None None None None [] [] 0 None None None None) end.

Lemma tr_iter : forall f, dnstable_query_iter tr_query f =
  Ok {| qi_query := tr_query; qi_source := SBase f; qi_kind := Direct (IBase (base_open (HPrefix [254]) f)) |}.
Proof. reflexivity. Qed.

Lemma range_found : forall f r, strict f -> time_range f r -> file_time_range f = Ok r.
Proof.
  intros f r HS HR. unfold file_time_range. change (dnstable_query_init QTimeRange) with (Ok tr_query). cbn [bind].
  rewrite tr_iter. unfold qnext. cbn [qi_query qi_kind]. change (is_timed tr_query) with false. cbv iota.
  assert (EN : forall n w, next (S n) (IBase (base_open (HPrefix [254]) f)) w =
    match window (HPrefix [254]) f with
    | [] => (OFail, IBase (base_open (HPrefix [254]) f), w)
    | e :: r => (OOk e, IBase {| b_win := window (HPrefix [254]) f; b_rest := r |}, w)
    end).
  { intros n w. cbn [next]. unfold base_next, base_open. cbn [b_rest b_win]. destruct (window (HPrefix [254]) f); reflexivity. }
  destruct HR as [mn mx v Hmn Hmx Hin HV|HN].
  - destruct (strict_least (window (HPrefix [254]) f) ([254], v)) as (rest & EW).
    + apply strict_window. exact HS.
    + apply in_window_filter. split; [exact Hin|reflexivity].
    + intros x Hx. apply in_window_filter in Hx. destruct Hx as [_ Hx]. apply is_prefix_ble. exact Hx.
    + destruct (decode_time_range_entry mn mx v Hmn Hmx HV) as (en & ED & _ & E1 & E2).
      cbn [direct_loop]. rewrite EN, EW. unfold ENTRY_TYPE_TIME_RANGE in ED. rewrite ED, E1, E2. reflexivity.
  - assert (EW : window (HPrefix [254]) f = []).
    { apply filter_nil. intros [k v] Hin. cbn [in_window fst]. specialize (HN k v Hin). destruct k as [|b k]; [reflexivity|]. cbn [hd] in HN.
      cbn [is_prefix]. destruct (N.eqb_spec 254 b); [congruence|reflexivity]. }
    cbn [direct_loop]. rewrite EN, EW. reflexivity.
Qed.

(** ** The fates of the files *)

Definition fate_for (q : query) (r : option (N * N)) : fate :=
  match r with
  | None => Keep
  | Some (mn, mx) =>
      if q_do_tfa q && (mx <? q_tfa q) then Remove
      else if q_do_tla q && (mx <? q_tla q) then Fill
      else if q_do_tlb q && (q_tlb q <? mn) then Remove
      else if q_do_tfb q && negb (q_do_tla q) && (q_tfb q <? mn) then Fill
      else Keep
  end.

Lemma fates_found : forall q files, Forall file_ok files ->
  exists l, fates q files = Ok l /\ map snd l = files /\
    Forall (fun p => exists r, time_range (snd p) r /\ fst p = fate_for q r) l.
Proof.
  intros q files H. induction H as [|f files (HS & r & HR & HO) H (l & E & EM & HF)].
  - exists []. split; [reflexivity|]. split; [reflexivity|constructor].
  - exists ((fate_for q r, f) :: l). split; [|split; [cbn [map snd]; congruence|constructor; [|exact HF]; exists r; auto]].
    cbn [fates]. unfold reader_time_filter. rewrite (range_found f r HS HR). cbn [bind]. rewrite E.
    destruct r as [[mn mx]|]; reflexivity.
Qed.

Lemma time_range_fun : forall f r r', strict f -> time_range f r -> time_range f r' -> r = r'.
Proof. intros f r r' S H H'. apply (range_found f r S) in H. apply (range_found f r' S) in H'. congruence. Qed.

Lemma fate_eqb_true : forall a b, fate_eqb a b = true <-> a = b.
Proof. intros [| |] [| |]; cbn; split; congruence. Qed.

Lemma files_with_in : forall x l f, In f (files_with x l) <-> In (x, f) l.
Proof.
  intros x l f. unfold files_with. rewrite in_map_iff. split.
  - intros ([y g] & E & H). cbn in E. subst g. apply filter_In in H. destruct H as [H E]. cbn in E. apply fate_eqb_true in E. subst y. exact H.
  - intro H. exists (x, f). split; [reflexivity|]. apply filter_In. split; [exact H|]. apply fate_eqb_true. reflexivity.
Qed.

Lemma files_with_selects : forall q x l, Forall strict (map snd l) ->
  Forall (fun p => exists r, time_range (snd p) r /\ fst p = fate_for q r) l ->
  selects (fun f => exists r, time_range f r /\ fate_for q r = x) (map snd l) (files_with x l).
Proof.
  intros q x l HS H. induction H as [|[y f] l (r & HR & EY) H IH]; [constructor|]. cbn [map snd fst] in *.
  inversion HS as [|? ? S1 S2]; subst. specialize (IH S2). unfold files_with in *. cbn [filter fst map snd].
  destruct (fate_eqb x (fate_for q r)) eqn:E; cbn [map snd].
  - apply fate_eqb_true in E. apply sel_yes; [|exact IH]. exists r. auto.
  - apply sel_no; [|exact IH]. intros (r' & HR' & E'). rewrite (time_range_fun f r' r) in E' by assumption.
    assert (fate_eqb x (fate_for q r) = true) by (apply fate_eqb_true; auto). congruence.
Qed.

Lemma files_with_perm : forall l, Permutation (map snd l) (files_with Keep l ++ files_with Fill l ++ files_with Remove l).
Proof.
  induction l as [|[x f] l IH]; [constructor|]. unfold files_with in *. cbn [map snd filter fst fate_eqb].
  destruct x; cbn [fate_eqb map snd app].
  - constructor. exact IH.
  - rewrite IH. apply Permutation_middle.
  - rewrite IH, !app_assoc. apply Permutation_middle.
Qed.

(** ** Values of a key *)

Lemma values_in : forall k v files, In v (values_of k files) <-> exists f, In f files /\ In (k, v) f.
Proof.
  intros k v files. unfold values_of. rewrite in_map_iff. split.
  - intros ([k' v'] & E & H). cbn in E. subst v'. apply filter_In in H. destruct H as [H E]. cbn in E. apply beq_true in E. subst k'.
    apply in_concat in H. destruct H as (f & Hf & Hin). eauto.
  - intros (f & Hf & Hin). exists (k, v). split; [reflexivity|]. apply filter_In. split; [|apply beq_true; reflexivity].
    apply in_concat. eauto.
Qed.

Lemma filter_perm : forall A (p : A -> bool) l l', Permutation l l' -> Permutation (filter p l) (filter p l').
Proof.
  intros A p l l' H. induction H as [|x l l' H IH|x y l|l m n H1 IH1 H2 IH2]; cbn [filter]; auto.
  - destruct (p x); auto.
  - destruct (p x), (p y); auto. apply perm_swap.
  - etransitivity; eauto.
Qed.
Lemma concat_perm : forall A (l l' : list (list A)), Permutation l l' -> Permutation (concat l) (concat l').
Proof.
  intros A l l' H. induction H as [|x l l' H IH|x y l|l m n H1 IH1 H2 IH2]; cbn [concat]; auto.
  - apply Permutation_app_head. exact IH.
  - rewrite !app_assoc. apply Permutation_app_tail. apply Permutation_app_comm.
  - etransitivity; eauto.
Qed.
Lemma values_perm : forall k a b, Permutation a b -> Permutation (values_of k a) (values_of k b).
Proof. intros k a b H. unfold values_of. apply Permutation_map, filter_perm, concat_perm. exact H. Qed.
Lemma values_app : forall k a b, values_of k (a ++ b) = values_of k a ++ values_of k b.
Proof. intros k a b. unfold values_of. rewrite concat_app, filter_app, map_app. reflexivity. Qed.
Lemma values_nil : forall k files, (forall f, In f files -> ~ has_key k f) -> values_of k files = [].
Proof.
  intros k files H. destruct (values_of k files) as [|v l] eqn:E; [reflexivity|]. exfalso.
  assert (Hin : In v (values_of k files)) by (rewrite E; left; reflexivity).
  apply values_in in Hin. destruct Hin as (f & Hf & Hkv). apply (H f Hf). exists v. exact Hkv.
Qed.

(** ** Merged observations *)

Definition seen_as (v : bytes) (o : obs) : Prop := obs_ok o /\ obs_value o v.

Lemma seen_fun : forall v o o', seen_as v o -> seen_as v o' -> o = o'.
Proof.
  intros v o o' [A B] [C D]. pose proof (triplet_unpack_obs o v A B) as E. rewrite (triplet_unpack_obs o' v C D) in E.
  injection E as E1 E2 E3. destruct o, o'; cbn in *; congruence.
Qed.

(** The files store observations under [k]. *)
Definition observed (k : bytes) (files : list table) : Prop :=
  forall f v, In f files -> In (k, v) f -> exists o, seen_as v o.

Lemma observed_values : forall k files, observed k files -> Forall (fun v => exists o, seen_as v o) (values_of k files).
Proof. intros k files H. apply Forall_forall. intros v Hv. apply values_in in Hv. destruct Hv as (f & Hf & Hin). eauto. Qed.

Lemma merged_obs : forall k files t v, timed_key k -> observed k files -> merged_from files t -> In (k, v) t ->
  exists o, seen_as v o /\
    (exists f v' o', In f files /\ In (k, v') f /\ seen_as v' o' /\ o_first o = o_first o') /\
    (exists f v' o', In f files /\ In (k, v') f /\ seen_as v' o' /\ o_last o = o_last o') /\
    (forall f v' o', In f files -> In (k, v') f -> seen_as v' o' -> o_first o <= o_first o' /\ o_last o' <= o_last o).
Proof.
  intros k files t v (b & rest & Ek & Hb) HO (HS & _ & HV) Hin.
  destruct (HV k v Hin) as (tr & HP & HE).
  assert (HL : Forall (fun v => exists o, seen_as v o) (mleaves tr)).
  { pose proof (observed_values k files HO) as HF. rewrite Forall_forall in *. intros x Hx. apply HF. apply (Permutation_in _ HP). exact Hx. }
  assert (exists os, Forall obs_ok os /\ Forall2 (fun v o => obs_value o v) (mleaves tr) os) as (os & H1 & H2).
  { clear HP HE. induction HL as [|x l (o & Ho & Hv) HF (os & IH1 & IH2)]; [exists []; split; constructor|].
    exists (o :: os). split; constructor; assumption. }
  assert (Hb' : b = ENTRY_TYPE_RRSET \/ b = ENTRY_TYPE_RDATA) by (destruct Hb; [left|right]; assumption).
  rewrite Ek in HE. destruct (merge_any_grouping b rest tr os Hb' H1 H2) as (f & l & v' & E & Mi & Ma & Vo).
  assert (v' = v) by congruence. subst v'.
  set (o := {| o_first := f; o_last := l; o_count := nsum (map o_count os) mod u64 |}) in *.
  assert (G1 : forall o', In o' os -> exists v', In v' (values_of k files) /\ seen_as v' o').
  { intros o' Ho'. enough (G : exists v', In v' (mleaves tr) /\ seen_as v' o').
    { destruct G as (v' & Hv' & Hs). exists v'. split; [apply (Permutation_in _ HP); exact Hv'|exact Hs]. }
    clear - Ho' H1 H2. induction H2 as [|x o l os Hx H2 IH]; [destruct Ho'|]. inversion H1; subst. destruct Ho' as [->|Ho'].
    - exists x. split; [left; reflexivity|split; assumption].
    - destruct IH as (v' & A & B); auto. exists v'. split; [right; exact A|exact B]. }
  assert (G2 : forall v' o', In v' (values_of k files) -> seen_as v' o' -> In o' os).
  { intros v' o' Hv' Hs. apply (Permutation_in _ (Permutation_sym HP)) in Hv'. clear - Hv' Hs H1 H2.
    induction H2 as [|x o l os Hx H2 IH]; [destruct Hv'|]. inversion H1; subst. destruct Hv' as [->|Hv'].
    - left. apply (seen_fun v'); [split; assumption|exact Hs].
    - right. auto. }
  destruct Mi as [Mi1 Mi2]. destruct Ma as [Ma1 Ma2]. apply in_map_iff in Mi1. destruct Mi1 as (om & Em & Hom).
  apply in_map_iff in Ma1. destruct Ma1 as (ox & Ex & Hox).
  assert (OK : obs_ok o).
  { rewrite Forall_forall in H1. destruct (H1 om Hom) as (A & _). destruct (H1 ox Hox) as (_ & B & _).
    repeat split; cbn [o o_first o_last o_count]; [rewrite <- Em; exact A|rewrite <- Ex; exact B|apply N.mod_lt; discriminate]. }
  exists o. split; [split; assumption|]. split; [|split].
  - destruct (G1 om Hom) as (v' & Hv' & Hs). apply values_in in Hv'. destruct Hv' as (g & Hg & Hkv). exists g, v', om. cbn [o o_first]. auto.
  - destruct (G1 ox Hox) as (v' & Hv' & Hs). apply values_in in Hv'. destruct Hv' as (g & Hg & Hkv). exists g, v', ox. cbn [o o_last]. auto.
  - intros g v' o' Hg Hkv Hs. assert (Ho' : In o' os) by (apply (G2 v'); [apply values_in; eauto|exact Hs]).
    cbn [o o_first o_last]. split; [apply Mi2|apply Ma2]; apply in_map; exact Ho'.
Qed.

(** ** The stages of a fenced query *)

Definition stackF (q : query) (fc : fenced) (src : source) : source :=
  let src1 :=
    if has_time_bound q then
      let s := SFilter StTimePrefilter (filter_time_prefilter q) src in
      match f_remove fc with Some l => SRemove l s | None => s end
    else src in
  let src2 := match f_fill fc with Some t => SLjoin merge_func t src1 | None => src1 end in
  if has_time_bound q then SFilter StTime (filter_time q) src2 else src2.

Lemma stack_fenced : forall q fc src, stack_filters q fc src = with_offset q (stackF q fc src).
Proof. intros q fc src. unfold stack_filters, stackF, with_offset, filter_set_cond. reflexivity. Qed.

Lemma stackF_timeout : forall q fc src, src_timeout (stackF q fc src) = src_timeout src.
Proof. intros q fc src. unfold stackF. destruct (has_time_bound q), (f_remove fc), (f_fill fc); reflexivity. Qed.

Lemma den_window : forall h s full e, den h s full -> In e full -> in_window h (fst e) = true.
Proof.
  intros h s. induction s as [t|st f u IH|u IH|rms u IH|mf r u IH]; intros full e HD He; cbn [den] in HD.
  - destruct HD as [_ ->]. apply in_window_filter in He. tauto.
  - destruct HD as (uf & p & HD & _ & ->). apply filter_In in He. eapply IH; [exact HD|tauto].
  - eapply IH; eauto.
  - destruct HD as (uf & HD & _ & ->). apply filter_In in He. eapply IH; [exact HD|tauto].
  - destruct HD as (uf & HD & _ & _ & ->). apply in_map_iff in He. destruct He as (x & <- & Hx). rewrite fst_join_fn. eapply IH; eauto.
Qed.

Lemma removed_in_window : forall h rms e, in_window h (fst e) = true ->
  (removed_by h rms e = true <-> exists t, In t rms /\ has_key (fst e) t).
Proof.
  intros h rms e HW. unfold removed_by. rewrite existsb_exists. split.
  - intros (t & Ht & H). apply key_in_true in H. destruct H as (v & H). apply in_window_filter in H. exists t. split; [exact Ht|]. exists v. tauto.
  - intros (t & Ht & v & H). exists t. split; [exact Ht|]. apply key_in_true. exists v. apply in_window_filter. auto.
Qed.

Lemma fate_remove : forall q mn mx, fate_for q (Some (mn, mx)) = Remove ->
  (q_do_tfa q = true /\ mx < q_tfa q) \/ (q_do_tlb q = true /\ q_tlb q < mn).
Proof.
  intros q mn mx. unfold fate_for. destruct (q_do_tfa q && (mx <? q_tfa q)) eqn:A; [left; apply andb_prop in A; rewrite N.ltb_lt in A; exact A|].
  destruct (q_do_tla q && (mx <? q_tla q)); [discriminate|].
  destruct (q_do_tlb q && (q_tlb q <? mn)) eqn:B; [right; apply andb_prop in B; rewrite N.ltb_lt in B; exact B|].
  destruct (q_do_tfb q && negb (q_do_tla q) && (q_tfb q <? mn)); discriminate.
Qed.
Lemma fate_fill : forall q mn mx, fate_for q (Some (mn, mx)) = Fill ->
  (q_do_tla q = true /\ mx < q_tla q) \/ (q_do_tfb q = true /\ q_do_tla q = false /\ q_tfb q < mn).
Proof.
  intros q mn mx. unfold fate_for. destruct (q_do_tfa q && (mx <? q_tfa q)); [discriminate|].
  destruct (q_do_tla q && (mx <? q_tla q)) eqn:A; [left; apply andb_prop in A; rewrite N.ltb_lt in A; exact A|].
  destruct (q_do_tlb q && (q_tlb q <? mn)); [discriminate|].
  destruct (q_do_tfb q && negb (q_do_tla q) && (q_tfb q <? mn)) eqn:B; [right|discriminate].
  apply andb_prop in B. destruct B as [B C]. apply andb_prop in B. destruct B as [B D]. apply negb_true_iff in D. apply N.ltb_lt in C. auto.
Qed.

Section Core.
  Variables (q : query) (files : list table) (l : list (fate * table)) (Tk Tf Ta : table).
  Hypothesis HOK : Forall file_ok files.
  Hypothesis HL : map snd l = files.
  Hypothesis HFate : Forall (fun p => exists r, time_range (snd p) r /\ fst p = fate_for q r) l.
  Hypothesis Mk : merged_from (files_with Keep l) Tk.
  Hypothesis Mf : merged_from (files_with Fill l) Tf.
  Hypothesis Ma : merged_from files Ta.

  Lemma with_in_files : forall x f, In f (files_with x l) -> In f files.
  Proof. intros x f H. apply files_with_in in H. rewrite <- HL. apply in_map_iff. exists (x, f). auto. Qed.

  (** What a file of some fate stores. *)
  Lemma with_obs : forall x f k v, In f (files_with x l) -> In (k, v) f -> timed_key k ->
    exists o, seen_as v o /\ o_first o <= o_last o /\
      (x = Remove -> (q_do_tfa q = true /\ o_last o < q_tfa q) \/ (q_do_tlb q = true /\ q_tlb q < o_first o)) /\
      (x = Fill -> (q_do_tla q = true /\ o_last o < q_tla q) \/ (q_do_tfb q = true /\ q_do_tla q = false /\ q_tfb q < o_first o)).
  Proof.
    intros x f k v Hf Hin Hk. pose proof (with_in_files x f Hf) as HIn. rewrite Forall_forall in HOK. destruct (HOK f HIn) as (HS & r & HR & HO).
    destruct (HO k v Hin Hk) as (o & H1 & H2 & H3 & H4). exists o. split; [split; assumption|]. split; [exact H3|].
    apply files_with_in in Hf. rewrite Forall_forall in HFate. destruct (HFate _ Hf) as (r' & HR' & Ex). cbn [fst snd] in *.
    rewrite (time_range_fun f r' r HS HR' HR) in Ex. destruct r as [[mn mx]|].
    - destruct H4 as [H4 H5]. split; intros ->.
      + destruct (fate_remove q mn mx (eq_sym Ex)) as [(D & C)|(D & C)]; [left|right]; (split; [exact D|lia]).
      + destruct (fate_fill q mn mx (eq_sym Ex)) as [(D & C)|(D & D' & C)]; [left|right]; repeat (split; [assumption|]); lia.
    - split; intros ->; discriminate Ex.
  Qed.

  Lemma observed_with : forall x k, timed_key k -> observed k (files_with x l).
  Proof. intros x k Hk f v Hf Hin. destruct (with_obs x f k v Hf Hin Hk) as (o & H & _). eauto. Qed.
  Lemma observed_all : forall k, timed_key k -> observed k files.
  Proof.
    intros k Hk f v Hf Hin. rewrite Forall_forall in HOK. destruct (HOK f Hf) as (HS & r & HR & HO).
    destruct (HO k v Hin Hk) as (o & H1 & H2 & _). exists o. split; assumption.
  Qed.

  Lemma in_some_with : forall f, In f files -> exists x, In f (files_with x l).
  Proof.
    intros f Hf. rewrite <- HL in Hf. apply in_map_iff in Hf. destruct Hf as ([x g] & E & H). cbn in E. subst g. exists x. apply files_with_in. exact H.
  Qed.

  Lemma key_kept_all : forall k, has_key k Tk -> has_key k Ta.
  Proof.
    intros k H. destruct Mk as (_ & HK & _). destruct Ma as (_ & HA & _). apply HK in H. destruct H as (f & Hf & Hh).
    apply HA. exists f. split; [eapply with_in_files; eauto|exact Hh].
  Qed.

  (** A key within the fence is in no removed file. *)
  Lemma fence_not_removed : forall k v o, timed_key k -> In (k, v) Ta -> seen_as v o -> in_fence q o ->
    forall f, In f (files_with Remove l) -> ~ has_key k f.
  Proof.
    intros k v o Hk Hin Hs (F1 & F2 & F3 & F4) f Hf (v' & Hv').
    destruct (merged_obs k files Ta v Hk (observed_all k Hk) Ma Hin) as (o1 & Hs1 & _ & _ & HB).
    rewrite (seen_fun v o1 o Hs1 Hs) in HB.
    destruct (with_obs Remove f k v' Hf Hv' Hk) as (o' & Hs' & Hle & HRm & _).
    destruct (HB f v' o' (with_in_files _ _ Hf) Hv' Hs') as (B1 & B2).
    destruct (HRm eq_refl) as [(D & C)|(D & C)]; [specialize (F1 D)|specialize (F4 D)]; lia.
  Qed.

  (** Such a key is in a kept file, and what the kept files say of it passes the first filter. *)
  Lemma fence_kept : forall k v o, timed_key k -> In (k, v) Ta -> seen_as v o -> in_fence q o ->
    exists v' o', In (k, v') Tk /\ seen_as v' o' /\ prefence q o' = true.
  Proof.
    intros k v o Hk Hin Hs HF. pose proof (fence_not_removed k v o Hk Hin Hs HF) as HNR. destruct HF as (F1 & F2 & F3 & F4).
    destruct (merged_obs k files Ta v Hk (observed_all k Hk) Ma Hin) as (o1 & Hs1 & (f1 & v1 & p1 & A1 & A2 & A3 & A4) & (f2 & v2 & p2 & B1 & B2 & B3 & B4) & HB).
    rewrite (seen_fun v o1 o Hs1 Hs) in *. clear o1 Hs1.
    (* a kept file has the key: one that gives its last, or its first time *)
    assert (HKeep : exists f v0 p, In f (files_with Keep l) /\ In (k, v0) f /\ seen_as v0 p /\
      (q_do_tla q = true -> q_tla q <= o_last p) /\ (q_do_tla q = false -> q_do_tfb q = true -> o_first p <= q_tfb q)).
    { destruct (q_do_tla q) eqn:DL.
      - destruct (in_some_with f2 B1) as (x & Hx). destruct (with_obs x f2 k v2 Hx B2 Hk) as (p & Hp & Hle & HRm & HFl).
        rewrite (seen_fun v2 p p2 Hp B3) in *. destruct x.
        + exists f2, v2, p2. specialize (F3 eq_refl). do 3 (split; [assumption|]). split; [intros _; lia|intro; congruence].
        + exfalso. destruct (HFl eq_refl) as [(_ & C)|(_ & C & _)]; [specialize (F3 eq_refl); lia|congruence].
        + exfalso. apply (HNR f2 Hx). exists v2. exact B2.
      - destruct (in_some_with f1 A1) as (x & Hx). destruct (with_obs x f1 k v1 Hx A2 Hk) as (p & Hp & Hle & HRm & HFl).
        rewrite (seen_fun v1 p p1 Hp A3) in *. destruct x.
        + exists f1, v1, p1. do 3 (split; [assumption|]). split; [intro; congruence|]. intros _ D. specialize (F2 D). lia.
        + exfalso. destruct (HFl eq_refl) as [(C & _)|(C & _ & D)]; [congruence|specialize (F2 C); lia].
        + exfalso. apply (HNR f1 Hx). exists v1. exact A2. }
    destruct HKeep as (f & v0 & p & Hf & Hv0 & Hp & HP1 & HP2).
    assert (HK : has_key k Tk) by (apply Mk; exists f; split; [exact Hf|exists v0; exact Hv0]).
    destruct HK as (v' & Hv'). destruct (merged_obs k (files_with Keep l) Tk v' Hk (observed_with Keep k Hk) Mk Hv') as (o' & Hs' & (f3 & v3 & p3 & C1 & C2 & C3 & C4) & (f4 & v4 & p4 & D1 & D2 & D3 & D4) & HB').
    exists v', o'. split; [exact Hv'|]. split; [exact Hs'|].
    destruct (HB' f v0 p Hf Hv0 Hp) as (E1 & E2).
    destruct (HB f3 v3 p3 (with_in_files _ _ C1) C2 C3) as (G1 & _). destruct (HB f4 v4 p4 (with_in_files _ _ D1) D2 D3) as (_ & G2).
    unfold prefence, strict_fence. rewrite !andb_true_iff, !negb_true_iff, orb_true_iff, negb_true_iff.
    destruct (q_do_tfa q), (q_do_tlb q), (q_do_tla q), (q_do_tfb q); cbn [andb];
      repeat match goal with H : true = true -> _ |- _ => specialize (H eq_refl) | H : false = false -> _ |- _ => specialize (H eq_refl) end;
      repeat split; try reflexivity; try (apply N.ltb_ge; lia); first [left; reflexivity | left; apply N.ltb_ge; lia | right; reflexivity].
  Qed.

  (** Kept and fill files together say of a key what all files say, if no removed file has it. *)
  Lemma joined_value : forall k v vk, timed_key k -> In (k, v) Ta -> In (k, vk) Tk ->
    (forall f, In f (files_with Remove l) -> ~ has_key k f) ->
    match lookup k Tf with Some vf => merge_func k vk vf = Ok v | None => vk = v end.
  Proof.
    intros k v vk Hk Hin Hkin HNR.
    pose proof Hk as (b & rest & Ek & Hb).
    assert (Hb' : b = ENTRY_TYPE_RRSET \/ b = ENTRY_TYPE_RDATA) by (destruct Hb; [left|right]; assumption).
    destruct Ma as (SA & HA & VA). destruct (VA k v Hin) as (ta & Pa & Ea).
    destruct Mk as (SK & HK & VK). destruct (VK k vk Hkin) as (tk & Pk & Ek').
    destruct Mf as (SF & HFk & VF).
    assert (PV : Permutation (values_of k files) (values_of k (files_with Keep l) ++ values_of k (files_with Fill l))).
    { rewrite <- HL at 1. rewrite (values_perm k _ _ (files_with_perm l)), !values_app.
      rewrite (values_nil k (files_with Remove l) HNR), app_nil_r. reflexivity. }
    pose proof (observed_values k files (observed_all k Hk)) as HOA.
    destruct (lookup k Tf) as [vf|] eqn:EL.
    - assert (Hf : In (k, vf) Tf).
      { destruct (key_in k Tf) eqn:KI; [apply key_in_true in KI; destruct KI as (x & Hx); rewrite (lookup_some k x Tf SF Hx) in EL; congruence|].
        apply key_in_false in KI. rewrite (lookup_none k Tf KI) in EL. discriminate. }
      destruct (VF k vf Hf) as (tf & Pf & Ef).
      assert (EN : meval k (MNode tk tf) = merge_func k vk vf) by (cbn [meval]; rewrite Ek', Ef; reflexivity).
      rewrite <- EN, <- Ea. rewrite Ek. apply (merge_order_independent b rest (MNode tk tf) ta Hb').
      + cbn [mleaves]. rewrite Pk, Pf, Pa. symmetry. exact PV.
      + rewrite Forall_forall in *. intros x Hx. apply HOA. cbn [mleaves] in Hx. rewrite Pk, Pf in Hx.
        apply (Permutation_in _ (Permutation_sym PV)). exact Hx.
    - assert (HNF : forall f, In f (files_with Fill l) -> ~ has_key k f).
      { intros f Hf Hh. assert (X : has_key k Tf) by (apply HFk; eauto). destruct X as (x & Hx). rewrite (lookup_some k x Tf SF Hx) in EL. discriminate. }
      rewrite (values_nil k _ HNF), app_nil_r in PV.
      assert (E : meval (b :: rest) tk = meval (b :: rest) ta).
      { apply (merge_order_independent b rest tk ta Hb'); [rewrite Pk, Pa; symmetry; exact PV|].
        rewrite Forall_forall in *. intros x Hx. apply HOA. apply (Permutation_in _ (Permutation_sym PV)). apply (Permutation_in _ Pk). exact Hx. }
      rewrite <- Ek in E. congruence.
  Qed.

  Variables (h : how) (src : source) (P Pa : kv -> bool).
  Hypothesis HT : has_time_bound q = true.
  Hypothesis HP : picks h src P Tk.
  Hypothesis HPk : forall e, In e Tk -> P e = true -> timed_key (fst e).
  Hypothesis HPa : forall e, In e Ta -> Pa e = true -> timed_key (fst e).
  Hypothesis HPP : forall k v v', In (k, v) Tk -> In (k, v') Ta -> P (k, v) = Pa (k, v').

  Lemma time_filters : forall (e : kv) o, seen_as (snd e) o ->
    matched (time_res q true (snd e)) = prefence q o /\ matched (time_res q false (snd e)) = fence q o.
  Proof. intros e o (A & B). destruct (time_res_obs q o (snd e) A B) as [-> ->]. rewrite !matched_yes_no. auto. Qed.

  Lemma fenced_den :
    den h (stackF q {| f_remove := if q_do_tfa q || q_do_tlb q then Some (files_with Remove l) else None; f_fill := Some Tf |} src)
      (filter (fun e => Pa e && timep q e) Ta).
  Proof.
    unfold stackF. rewrite HT. cbn [f_remove f_fill].
    set (u1 := filter (fun e : kv => P e && matched (time_res q true (snd e))) Tk).
    assert (OBk : forall e, In e Tk -> P e = true -> exists o, seen_as (snd e) o).
    { intros [k v] He Pe. destruct (merged_obs k _ Tk v (HPk _ He Pe) (observed_with Keep k (HPk _ He Pe)) Mk He) as (o & Ho & _). eauto. }
    assert (D1 : den h (SFilter StTimePrefilter (filter_time_prefilter q) src) u1).
    { apply picks_filter; [exact HP|]. apply (decided_good _ (fun e => time_res q true (snd e))); [reflexivity|].
      intros e He. apply filter_In in He. destruct He as [He Pe]. destruct (OBk e He Pe) as (o & A & B).
      destruct (time_res_obs q o (snd e) A B) as [_ ->]. apply yes_no_decided. }
    set (u2 := filter (fun e => negb (removed_by h (files_with Remove l) e)) u1).
    assert (SR : Forall strict (files_with Remove l)).
    { apply Forall_forall. intros f Hf. rewrite Forall_forall in HOK. apply HOK. eapply with_in_files; eauto. }
    assert (D2 : den h (match (if q_do_tfa q || q_do_tlb q then Some (files_with Remove l) else None) with
        | Some r => SRemove r (SFilter StTimePrefilter (filter_time_prefilter q) src)
        | None => SFilter StTimePrefilter (filter_time_prefilter q) src end) u2).
    { destruct (q_do_tfa q || q_do_tlb q) eqn:ED.
      - exists u1. split; [exact D1|]. split; [exact SR|reflexivity].
      - assert (EN : files_with Remove l = []).
        { destruct (files_with Remove l) as [|f fs] eqn:E; [reflexivity|]. exfalso.
          assert (Hf : In f (files_with Remove l)) by (rewrite E; left; reflexivity). apply files_with_in in Hf.
          rewrite Forall_forall in HFate. destruct (HFate _ Hf) as (r & _ & Ex). cbn [fst] in Ex. destruct r as [[mn mx]|]; [|discriminate Ex].
          apply orb_false_iff in ED. destruct ED as [E1 E2]. destruct (fate_remove q mn mx (eq_sym Ex)) as [[X _]|[X _]]; congruence. }
        assert (E2 : u2 = u1).
        { unfold u2. rewrite EN. clear. unfold removed_by. cbn [existsb negb]. induction u1 as [|e u IH]; [reflexivity|]. cbn [filter]. rewrite IH. reflexivity. }
        rewrite E2. exact D1. }
    assert (U2 : forall e, In e u2 <-> In e Tk /\ P e = true /\ matched (time_res q true (snd e)) = true /\ (forall f, In f (files_with Remove l) -> ~ has_key (fst e) f)).
    { intro e. unfold u2. rewrite filter_In. split.
      - intros [H1 H2]. pose proof (den_window h _ _ _ D1 H1) as HW. unfold u1 in H1. apply filter_In in H1. destruct H1 as [H1 H3]. apply andb_prop in H3.
        split; [exact H1|]. split; [tauto|]. split; [tauto|]. intros f Hf Hh. assert (C : removed_by h (files_with Remove l) e = true) by (apply removed_in_window; eauto).
        rewrite C in H2. discriminate.
      - intros (H1 & H2 & H3 & H4). assert (HI : In e u1) by (apply filter_In; rewrite H2, H3; auto). split; [exact HI|].
        destruct (removed_by h (files_with Remove l) e) eqn:C; [|reflexivity]. apply removed_in_window in C; [|exact (den_window h _ _ _ D1 HI)].
        destruct C as (f & Hf & Hh). exfalso. exact (H4 f Hf Hh). }
    assert (JV : forall e, In e u2 -> exists v, In (fst e, v) Ta /\ join_fn merge_func (window h Tf) e = (fst e, v) /\
       (forall rv, In (fst e, rv) (window h Tf) -> exists m, merge_func (fst e) (snd e) rv = Ok m)).
    { intros [k vk] He. pose proof (den_window h _ _ _ D2 He) as HW. apply U2 in He. destruct He as (H1 & H2 & H3 & H4). cbn [fst snd] in *.
      destruct (key_kept_all k) as (v & Hv); [exists vk; exact H1|]. exists v. split; [exact Hv|].
      pose proof (joined_value k v vk (HPk _ H1 H2) Hv H1 H4) as HJ.
      assert (EL : lookup k (window h Tf) = lookup k Tf).
      { assert (SF : strict Tf) by apply Mf. destruct (key_in k Tf) eqn:KI.
        - apply key_in_true in KI. destruct KI as (x & Hx). rewrite (lookup_some k x Tf SF Hx).
          apply lookup_some; [apply strict_window; exact SF|]. apply in_window_filter. split; [exact Hx|exact HW].
        - apply key_in_false in KI. rewrite (lookup_none k Tf KI). apply lookup_none. intros (x & Hx). apply in_window_filter in Hx. apply KI. exists x. tauto. }
      split.
      - unfold join_fn. cbn [fst snd]. rewrite EL. destruct (lookup k Tf) as [vf|]; [rewrite HJ; reflexivity|congruence].
      - intros rv Hrv. rewrite (lookup_some k rv (window h Tf)) in EL; [|apply strict_window; apply Mf|exact Hrv]. rewrite <- EL in HJ. eauto. }
    set (u3 := map (join_fn merge_func (window h Tf)) u2).
    match goal with |- context [SLjoin merge_func Tf ?s] => set (s2 := s) in * end.
    assert (D3 : den h (SLjoin merge_func Tf s2) u3).
    { exists u2. split; [exact D2|]. split; [apply Mf|]. split; [|reflexivity].
      intros k v rv Hin Hrv. destruct (JV _ Hin) as (_ & _ & _ & HM). apply HM. exact Hrv. }
    assert (S2 : strict u2) by (apply strict_filter, strict_filter; apply Mk).
    assert (OBa : forall e, In e Ta -> timed_key (fst e) -> exists o, seen_as (snd e) o).
    { intros [k v] He Hk. destruct (merged_obs k files Ta v Hk (observed_all k Hk) Ma He) as (o & Ho & _). eauto. }
    assert (U3 : forall e, In e u3 <-> exists vk, In (fst e, vk) u2 /\ In e Ta).
    { intros [k v]. unfold u3. rewrite in_map_iff. cbn [fst]. split.
      - intros ([k' vk] & E & H). destruct (JV _ H) as (v' & Hv' & EJ & _). cbn [fst] in *. rewrite EJ in E. injection E as -> ->. eauto.
      - intros (vk & H1 & H2). exists (k, vk). split; [|exact H1]. destruct (JV _ H1) as (v' & Hv' & EJ & _). cbn [fst] in *.
        rewrite EJ. f_equal. assert (X : (k, v') = (k, v)) by (apply (strict_same Ta); auto; apply Ma). congruence. }
    exists u3, (fun e => matched (time_res q false (snd e))). split; [exact D3|]. split.
    { apply (decided_good _ (fun e => time_res q false (snd e))); [reflexivity|]. intros [k v] He. apply U3 in He. destruct He as (vk & H1 & H2).
      apply U2 in H1. destruct H1 as (G1 & G2 & _). cbn [fst] in *. destruct (OBa (k, v) H2 (HPk (k, vk) G1 G2)) as (o & A & B). cbn [snd] in *.
      destruct (time_res_obs q o v A B) as [-> _]. apply yes_no_decided. }
    symmetry. apply strict_eq.
    - apply strict_filter. apply strict_map_join. exact S2.
    - apply strict_filter. apply Ma.
    - intros [k v]. rewrite !filter_In. cbn [snd]. split.
      + intros (H & HF). apply U3 in H. destruct H as (vk & H1 & H2). apply U2 in H1. cbn [fst snd] in *. destruct H1 as (G1 & G2 & G3 & G4).
        split; [exact H2|]. rewrite <- (HPP k vk v G1 H2), G2. cbn [andb]. destruct (OBa (k, v) H2 (HPk (k, vk) G1 G2)) as (o & A & B).
        apply (timep_spec q (k, v) o A B). apply fence_spec. rewrite <- HF. symmetry. exact (proj2 (time_filters (k, v) o (conj A B))).
      + intros (H & HB). apply andb_prop in HB. destruct HB as [HB1 HB2]. pose proof (HPa (k, v) H HB1) as Hk. cbn [fst] in Hk.
        destruct (OBa (k, v) H Hk) as (o & A & B). apply (timep_spec q (k, v) o A B) in HB2.
        destruct (fence_kept k v o Hk H (conj A B) HB2) as (vk & ok & I1 & I2 & I3).
        split.
        * apply U3. exists vk. split; [|exact H]. apply U2. cbn [fst snd]. split; [exact I1|]. split; [rewrite (HPP k vk v I1 H); exact HB1|].
          split; [exact (eq_trans (proj1 (time_filters (k, vk) ok I2)) I3)|]. exact (fence_not_removed k v o Hk H (conj A B) HB2).
        * pose proof (proj2 (time_filters (k, v) o (conj A B))) as E. cbn [snd] in E. rewrite E. apply fence_spec. exact HB2.
  Qed.
End Core.
