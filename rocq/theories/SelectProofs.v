(** From filtered tables to selected records. *)
From Verif Require Import Base BaseFacts ModelVarint VarintProofs SpecMerge MergeProofs ModelWdns SpecName NameFacts.
From Verif Require Import ModelEntry SpecEntry EntryProofs PropsEntry ModelUnion ModelIter SpecIter IterProofs ModelQuery SpecQuery KeyProofs FilterProofs QueryProofs.

(** ** Records and the first byte of their keys *)

Definition first_byte (e : kv) : N := hd 0 (fst e).

Lemma encodes_first : forall r e, encodes r e ->
  match r with
  | RRset _ _ _ _ _ => first_byte e = 0
  | RData _ _ _ _ _ => first_byte e = 2
  | OwnerIndex _ _ => first_byte e = 1
  | RdataIndex _ _ => first_byte e = 3
  | Other _ _ => 4 <= first_byte e
  end /\ fst e <> [].
Proof.
  intros r e (_ & H). unfold first_byte. destruct r.
  - destruct H as (_ & _ & _ & _ & (t & rd & _ & _ & ->) & _). split; [reflexivity|discriminate].
  - destruct H as (_ & _ & _ & _ & (t & _ & ->) & _). split; [reflexivity|discriminate].
  - destruct H as (_ & ->). split; [reflexivity|discriminate].
  - destruct H as (_ & ->). split; [reflexivity|discriminate].
  - destruct H as (-> & t & rest & -> & Ht). split; [exact Ht|discriminate].
Qed.

Lemma prefix_first : forall T K e, is_prefix (T :: K) (fst e) = true -> first_byte e = T.
Proof.
  intros T K e H. unfold first_byte. destruct (fst e) as [|x l]; [discriminate|]. cbn in *.
  apply andb_prop in H. destruct H as [H _]. apply N.eqb_eq in H. auto.
Qed.

Lemma in_encodes : forall recs t e, Forall2 encodes recs t -> In e t -> exists r, In r recs /\ encodes r e.
Proof.
  intros recs t e H. induction H as [|r x recs t H HF IH]; intros Hin; [destruct Hin|].
  destruct Hin as [->|Hin]; [exists r; split; [left; auto|auto]|]. destruct (IH Hin) as (r' & A & B).
  exists r'. split; [right; auto|auto].
Qed.

Lemma encodes_in : forall recs t r, Forall2 encodes recs t -> In r recs -> exists e, In e t /\ encodes r e.
Proof.
  intros recs t r H. induction H as [|r' x recs t H HF IH]; intros Hin; [destruct Hin|].
  destruct Hin as [->|Hin]; [exists x; split; [left; auto|auto]|]. destruct (IH Hin) as (e & A & B).
  exists e. split; [right; auto|auto].
Qed.

Lemma rrset_of : forall recs t e, Forall2 encodes recs t -> In e t -> first_byte e = 0 ->
  exists ow ty bw rs o, In (RRset ow ty bw rs o) recs /\ encodes (RRset ow ty bw rs o) e.
Proof.
  intros recs t e H Hin HB. destruct (in_encodes _ _ _ H Hin) as (r & Hr & He).
  pose proof (encodes_first r e He) as [HF _]. destruct r; try (rewrite HF in HB; discriminate); [eauto 10|lia].
Qed.
Lemma rdata_of : forall recs t e, Forall2 encodes recs t -> In e t -> first_byte e = 2 ->
  exists ow ty head tail o, In (RData ow ty head tail o) recs /\ encodes (RData ow ty head tail o) e.
Proof.
  intros recs t e H Hin HB. destruct (in_encodes _ _ _ H Hin) as (r & Hr & He).
  pose proof (encodes_first r e He) as [HF _]. destruct r; try (rewrite HF in HB; discriminate); [eauto 10|lia].
Qed.
Lemma owner_index_of : forall recs t e, Forall2 encodes recs t -> In e t -> first_byte e = 1 ->
  exists ow m, In (OwnerIndex ow m) recs /\ encodes (OwnerIndex ow m) e.
Proof.
  intros recs t e H Hin HB. destruct (in_encodes _ _ _ H Hin) as (r & Hr & He).
  pose proof (encodes_first r e He) as [HF _]. destruct r; try (rewrite HF in HB; discriminate); [eauto 10|lia].
Qed.
Lemma rdata_index_of : forall recs t e, Forall2 encodes recs t -> In e t -> first_byte e = 3 ->
  exists n m, In (RdataIndex n m) recs /\ encodes (RdataIndex n m) e.
Proof.
  intros recs t e H Hin HB. destruct (in_encodes _ _ _ H Hin) as (r & Hr & He).
  pose proof (encodes_first r e He) as [HF _]. destruct r; try (rewrite HF in HB; discriminate); [eauto 10|lia].
Qed.

Lemma bytes_ok_in : forall recs t e, Forall2 encodes recs t -> In e t -> bytes_ok (fst e).
Proof. intros recs t e H Hin. destruct (in_encodes _ _ _ H Hin) as (r & _ & He & _). exact He. Qed.

(** ** Selection *)

Lemma select_filter : forall P (M : record -> Prop) recs t, Forall2 encodes recs t ->
  (forall r e, In r recs -> encodes r e -> (P e = true <-> M r)) ->
  exists out, selects M recs out /\ Forall2 encodes out (filter P t).
Proof.
  intros P M recs t H. induction H as [|r e recs t H HF IH]; intro HM.
  - exists []. split; constructor.
  - destruct IH as (out & S & F); [intros; apply HM; auto; right; auto|].
    specialize (HM r e (or_introl eq_refl) H). cbn [filter]. destruct (P e).
    + exists (r :: out). split; [apply sel_yes; [tauto|auto]|constructor; auto].
    + exists out. split; [apply sel_no; [|auto]|auto]. intro C. apply HM in C. discriminate.
Qed.

Lemma selects_in : forall A (P : A -> Prop) l m, selects P l m -> forall x, In x m -> In x l /\ P x.
Proof.
  intros A P l m H. induction H as [|a l m HP H IH|a l m HP H IH]; intros x Hx.
  - destruct Hx.
  - destruct Hx as [->|Hx]; [split; [left; auto|auto]|]. destruct (IH x Hx). split; [right; auto|auto].
  - destruct (IH x Hx). split; [right; auto|auto].
Qed.

Lemma selects_all : forall A (P : A -> Prop) l m, selects P l m -> forall x, In x l -> P x -> In x m.
Proof.
  intros A P l m H. induction H as [|a l m HP H IH|a l m HP H IH]; intros x Hx Px; auto.
  - destruct Hx as [->|Hx]; [left; auto|right; auto].
  - destruct Hx as [->|Hx]; [contradiction|auto].
Qed.

Definition shown (r : record) : Prop := match r with RRset _ _ _ _ _ | RData _ _ _ _ _ => True | _ => False end.

Lemma decode_shows : forall r e, encodes r e -> shown r -> exists en, entry_decode (fst e) (snd e) = Ok en /\ shows r en.
Proof.
  intros r e HE HS. pose proof HE as (_ & H). destruct r as [ow ty bw rs o|ow ty hd tl o| | |]; try contradiction.
  - destruct H as (A & B & C & D & E & F). destruct (decode_rrset_entry ow ty bw rs o _ _ A B C D E F) as (en & X & Y).
    exists en. split; [exact X|]. split; [exact Y|exists e; split; [exact HE|exact X]].
  - destruct H as (A & B & C & D & E & F). destruct (decode_rdata_entry ow ty hd tl o _ _ A B C D E F) as (en & X & Y).
    exists en. split; [exact X|]. split; [exact Y|exists e; split; [exact HE|exact X]].
Qed.

Lemma decode_all : forall out t, Forall2 encodes out t -> Forall shown out ->
  exists es, decodes t es /\ Forall2 shows out es.
Proof.
  intros out t H. induction H as [|r e out t H HF IH]; intro HS.
  - exists []. split; constructor.
  - inversion HS as [|? ? S1 S2]; subst. destruct (IH S2) as (es & A & B). destruct (decode_shows r e H S1) as (en & C & D).
    exists (en :: es). split; constructor; auto.
Qed.

(** ** Filtered sources *)

Definition picks (h : how) (s : source) (P : kv -> bool) (t : table) : Prop := den h s (filter P t).

Lemma filter_and : forall (p q : kv -> bool) t, filter q (filter p t) = filter (fun e => p e && q e) t.
Proof.
  intros p q t. induction t as [|e t IH]; [reflexivity|]. cbn [filter]. destruct (p e); cbn [filter andb]; [|exact IH].
  destruct (q e); rewrite IH; reflexivity.
Qed.

Lemma picks_ext : forall h s P Q t, (forall e, In e t -> P e = Q e) -> picks h s P t -> picks h s Q t.
Proof. intros h s P Q t E H. unfold picks. rewrite <- (filter_ext_in P Q t E). exact H. Qed.

Lemma picks_base : forall h t, sorted t -> picks h (SBase t) (fun e => in_window h (fst e)) t.
Proof. intros h t S. split; [exact S|reflexivity]. Qed.

Lemma picks_base_t : forall h (c : bool) t, sorted t ->
  picks h (if c then STimeout (SBase t) else SBase t) (fun e => in_window h (fst e)) t.
Proof. intros h c t S. destruct c; split; auto. Qed.

Lemma picks_filter : forall h s P t st f p, picks h s P t -> good_filter f p (filter P t) ->
  picks h (SFilter st f s) (fun e => P e && p e) t.
Proof. intros h s P t st f p H G. exists (filter P t), p. split; [exact H|]. split; [exact G|]. symmetry. apply filter_and. Qed.

Lemma picks_cond : forall h s P t c st f p, picks h s P t -> (c = true -> good_filter f p (filter P t)) ->
  picks h (filter_set_cond c st f s) (fun e => P e && (negb c || p e)) t.
Proof.
  intros h s P t c st f p H G. unfold filter_set_cond. destruct c; cbn [negb orb].
  - apply picks_filter; auto.
  - eapply picks_ext; [|exact H]. intros e _. cbn. rewrite andb_true_r. reflexivity.
Qed.

Definition decided (r : fres) : Prop := r = FMatch \/ r = FSkip.
Lemma yes_no_decided : forall b, decided (yes_no b).
Proof. intros [|]; [left|right]; reflexivity. Qed.
Lemma matched_yes_no : forall b, matched (yes_no b) = b.
Proof. intros [|]; reflexivity. Qed.

Lemma decided_good : forall (f : filter_fn) (g : kv -> fres) t,
  (forall w k v, f w k v = (g (k, v), w)) -> (forall e, In e t -> decided (g e)) ->
  good_filter f (fun e => matched (g e)) t.
Proof.
  intros f g t Hf Hd. apply (plain_good f g); [exact Hf|]. intros e He. destruct (Hd e He) as [-> | ->]; reflexivity.
Qed.

(** ** Time fencing *)

Definition stack0 (q : query) (src : source) : source :=
  if has_time_bound q then SFilter StTime (filter_time q) (SFilter StTimePrefilter (filter_time_prefilter q) src) else src.

Lemma stack_no_fence : forall q src, stack_filters q no_fence src = with_offset q (stack0 q src).
Proof. intros q src. unfold stack_filters, stack0, with_offset, filter_set_cond. cbn. destruct (has_time_bound q); reflexivity. Qed.

Definition timep (q : query) (e : kv) : bool :=
  negb (has_time_bound q) || (matched (time_res q true (snd e)) && matched (time_res q false (snd e))).

Definition timed_entry (e : kv) : Prop := exists o, obs_ok o /\ obs_value o (snd e).

Lemma timep_spec : forall q e o, obs_ok o -> obs_value o (snd e) -> (timep q e = true <-> in_fence q o).
Proof.
  intros q e o Ho Hv. unfold timep. destruct (time_res_obs q o (snd e) Ho Hv) as [-> ->]. rewrite !matched_yes_no.
  rewrite <- fence_spec. destruct (has_time_bound q) eqn:EB; cbn [negb orb].
  - rewrite andb_true_iff. split; [tauto|]. intro H. split; [apply fence_prefence|]; exact H.
  - split; [|reflexivity]. intros _. unfold has_time_bound in EB. apply orb_false_iff in EB. destruct EB as [EB D].
    apply orb_false_iff in EB. destruct EB as [EB C]. apply orb_false_iff in EB. destruct EB as [A B].
    unfold fence, strict_fence. rewrite A, B, C, D. reflexivity.
Qed.

Lemma picks_stack : forall h s P q t, picks h s P t -> (forall e, In e t -> P e = true -> timed_entry e) ->
  picks h (stack0 q s) (fun e => P e && timep q e) t.
Proof.
  intros h s P q t H HT. unfold stack0, timep. destruct (has_time_bound q); cbn [negb orb].
  - apply (picks_ext _ _ (fun e => (P e && matched (time_res q true (snd e))) && matched (time_res q false (snd e)))).
    { intros e _. rewrite andb_assoc. reflexivity. }
    apply picks_filter.
    + apply picks_filter; [exact H|]. apply (decided_good _ (fun e => time_res q true (snd e))); [reflexivity|].
      intros e He. apply filter_In in He. destruct He as [He Pe]. destruct (HT e He Pe) as (o & Ho & Hv).
      destruct (time_res_obs q o (snd e) Ho Hv) as [_ ->]. apply yes_no_decided.
    + apply (decided_good _ (fun e => time_res q false (snd e))); [reflexivity|].
      intros e He. apply filter_In in He. destruct He as [He Pe]. apply andb_prop in Pe. destruct Pe as [Pe _].
      destruct (HT e He Pe) as (o & Ho & Hv). destruct (time_res_obs q o (snd e) Ho Hv) as [-> _]. apply yes_no_decided.
  - eapply picks_ext; [|exact H]. intros e _. cbn. rewrite andb_true_r. reflexivity.
Qed.

Lemma stack0_timeout : forall q s, src_timeout (stack0 q s) = src_timeout s.
Proof. intros q s. unfold stack0. destruct (has_time_bound q); reflexivity. Qed.
Lemma cond_timeout : forall c st f s, src_timeout (filter_set_cond c st f s) = src_timeout s.
Proof. intros [|] st f s; reflexivity. Qed.
Lemma opt_bw_timeout : forall q s, src_timeout (opt_filter_bailiwick q s) = src_timeout s.
Proof. intros q s. unfold opt_filter_bailiwick. destruct (q_bailiwick q); reflexivity. Qed.
Lemma base_timeout : forall c t, src_timeout (if c : bool then STimeout (SBase t) else SBase t) = c.
Proof. intros [|] t; reflexivity. Qed.

(** ** A direct query as a whole *)

(** What makes a query a single lookup: its key, its source and what that picks. *)
Definition direct_parts (q : query) (t : table) (recs : list record) (M : record -> Prop) P src (K : bytes * option bytes) h : Prop :=
  query_init q (if is_timed q then STimeout (SBase t) else SBase t) (if is_timed q then STimeout (SBase t) else SBase t) =
    Ok {| p_key := fst K; p_key2 := snd K; p_source := src; p_index := None |} /\
  h = match snd K with Some k2 => HRange (fst K) k2 | None => HPrefix (fst K) end /\
  src_timeout src = is_timed q /\
  picks h src P t /\ (forall e, In e t -> P e = true -> timed_entry e) /\
  (forall r e, In r recs -> encodes r e -> (P e && timep q e = true <-> M r)) /\ (forall r, In r recs -> M r -> shown r).
Definition direct_plan (q : query) (t : table) (recs : list record) (M : record -> Prop) : Prop :=
  exists P src K h, direct_parts q t recs M P src K h.

Lemma direct_planned : forall q t recs (M : record -> Prop) P src K h,
  query_init q (if is_timed q then STimeout (SBase t) else SBase t) (if is_timed q then STimeout (SBase t) else SBase t) =
    Ok {| p_key := fst K; p_key2 := snd K; p_source := src; p_index := None |} ->
  h = match snd K with Some k2 => HRange (fst K) k2 | None => HPrefix (fst K) end ->
  src_timeout src = is_timed q ->
  picks h src P t -> (forall e, In e t -> P e = true -> timed_entry e) ->
  (forall r e, In r recs -> encodes r e -> (P e && timep q e = true <-> M r)) -> (forall r, In r recs -> M r -> shown r) ->
  direct_plan q t recs M.
Proof. intros q t recs M P src K h A B C D E F G. exists P, src, K, h. unfold direct_parts. auto 10. Qed.

Lemma direct_returns : forall q t recs M, database recs t -> direct_plan q t recs M -> returns q t recs M.
Proof.
  intros q t recs M [HF HS] (P & src & K & h & HI & Hh & HT & HP & HTE & HM & HSh).
  destruct (select_filter _ M recs t HF HM) as (out & Sel & FE).
  destruct (decode_all out _ FE) as (es & HD & HSw).
  { apply Forall_forall. intros r Hr. destruct (selects_in _ _ _ _ Sel r Hr). auto. }
  exists out, es. split; [exact Sel|]. split; [exact HSw|].
  unfold dnstable_query_iter, query_iter_common. rewrite HI. cbn [bind p_key p_key2 p_source p_index].
  rewrite stack_no_fence.
  eapply (direct_lists q h (stack0 q src) _ es); try reflexivity; cbn [qi_kind].
  - subst h. destruct (snd K); reflexivity.
  - apply picks_stack; eauto.
  - rewrite stack0_timeout, HT. auto.
  - exact HD.
Qed.

(** ** Key prefixes and record fields *)

Lemma rev_eq : forall A (a b : list A), rev a = rev b <-> a = b.
Proof. intros A a b. split; [|congruence]. intro H. rewrite <- (rev_involutive a), H, rev_involutive. reflexivity. Qed.

Lemma rwire_prefix_inj : forall a b x y, Forall label_ok a -> Forall label_ok b ->
  rwire a ++ x = rwire b ++ y -> a = b /\ x = y.
Proof.
  intros a b x y Ha Hb E. unfold rwire in E.
  destruct (wire_prefix_inj (rev a) (rev b) x y (Forall_rev Ha) (Forall_rev Hb) E) as [E1 E2].
  split; [|exact E2]. exact (proj1 (rev_eq _ a b) E1).
Qed.

Lemma prefix_iff : forall p l, is_prefix p l = true <-> exists s, l = p ++ s.
Proof. intros. apply is_prefix_spec. Qed.

Lemma cons_prefix : forall x p l, is_prefix (x :: p) (x :: l) = is_prefix p l.
Proof. intros. cbn. rewrite N.eqb_refl. reflexivity. Qed.

Lemma rrset_prefix_name : forall name ow ty bw rs key, name_ok name -> name_ok ow -> rrset_key ow ty bw rs key ->
  (is_prefix (ENTRY_TYPE_RRSET :: rwire name) key = true <-> ow = name).
Proof.
  intros name ow ty bw rs key [Hn _] [Ho _] (t & rd & _ & _ & ->). rewrite cons_prefix, prefix_iff. split.
  - intros (s & E). apply rwire_prefix_inj in E; auto. tauto.
  - intros ->. eauto.
Qed.

Lemma rrset_prefix_type : forall name T ow ty bw rs key, name_ok name -> name_ok ow -> T < u32 -> rrset_key ow ty bw rs key ->
  (is_prefix (ENTRY_TYPE_RRSET :: rwire name ++ varint_encode32 T) key = true <-> ow = name /\ ty = T).
Proof.
  intros name T ow ty bw rs key [Hn _] [Ho _] HT (t & rd & Ht & _ & ->). rewrite cons_prefix, prefix_iff.
  pose proof (encode32_leb128 T HT) as HL. split.
  - intros (s & E). rewrite <- app_assoc in E. apply rwire_prefix_inj in E; auto. destruct E as [-> E].
    destruct (leb128_prefix_inj _ _ Ht _ _ _ _ HL E) as (-> & _ & _). auto.
  - intros [-> ->]. rewrite (leb128_det _ _ _ Ht HL). exists (rwire bw ++ rd). rewrite <- app_assoc. reflexivity.
Qed.

Lemma rrset_prefix_bailiwick : forall name T b ow ty bw rs key, name_ok name -> name_ok b -> name_ok ow -> name_ok bw -> T < u32 ->
  rrset_key ow ty bw rs key ->
  (is_prefix (ENTRY_TYPE_RRSET :: (rwire name ++ varint_encode32 T) ++ rwire b) key = true <-> ow = name /\ ty = T /\ bw = b).
Proof.
  intros name T b ow ty bw rs key [Hn _] [Hb _] [Ho _] [Hw _] HT (t & rd & Ht & _ & ->). rewrite cons_prefix, prefix_iff.
  pose proof (encode32_leb128 T HT) as HL. split.
  - intros (s & E). rewrite <- !app_assoc in E. apply rwire_prefix_inj in E; auto. destruct E as [-> E].
    destruct (leb128_prefix_inj _ _ Ht _ _ _ _ HL E) as (-> & _ & E2). apply rwire_prefix_inj in E2; auto. tauto.
  - intros (-> & -> & ->). rewrite (leb128_det _ _ _ Ht HL). exists rd. rewrite <- !app_assoc. reflexivity.
Qed.

(** Owners at or below [x]. *)
Lemma rrset_prefix_below : forall x ow ty bw rs key, Forall label_ok x -> name_ok ow -> rrset_key ow ty bw rs key ->
  (is_prefix (ENTRY_TYPE_RRSET :: enc_labels (rev x)) key = true <-> exists y, ow = y ++ x).
Proof.
  intros x ow ty bw rs key Hx [Ho _] (t & rd & _ & _ & ->). rewrite cons_prefix.
  unfold rwire. rewrite enc_prefix by (apply Forall_rev; assumption). split.
  - intros (more & E). exists (rev more). rewrite <- (rev_involutive ow), E, rev_app_distr, rev_involutive. reflexivity.
  - intros (y & ->). exists (rev y). apply rev_app_distr.
Qed.

(** ** Recognising wildcards *)

Lemma left_wild_none : forall name, name_ok name -> not_left_wild name -> is_left_wildcard (wire name) = None.
Proof.
  intros [|l name] [Hn _] H; [reflexivity|]. unfold is_left_wildcard. rewrite wire_cons.
  destruct (Nat.leb 3 _); [|reflexivity]. inversion Hn as [|? ? [Hl _] _]; subst.
  destruct l as [|b l]; [cbn in Hl; lia|]. cbn [app].
  destruct (N.eqb_spec (blen (b :: l)) 1) as [E|_]; cbn [andb]; [|reflexivity].
  destruct l as [|c l]; [|unfold blen in E; cbn [length] in E; lia].
  destruct (N.eqb_spec b star) as [->|_]; [exfalso; apply (H [star_sign] name eq_refl); left; reflexivity|].
  destruct (N.eqb_spec b plus) as [->|_]; [exfalso; apply (H [plus_sign] name eq_refl); right; reflexivity|]. reflexivity.
Qed.

Lemma left_wild_some : forall c name, c = star_sign \/ c = plus_sign -> is_left_wildcard (wire ([c] :: name)) = Some (c =? plus_sign).
Proof.
  intros c name Hc. unfold is_left_wildcard. rewrite wire_cons. cbn [app blen length].
  pose proof (wire_nonempty name). destruct (Nat.leb_spec 3 (S (S (length (wire name))))); [|lia].
  destruct Hc as [-> | ->]; reflexivity.
Qed.

Lemma skipn_last3 : forall (p : bytes) a b, skipn (length (p ++ [a; b; 0]) - 3) (p ++ [a; b; 0]) = [a; b; 0].
Proof. intros p a b. rewrite app_length. cbn [length]. replace (length p + 3 - 3)%nat with (length p) by lia. apply skipn_app_len. Qed.

Lemma right_wild_tail : forall p a b, is_right_wildcard (p ++ [a; b; 0]) =
  if (a =? 1) && ((b =? star) || (b =? plus)) then Some (b =? plus) else None.
Proof.
  intros p a b. unfold is_right_wildcard. rewrite skipn_last3. rewrite app_length. cbn [length].
  destruct (Nat.leb_spec 3 (length p + 3)); [reflexivity|lia].
Qed.

Lemma wire_snoc : forall ls l, wire (ls ++ [l]) = enc_labels ls ++ blen l :: l ++ [0].
Proof.
  intros ls l. unfold wire. rewrite enc_labels_app. cbn [enc_labels flat_map]. rewrite app_nil_r, <- app_assoc. reflexivity.
Qed.

Lemma right_wild_none : forall name, name_ok name -> not_right_wild name -> is_right_wildcard (wire name) = None.
Proof.
  intros name [Hn _] H. destruct name as [|l0 name0] using rev_ind; [reflexivity|]. clear IHname0.
  destruct (H name0 l0 eq_refl) as [HW HE]. rewrite wire_snoc.
  apply Forall_app in Hn. destruct Hn as [_ Hn]. inversion Hn as [|? ? [Hl _] _]; subst.
  destruct l0 as [|b l1] using rev_ind; [cbn in Hl; lia|]. clear IHl1.
  destruct l1 as [|a l2] using rev_ind.
  - change (blen ([] ++ [b]) :: ([] ++ [b]) ++ [0]) with [1; b; 0]. rewrite right_wild_tail. cbn [N.eqb Pos.eqb andb].
    destruct (N.eqb_spec b star) as [->|_]; [exfalso; apply HW; left; reflexivity|].
    destruct (N.eqb_spec b plus) as [->|_]; [exfalso; apply HW; right; reflexivity|]. reflexivity.
  - clear IHl2. replace (enc_labels name0 ++ blen ((l2 ++ [a]) ++ [b]) :: ((l2 ++ [a]) ++ [b]) ++ [0])
      with ((enc_labels name0 ++ blen ((l2 ++ [a]) ++ [b]) :: l2) ++ [a; b; 0]) by (rewrite <- !app_assoc; reflexivity).
    rewrite right_wild_tail. destruct (N.eqb_spec a 1) as [->|_]; [|reflexivity]. cbn [andb].
    destruct (HE l2 b) as [A B]; [rewrite <- app_assoc; reflexivity|].
    destruct (N.eqb_spec b star); [contradiction|]. destruct (N.eqb_spec b plus); [contradiction|]. reflexivity.
Qed.

Lemma right_wild_some : forall c name, c = star_sign \/ c = plus_sign -> is_right_wildcard (wire (name ++ [[c]])) = Some (c =? plus_sign).
Proof.
  intros c name Hc. rewrite wire_snoc. change (blen [c] :: [c] ++ [0]) with [1; c; 0]. rewrite right_wild_tail.
  destruct Hc as [-> | ->]; reflexivity.
Qed.

(** ** The filters on the records of a table *)

Lemma rrtype_decided : forall recs t want e, Forall2 encodes recs t -> In e t -> first_byte e = 0 \/ first_byte e = 2 ->
  decided (rrtype_res want (fst e)).
Proof.
  intros recs t want e HF Hin [HB|HB].
  - destruct (rrset_of _ _ _ HF Hin HB) as (ow & ty & bw & rs & o & _ & _ & A & B & C & _ & E & _).
    rewrite (rrtype_res_rrset want ow ty bw rs _ A B C E). apply yes_no_decided.
  - destruct (rdata_of _ _ _ HF Hin HB) as (ow & ty & hd & tl & o & _ & _ & A & B & _ & D & E & _).
    rewrite (rrtype_res_rdata want ow ty hd tl) by (auto; lia). apply yes_no_decided.
Qed.

Lemma bailiwick_decided : forall recs t b e, Forall2 encodes recs t -> In e t -> first_byte e = 0 ->
  decided (bailiwick_res b (fst e)).
Proof.
  intros recs t b e HF Hin HB.
  destruct (rrset_of _ _ _ HF Hin HB) as (ow & ty & bw & rs & o & _ & _ & A & B & C & _ & E & _).
  rewrite (bailiwick_res_rrset b ow ty bw rs _ A B C E). apply yes_no_decided.
Qed.

Definition bwp (q : query) (e : kv) : bool :=
  match q_bailiwick q with Some b => matched (bailiwick_res b (fst e)) | None => true end.

Lemma picks_bailiwick : forall recs h s P q t, Forall2 encodes recs t -> picks h s P t ->
  (forall e, In e t -> P e = true -> first_byte e = 0) ->
  picks h (opt_filter_bailiwick q s) (fun e => P e && bwp q e) t.
Proof.
  intros recs h s P q t HF H HB. unfold opt_filter_bailiwick, bwp. destruct (q_bailiwick q) as [b|].
  - apply picks_filter; [exact H|]. apply (decided_good _ (fun e => bailiwick_res b (fst e))); [reflexivity|].
    intros e He. apply filter_In in He. destruct He as [He Pe]. eapply bailiwick_decided; eauto.
  - eapply picks_ext; [|exact H]. intros e _. cbn. rewrite andb_true_r. reflexivity.
Qed.

Lemma bwp_spec : forall q bwq ow ty bw rs o e, encodes (RRset ow ty bw rs o) e -> asks_bailiwick q bwq ->
  (bwp q e = true <-> bailiwick_ok bwq bw).
Proof.
  intros q bwq ow ty bw rs o e (_ & A & B & C & _ & E & _) [HQ HB]. unfold bwp. rewrite HQ.
  destruct bwq as [b|]; cbn [option_map bailiwick_ok]; [|tauto].
  rewrite (bailiwick_res_rrset (rwire b) ow ty bw rs _ A B C E), matched_yes_no, beq_true.
  split; [|congruence]. intro H. destruct (rwire_prefix_inj b bw [] []) as [G _]; [apply HB|apply B|rewrite H; reflexivity|congruence].
Qed.

Definition typep (q : query) (e : kv) : bool := negb (q_do_rrtype q) || matched (rrtype_res (q_rrtype q) (fst e)).

Lemma picks_type : forall recs h s P q t, Forall2 encodes recs t -> picks h s P t ->
  (forall e, In e t -> P e = true -> first_byte e = 0 \/ first_byte e = 2) ->
  picks h (filter_set_cond (q_do_rrtype q) StRrtype (filter_rrtype q) s) (fun e => P e && typep q e) t.
Proof.
  intros recs h s P q t HF H HB. unfold typep. apply picks_cond; [exact H|]. intros _.
  apply (decided_good _ (fun e => rrtype_res (q_rrtype q) (fst e))); [reflexivity|].
  intros e He. apply filter_In in He. destruct He as [He Pe]. eapply rrtype_decided; eauto.
Qed.

Lemma typep_rrset : forall q ow ty bw rs o e, encodes (RRset ow ty bw rs o) e -> (typep q e = true <-> type_ok q ty).
Proof.
  intros q ow ty bw rs o e (_ & A & B & C & _ & E & _). unfold typep, type_ok.
  rewrite (rrtype_res_rrset (q_rrtype q) ow ty bw rs _ A B C E), matched_yes_no.
  destruct (q_do_rrtype q); cbn [negb orb]; [|split; [discriminate|auto]].
  rewrite N.eqb_eq. tauto.
Qed.

Lemma typep_rdata : forall q ow ty hd tl o e, encodes (RData ow ty hd tl o) e -> (typep q e = true <-> type_ok q ty).
Proof.
  intros q ow ty hd tl o e (_ & A & B & _ & D & E & _). unfold typep, type_ok.
  rewrite (rrtype_res_rdata (q_rrtype q) ow ty hd tl) by (auto; lia). rewrite matched_yes_no.
  destruct (q_do_rrtype q); cbn [negb orb]; [|split; [discriminate|auto]].
  rewrite N.eqb_eq. tauto.
Qed.

Definition labelp (c : bool) (n : nat) (e : kv) : bool := negb c || matched (single_label_res n (fst e)).

Lemma picks_label : forall recs h s P K c t, Forall2 encodes recs t -> picks h s P t ->
  K <> [] -> hd 0 K < 255 -> (forall e, In e t -> P e = true -> is_prefix K (fst e) = true) ->
  picks h (filter_set_cond c StSingleLabel (filter_single_label (length K)) s) (fun e => P e && labelp c (length K) e) t.
Proof.
  intros recs h s P K c t HF H HK Hh HP. unfold labelp. apply picks_cond; [exact H|]. intros _.
  apply single_label_good; auto. intros e He. apply filter_In in He. destruct He as [He Pe].
  split; [auto|]. eapply bytes_ok_in; eauto.
Qed.

Lemma timed_rr : forall recs t e, Forall2 encodes recs t -> In e t -> first_byte e = 0 \/ first_byte e = 2 -> timed_entry e.
Proof.
  intros recs t e HF Hin [HB|HB].
  - destruct (rrset_of _ _ _ HF Hin HB) as (ow & ty & bw & rs & o & _ & _ & A & B & C & D & E & F). exists o. auto.
  - destruct (rdata_of _ _ _ HF Hin HB) as (ow & ty & hd & tl & o & _ & _ & A & B & C & D & E & F). exists o. auto.
Qed.
