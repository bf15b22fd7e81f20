(** Iterators and the settings of the moment. *)
From Verif Require Import Base BaseFacts ModelVarint ModelMerge ModelEntry ModelIter ModelQuery ModelSetters ModelFileset ModelLive SpecName SpecMerge SpecEntry SpecDecode SpecQuery SpecSettings SpecSound SpecLive.
From Verif Require Import DecodeProofs UnionProofs NameFacts SoundProofs SoundKeys LiveProofs PropsDecode PropsSound.

(** ** An iterator with other filters *)

Lemma live_over : forall made now h s it, over h s it -> over h (live_source made now s) (live_iter made now it).
Proof.
  intros made now h s. induction s as [t|st f u IH|u IH|l u IH|mf t u IH]; intros [b|st' f' i|i|h' l' i|mf' rb rk fin i] HO; cbn [over live_source live_iter] in *; try contradiction; auto.
  - destruct HO as [[-> ->] HO]. auto.
  - destruct HO as (A & B & C & D & HO). auto 6.
Qed.
Lemma live_filter_twice : forall made a b st f, live_filter made b st (live_filter made a st f) = live_filter made b st f.
Proof. intros made a b st f. destruct st; cbn [live_filter]; try reflexivity. destruct (q_type made); try reflexivity. destruct (q_do_rrtype made); reflexivity. Qed.
Lemma live_source_twice : forall made a b s, live_source made b (live_source made a s) = live_source made b s.
Proof. intros made a b s. induction s; cbn [live_source]; try reflexivity; rewrite ?live_filter_twice; congruence. Qed.
Lemma live_source_open : forall made now h s, live_iter made now (open h s) = open h (live_source made now s).
Proof. intros made now h s. induction s; cbn [live_source live_iter open]; try reflexivity; congruence. Qed.

(** ** Iterators in use *)

Definition way (p : plan) : how := match p_key2 p with Some k2 => HRange (p_key p) k2 | None => HPrefix (p_key p) end.
Definition inuse (made : query) (top : source) (p : plan) (qi : qiter) : Prop :=
  (forall now, live_source made now (qi_source qi) = live_source made now top) /\
  match p_index p, qi_kind qi with
  | None, Direct it => forall now, over (way p) (live_source made now top) (live_iter made now it)
  | Some _, Indirect _ _ cur => forall it, cur = Some it -> exists fk, forall now, over (HPrefix fk) (live_source made now top) (live_iter made now it)
  | _, _ => False
  end.

Lemma indirect_cur : forall n fuel q top tb idx cur w r idx' cur' w',
  (forall it, cur = Some it -> exists fk, over (HPrefix fk) top it) ->
  indirect_loop n fuel q top tb idx cur w = (r, idx', cur', w') ->
  (forall it, cur' = Some it -> exists fk, over (HPrefix fk) top it) /\
  forall e, r = QEntry e -> exists h k v, sat h top k v /\ entry_decode k v = Ok e.
Proof.
  induction n as [|n IH]; intros fuel q top tb idx cur w r idx' cur' w' HC E; cbn [indirect_loop] in E.
  { injection E as <- <- <- <-. split; [exact HC|discriminate]. }
  destruct cur as [it|].
  - destruct (next fuel it w) as [[o u1] w1] eqn:E1. destruct (HC it eq_refl) as (fk & S3). destruct (next_over _ _ _ _ _ _ _ _ S3 E1) as [HO1 HS1].
    assert (HC1 : forall it, Some u1 = Some it -> exists fk, over (HPrefix fk) top it) by (intros it0 Eo; injection Eo as <-; eauto).
    destruct o as [[k v]| | | | |]; try (injection E as <- <- <- <-; split; [exact HC1|discriminate]).
    + destruct (entry_decode k v) eqn:ED; try (injection E as <- <- <- <-; split; [exact HC1|discriminate]).
      * injection E as <- <- <- <-. split; [exact HC1|]. intros e Ee. injection Ee as <-. exists (HPrefix fk), k, v. auto.
      * exact (IH _ _ _ _ _ _ _ _ _ _ _ HC1 E).
    + refine (IH _ _ _ _ _ None _ _ _ _ _ _ E). discriminate.
  - destruct (next fuel idx w) as [[o u1] w1] eqn:E1.
    assert (HN : forall it, @None iter = Some it -> exists fk, over (HPrefix fk) top it) by discriminate.
    destruct o as [[k v]| | | | |]; try (injection E as <- <- <- <-; split; [exact HN|discriminate]).
    destruct (index_lookup_key q tb k v) as [[fk|]| | | |]; try (injection E as <- <- <- <-; split; [exact HN|discriminate]).
    + refine (IH _ _ _ _ _ _ _ _ _ _ _ _ E). intros it Eo. injection Eo as <-. exists fk. apply open_over.
    + exact (IH _ _ _ _ _ _ _ _ _ _ _ HN E).
Qed.

Lemma inuse_next : forall fuel made top p now qi w r qi' w', inuse made top p qi -> qnext fuel (live made now qi) w = (r, qi', w') ->
  inuse made top p qi' /\ forall e, r = QEntry e -> exists h k v, sat h (live_source made now top) k v /\ entry_decode k v = Ok e.
Proof.
  intros fuel made top p now qi w r qi' w' (HS & HK) E. unfold qnext, live in E. cbn [qi_query qi_source qi_kind] in E. unfold inuse.
  destruct (p_index p) as [x|]; destruct (qi_kind qi) as [it|tb idx cur]; try contradiction HK; cbn [live_kind] in E.
  - destruct (indirect_loop fuel fuel _ _ _ _ _ _) as [[[r1 idx1] cur1] w1] eqn:EI in E. injection E as <- <- <-. cbn [qi_query qi_source qi_kind].
    rewrite (HS now) in EI.
    assert (HC : forall it, option_map (live_iter made now) cur = Some it -> exists fk, over (HPrefix fk) (live_source made now top) it).
    { intros it Ei. destruct cur as [it0|]; [|discriminate]. injection Ei as <-. destruct (HK it0 eq_refl) as (fk & Hfk). exists fk. apply Hfk. }
    destruct (indirect_cur _ _ _ _ _ _ _ _ _ _ _ _ HC EI) as [A B]. split; [|exact B]. split; [intro n; rewrite live_source_twice; apply HS|].
    intros it Ei. destruct (A it Ei) as (fk & Hfk). exists fk. intro n. rewrite <- (live_source_twice made now n). apply live_over. exact Hfk.
  - destruct (direct_loop fuel fuel _ _) as [[r1 it1] w1] eqn:ED in E. injection E as <- <- <-. cbn [qi_query qi_source qi_kind].
    destruct (direct_over _ _ _ _ _ _ _ _ _ (HK now) ED) as [A B]. split; [split; [intro n; rewrite live_source_twice; apply HS|]|intros e Ee; destruct (B e Ee) as (k & v & C); eauto].
    intro n. rewrite <- (live_source_twice made now n). apply live_over. exact A.
Qed.

Lemma inuse_made : forall q fc src idx qi, query_iter_common q fc src idx = Ok qi ->
  exists p, query_init q (if is_timed q then STimeout src else src) (if is_timed q then STimeout idx else idx) = Ok p /\
    inuse q (stack_filters q fc (p_source p)) p qi.
Proof.
  intros q fc src idx qi E. unfold query_iter_common in E.
  destruct (query_init q (if is_timed q then STimeout src else src) (if is_timed q then STimeout idx else idx)) as [p| | | |]; cbn [bind] in E; try discriminate.
  exists p. split; [reflexivity|]. injection E as <-. split; [intro now; reflexivity|]. cbn [qi_kind].
  destruct (p_index p) as [[tb ix]|]; cbv iota beta; [discriminate|]. destruct (p_key2 p) eqn:E2; cbv iota beta; intro now; unfold way; rewrite E2; rewrite live_source_open; apply open_over.
Qed.

(** ** What the filters say *)

Lemma live_stack_sat : forall q fc h src now k v, sat h (live_source q now (stack_filters q fc src)) k v ->
  (has_time_bound q = true -> time_res now false v = FMatch) /\
  exists v0, sat h (live_source q now src) k v0 /\ (v = v0 \/ exists t v1, f_fill fc = Some t /\ In (k, v1) t /\ merge_func k v0 v1 = Ok v).
Proof.
  intros q fc h src now k v H. unfold stack_filters in H.
  set (inner := if has_time_bound q then match f_remove fc with
           | Some l => SRemove l (SFilter StTimePrefilter (filter_time_prefilter q) src) | None => SFilter StTimePrefilter (filter_time_prefilter q) src end else src).
  assert (H0 : sat h (live_source q now (if has_time_bound q then SFilter StTime (filter_time q) (match f_fill fc with Some t => SLjoin merge_func t inner | None => inner end)
    else match f_fill fc with Some t => SLjoin merge_func t inner | None => inner end)) k v).
  { destruct (0 <? q_offset q); [cbn [sat live_source] in H; apply H|exact H]. }
  clear H. assert (HI : forall v0, sat h (live_source q now inner) k v0 -> sat h (live_source q now src) k v0).
  { intros v0 Hi. unfold inner in Hi. destruct (has_time_bound q); [|exact Hi]. destruct (f_remove fc); cbn [live_source sat] in Hi; apply Hi. }
  assert (HF : forall v, sat h (live_source q now (match f_fill fc with Some t => SLjoin merge_func t inner | None => inner end)) k v ->
    exists v0, sat h (live_source q now src) k v0 /\ (v = v0 \/ exists t v1, f_fill fc = Some t /\ In (k, v1) t /\ merge_func k v0 v1 = Ok v)).
  { intros v' Hs. destruct (f_fill fc) as [t|]; [|exists v'; auto]. cbn [live_source sat] in Hs. destruct Hs as (v0 & Hs & HV). exists v0. split; [auto|].
    destruct HV as [->|(v1 & HV)]; [auto|right; exists t, v1; split; [reflexivity|exact HV]]. }
  destruct (has_time_bound q); [|split; [discriminate|apply HF; exact H0]].
  cbn [live_source live_filter sat] in H0. destruct H0 as [H (w & w' & EM)]. unfold filter_time in EM. injection EM as EM _. split; [intros _; exact EM|apply HF; exact H].
Qed.

Lemma live_cond : forall q now (b : bool) st ff h s k v, sat h (live_source q now (filter_set_cond b st ff s)) k v ->
  sat h (live_source q now s) k v /\ (b = true -> exists w w', live_filter q now st ff w k v = (FMatch, w')).
Proof. intros q now [|] st ff h s k v H; [cbn [filter_set_cond live_source sat] in H|split; [exact H|discriminate]]. split; [apply H|intros _; apply H]. Qed.
Lemma live_bailiwick : forall q now h s k v, sat h (live_source q now (opt_filter_bailiwick q s)) k v ->
  sat h (live_source q now s) k v /\ (q_bailiwick q <> None -> bailiwick_res (val_or [] (q_bailiwick now)) k = FMatch).
Proof.
  intros q now h s k v H. unfold opt_filter_bailiwick in H. destruct (q_bailiwick q) as [b|]; [|split; [exact H|congruence]].
  cbn [live_source live_filter sat] in H. destruct H as [H (w & w' & E)]. split; [exact H|]. intros _. unfold filter_bailiwick in E. injection E as E _. exact E.
Qed.
Lemma live_timed : forall q now (b : bool) h t k v, sat h (live_source q now (if b then STimeout (SBase t) else SBase t)) k v -> In (k, v) t.
Proof. intros q now [|] h t k v H; apply H. Qed.
Lemma ip_match : forall q n k, rrtype_ip_res q n k = FMatch -> rrtype_res (q_rrtype q) k = FMatch.
Proof.
  intros q n k EM. unfold rrtype_ip_res in EM. destruct (rrtype_res (q_rrtype q) k); try discriminate EM; [reflexivity|]. exfalso. revert EM.
  unfold ip_seek. destruct (Nat.ltb _ _); [destruct (add_rrtype_to_key _ _); discriminate|]. destruct (add_rrtype_to_key _ _) as [sk| | | |]; try discriminate.
  destruct (Nat.ltb _ _); [discriminate|]. assert (HIi : forall a b, ip_increment a b <> FMatch).
  { intros a b. unfold ip_increment. destruct (increment_key a (b - 1)) as [[[|] k']| | | |]; try discriminate. destruct (rd k' 0); try discriminate. destruct (_ =? _); discriminate. }
  assert (HIl : forall f r s, ip_labels f r k s <> FMatch).
  { induction f as [|f IH]; intros r s; [discriminate|]. cbn [ip_labels]. destruct (rd k (length s)) as [llen| | | |]; try discriminate. destruct (63 <? llen); [apply HIi|].
    destruct (llen =? 0); [|destruct (Nat.ltb _ _); [discriminate|apply IH]]. destruct (r =? WDNS_TYPE_A); [destruct (blt _ _); [discriminate|apply HIi]|].
    destruct (r =? WDNS_TYPE_AAAA); [destruct (blt _ _); [discriminate|apply HIi]|discriminate]. }
  destruct (bytes_compare _ _); [|apply HIi|discriminate]. destruct (Nat.leb _ _); [discriminate|]. destruct (rd k (length sk)); try discriminate.
  destruct (_ && _); [apply HIi|apply HIl].
Qed.

Lemma live_plan : forall q (tm : bool) t idx p h now k v0, query_init q (if tm then STimeout (SBase t) else SBase t) idx = Ok p ->
  sat h (live_source q now (p_source p)) k v0 ->
  In (k, v0) t /\ (filters_type q = true -> rrtype_res (q_rrtype now) k = FMatch) /\
  (watches_bailiwick q = true -> bailiwick_res (val_or [] (q_bailiwick now)) k = FMatch).
Proof.
  intros q tm t idx p h now k v0 E H. unfold query_init, init_rrset, init_rdata_name, init_rdata_ip, init_rdata_raw, init_simple, init_version in E.
  unfold filters_type, watches_bailiwick, begins_wild, ends_wild.
  assert (RT : forall f w w' x, q_type q = x -> match x with QRdataIp => False | QRdataName => q_do_rrtype q = true | _ => True end -> live_filter q now StRrtype f w k v0 = (FMatch, w') -> rrtype_res (q_rrtype now) k = FMatch).
  { intros f w w' x <- HX EF. cbn [live_filter] in EF. destruct (q_type q); try contradiction HX; try rewrite HX in EF; unfold filter_rrtype in EF; injection EF as EF _; exact EF. }
  destruct (q_type q) eqn:EQ.
  - destruct (is_left_wildcard (name_data q)).
    { unfold init_rrset_left_wildcard in E. destruct (reverse_buf _ _); cbn [bind] in E; try discriminate. injection E as <-. cbn [p_source] in H.
      apply live_bailiwick in H. destruct H as [H HB]. apply live_cond in H. destruct H as [H HR]. apply live_cond in H. destruct H as [H _]. apply live_timed in H. split; [exact H|]. split.
      - intro F. apply andb_true_iff in F. destruct (HR (proj1 F)) as (w & w' & EF). exact (RT _ _ _ _ eq_refl I EF).
      - intro F. apply HB. destruct (q_bailiwick q); [discriminate|discriminate F]. }
    destruct (is_right_wildcard (name_data q)).
    { unfold init_rrset_right_wildcard in E. injection E as <-. cbn [p_source] in H. apply live_bailiwick in H. destruct H as [H HB]. apply live_cond in H. destruct H as [H HR]. apply live_timed in H. split; [exact H|]. split.
      - intro F. apply andb_true_iff in F. destruct (HR (proj1 F)) as (w & w' & EF). exact (RT _ _ _ _ eq_refl I EF).
      - intro F. apply HB. destruct (q_bailiwick q); [discriminate|discriminate F]. }
    destruct (reverse_buf _ _); cbn [bind] in E; try discriminate. destruct (q_do_rrtype q) eqn:ED.
    + destruct (add_rrtype_to_key _ _); cbn [bind] in E; try discriminate. injection E as <-. cbn [p_source] in H. apply live_timed in H. split; [exact H|]. split; [discriminate|]. destruct (q_bailiwick q); discriminate.
    + injection E as <-. cbn [p_source] in H. apply live_bailiwick in H. destruct H as [H HB]. apply live_timed in H. split; [exact H|]. split; [discriminate|].
      intro F. apply HB. destruct (q_bailiwick q); [discriminate|discriminate F].
  - assert (RN : forall s, sat h (live_source q now (SFilter StRrtype (if q_do_rrtype q then filter_rrtype q else filter_rrtype_rdata_name) s)) k v0 ->
      sat h (live_source q now s) k v0 /\ (q_do_rrtype q && true = true -> rrtype_res (q_rrtype now) k = FMatch) /\ (false = true -> bailiwick_res (val_or [] (q_bailiwick now)) k = FMatch)).
    { intros s Hs. cbn [live_source sat] in Hs. destruct Hs as [Hs (w & w' & EF)]. split; [exact Hs|]. split; [|discriminate]. rewrite andb_true_r. intro F. exact (RT _ _ _ _ eq_refl F EF). }
    destruct (is_right_wildcard (name_data q)).
    { unfold init_rdata_right_wildcard in E. injection E as <-. cbn [p_source] in H. apply live_cond in H. destruct H as [H _]. apply RN in H. destruct H as [H R]. apply live_timed in H. auto. }
    destruct (is_left_wildcard (name_data q)).
    { unfold init_rdata_left_wildcard in E. destruct (reverse_buf _ _); cbn [bind] in E; try discriminate. injection E as <-. cbn [p_source] in H. apply RN in H. destruct H as [H R]. apply live_timed in H. auto. }
    destruct (if q_do_rrtype q && name_type_standalone (q_rrtype q) then _ else _); cbn [bind] in E; try discriminate. injection E as <-. cbn [p_source] in H. apply RN in H. destruct H as [H R]. apply live_timed in H. auto.
  - destruct (negb (q_do_rrtype q)); [discriminate|]. destruct (q_len_ip1 q =? 0); [discriminate|]. destruct (add_rrtype_to_key _ _); cbn [bind] in E; try discriminate.
    match type of E with (let* key2 := ?x in _) = _ => destruct x end; cbn [bind] in E; try discriminate. injection E as <-. cbn [p_source live_source sat] in H. destruct H as [H (w & w' & EF)]. apply live_timed in H.
    split; [exact H|]. split; [|discriminate]. intros _. cbn [live_filter] in EF. rewrite EQ in EF. unfold filter_rrtype_ip in EF. injection EF as EF _. eapply ip_match. exact EF.
  - destruct (_ <? _); [discriminate|]. injection E as <-. cbn [p_source] in H. apply live_cond in H. destruct H as [H HR]. apply live_timed in H. split; [exact H|]. split; [|discriminate].
    intro F. apply andb_true_iff in F. destruct (HR (proj1 F)) as (w & w' & EF). exact (RT _ _ _ _ eq_refl I EF).
  - injection E as <-. apply live_timed in H. split; [exact H|]. split; [rewrite andb_false_r|]; discriminate.
  - injection E as <-. apply live_timed in H. split; [exact H|]. split; [rewrite andb_false_r|]; discriminate.
  - injection E as <-. apply live_timed in H. split; [exact H|]. split; [rewrite andb_false_r|]; discriminate.
Qed.

Lemma bailiwick_empty : forall owner t0 bw rest, name_ok owner -> name_ok bw -> finished 5 t0 -> bytes_ok t0 ->
  bailiwick_res [] (ENTRY_TYPE_RRSET :: rwire owner ++ t0 ++ rwire bw ++ rest) <> FMatch.
Proof.
  intros owner t0 bw rest HO HB HT HX H. unfold bailiwick_res in H. rewrite (rrset_owner_len owner t0 bw rest HO) in H. cbn [bind] in H. rewrite (rrset_key_long owner t0 bw rest HT) in H.
  rewrite rrset_after_owner, (read32_finished t0 _ HX HT) in H. cbn [bind fst snd] in H.
  assert (E : skipn (length (rwire owner) + 1 + length t0) (ENTRY_TYPE_RRSET :: rwire owner ++ t0 ++ rwire bw ++ rest) = rwire bw ++ rest).
  { replace (length (rwire owner) + 1 + length t0)%nat with (S (length (rwire owner) + length t0)) by lia. cbn [skipn]. rewrite skipn_plus, skipn_app_at. reflexivity. }
  rewrite E in H. destruct (Nat.leb _ _); [discriminate|].
  unfold rwire at 1 in H. rewrite len_uname_wire in H by (apply name_ok_rev; exact HB). cbn [bind] in H. fold (rwire bw) in H.
  assert (1 <= length (rwire bw))%nat by (unfold rwire; apply wire_nonempty). destruct (Nat.eqb_spec (length (rwire bw)) (length (@nil N))); [cbn in *; lia|]. cbn [negb] in H. discriminate.
Qed.

Lemma obeyed : forall q now k v c, bytes_ok k -> bytes_ok v -> holds k v c ->
  (filters_type q = true -> rrtype_res (q_rrtype now) k = FMatch) ->
  (watches_bailiwick q = true -> bailiwick_res (val_or [] (q_bailiwick now)) k = FMatch) ->
  (has_time_bound q = true -> time_res now false v = FMatch) -> obeys q now c.
Proof.
  intros q now k v c HK HV HH HR HB HT.
  assert (TK : forall f l n, numbers [f; l; n] v -> watches_times q = true -> bounds_kept now f l).
  { intros f l n HN HW. exact (time_kept now v f l n HV HN (fun _ => HT HW)). }
  destruct c as [owner ty bw ds f l n| |owner ty d f l n| | | | |]; cbn [obeys]; try exact I.
  - assert (EK : exists buf, k = ENTRY_TYPE_RRSET :: buf) by (inversion HH; subst; eauto). destruct EK as (buf & ->). apply holds_rrset_inv in HH.
    destruct HH as (owner' & t0 & bw' & rest & ds' & f' & l' & n' & E & HO & HBw & HF & EC & HNum). injection EC as -> -> -> -> -> -> ->.
    assert (HX : bytes_ok t0) by (eapply front_bytes; [exact HK|]; rewrite E; reflexivity). subst buf.
    split; [intro F; exact (rrtype_rrset owner' t0 bw' rest HO HF HX _ (HR F))|]. split; [|eauto].
    intros F b Eb Hb. specialize (HB F). rewrite Eb in HB. destruct b as [b|]; cbn [option_map val_or] in HB.
    + f_equal. symmetry. exact (bailiwick_rrset owner' t0 bw' rest HO HBw HF HX b (Hb b eq_refl) HB).
    + exfalso. exact (bailiwick_empty owner' t0 bw' rest HO HBw HF HX HB).
  - assert (EK : exists buf, k = ENTRY_TYPE_RDATA :: buf) by (inversion HH; subst; eauto). destruct EK as (buf & ->). apply holds_rdata_inv in HH.
    destruct HH as (tail & t0 & owner' & slice & d' & f' & l' & n' & E & HF & HL & EC & HNum). injection EC as -> -> -> -> -> ->.
    assert (HX : bytes_ok t0) by (eapply front_bytes; [exact HK|]; rewrite E; reflexivity). subst buf.
    split; [intro F; exact (rrtype_rdata tail t0 owner' slice HF HX HL _ (HR F))|eauto].
Qed.

(** ** Sessions *)

Lemma inuse_act : forall ev fuel a s x s' i h top p, do_act ev fuel a s = Ok (x, s') -> nth_error (s_handles s) i = Some h -> inuse (h_made h) top p (h_it h) ->
  (exists h', nth_error (s_handles s') i = Some h' /\ h_made h' = h_made h /\ inuse (h_made h) top p (h_it h')) /\
  (forall e, a = ANext i -> x = AGave (QEntry e) -> exists hw k v, sat hw (live_source (h_made h) (s_query s) top) k v /\ entry_decode k v = Ok e).
Proof.
  intros ev fuel a s x s' i h top p E Hi HU. destruct a as [c|lib r|j]; cbn [do_act] in E.
  - destruct (apply_setting ev c (s_query s)) as [[b q]| | | |]; cbn [bind fst snd] in E; try discriminate. injection E as <- <-. cbn [s_handles]. split; [eauto|discriminate].
  - split; [|discriminate]. destruct (dnstable_reader_query lib r (s_query s)) as [qi| | | |]; try discriminate; injection E as <- <-; cbn [s_handles]; [|eauto].
    exists h. split; [|auto]. rewrite nth_error_app1; [exact Hi|]. apply nth_error_Some. congruence.
  - destruct (nth_error (s_handles s) j) as [h0|] eqn:Ej; [|discriminate]. destruct (live_next fuel (s_query s) h0 (s_world s)) as [[[r h'] q'] w'] eqn:EN. injection E as <- <-. cbn [s_handles].
    destruct (Nat.eq_dec i j) as [<-|NE].
    + rewrite Hi in Ej. injection Ej as <-. unfold live_next in EN. destruct (qnext fuel _ _) as [[r0 qi'] w0] eqn:EQ in EN. injection EN as <- <- <- <-.
      destruct (inuse_next _ _ _ _ _ _ _ _ _ _ HU EQ) as [A B]. split.
      * eexists. split; [erewrite replace_same by exact Hi; reflexivity|]. cbn [h_made h_it]. auto.
      * intros e _ Ex. injection Ex as Ex. apply B. destruct r0; try discriminate Ex; try exact Ex. destruct (is_timed (s_query s)); discriminate Ex.
    + split; [exists h; split; [rewrite replace_other by congruence; exact Hi|auto]|]. intros e Ee. injection Ee as ->. congruence.
Qed.

Lemma inuse_acts : forall ev fuel l s rs s' i h top p, do_acts ev fuel l s = Ok (rs, s') -> nth_error (s_handles s) i = Some h -> inuse (h_made h) top p (h_it h) ->
  exists h', nth_error (s_handles s') i = Some h' /\ h_made h' = h_made h /\ inuse (h_made h) top p (h_it h').
Proof.
  intros ev fuel l. induction l as [|a l IH]; intros s rs s' i h top p E Hi HU; cbn [do_acts] in E.
  - injection E as <- <-. eauto.
  - destruct (do_act ev fuel a s) as [[x s1]| | | |] eqn:EA; cbn [bind fst snd] in E; try discriminate. destruct (do_acts ev fuel l s1) as [[ys s2]| | | |] eqn:E1; cbn [bind fst snd] in E; try discriminate. injection E as <- <-.
    destruct (inuse_act _ _ _ _ _ _ _ _ _ _ EA Hi HU) as [(h1 & H1 & EM & HU1) _]. rewrite <- EM in HU1. destruct (IH _ _ _ _ _ _ _ E1 H1 HU1) as (h2 & H2 & EM2 & HU2). exists h2. rewrite <- EM. auto.
Qed.

Lemma obeys_common : forall ev fuel after s fc t ti qi rs s1 e s2 own, stored_bytes t -> (forall f, f_fill fc = Some f -> stored_bytes f) ->
  query_iter_common (s_query s) fc (SBase t) (SBase ti) = Ok qi ->
  do_acts ev fuel after {| s_query := s_query s; s_handles := s_handles s ++ [{| h_made := s_query s; h_it := qi; h_world := own |}]; s_world := s_world s |} = Ok (rs, s1) ->
  do_act ev fuel (ANext (length (s_handles s))) s1 = Ok (AGave (QEntry e), s2) ->
  exists k v0 v c, In (k, v0) t /\ (v = v0 \/ exists f v1, f_fill fc = Some f /\ In (k, v1) f /\ merge_func k v0 v1 = Ok v) /\
    holds k v c /\ tells e c /\ obeys (s_query s) (s_query s1) c.
Proof.
  intros ev fuel after s fc t ti qi rs s1 e s2 own HB HF EQ EA EN. destruct (inuse_made _ _ _ _ _ EQ) as (p & EP & HU).
  assert (Hi : nth_error (s_handles s ++ [{| h_made := s_query s; h_it := qi; h_world := own |}]) (length (s_handles s)) = Some {| h_made := s_query s; h_it := qi; h_world := own |}).
  { rewrite nth_error_app2 by lia. rewrite Nat.sub_diag. reflexivity. }
  destruct (inuse_acts _ _ _ _ _ _ _ _ _ _ EA Hi HU) as (h1 & H1 & EM & HU1). cbn [h_made] in EM, HU1. rewrite <- EM in HU1.
  destruct (inuse_act _ _ _ _ _ _ _ _ _ _ EN H1 HU1) as [_ HE]. destruct (HE e eq_refl eq_refl) as (hw & k & v & HS & ED). rewrite EM in HS.
  apply live_stack_sat in HS. destruct HS as (HT & v0 & HS & HV). destruct (live_plan _ _ _ _ _ _ _ _ _ EP HS) as (HIn & HR & HBw). destruct (HB _ _ HIn) as [BK BV0].
  assert (BV : bytes_ok v) by (destruct HV as [->|(f & v1 & Ef & Hf & Em)]; [exact BV0|eapply merge_bytes; [exact BV0| |exact Em]; apply (HF f Ef k v1 Hf)]).
  destruct (decode_succeeds_iff k v BK BV) as [HDec _]. destruct (HDec e ED) as (c & Hh & Ht).
  exists k, v0, v, c. split; [exact HIn|]. split; [exact HV|]. split; [exact Hh|]. split; [exact Ht|]. exact (obeyed _ _ _ _ _ BK BV Hh HR HBw HT).
Qed.

Lemma files_with_incl : forall q files l x, fates q files = Ok l -> incl (files_with x l) files.
Proof.
  intros q files l x EF f Hf. unfold files_with in Hf. apply in_map_iff in Hf. destruct Hf as ([y f'] & <- & Hf). apply filter_In in Hf. destruct Hf as [Hf _]. cbn [snd].
  revert l EF Hf. induction files as [|f0 files IH]; intros l EF Hf; cbn [fates] in EF; [injection EF as <-; destruct Hf|].
  destruct (reader_time_filter q f0) as [x0| | | |]; cbn [bind] in EF; try discriminate. destruct (fates q files) as [l'| | | |]; cbn [bind] in EF; try discriminate. injection EF as <-.
  destruct Hf as [Hf|Hf]; [injection Hf as <- <-; left; reflexivity|right; eapply IH; eauto].
Qed.
