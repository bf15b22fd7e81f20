(** C41: which statistics a query has, and what they count, for queries of one file and of
    sets of files. *)
From Verif Require Import Base ModelEntry ModelIter SpecIter IterCount ModelQuery SpecQuery ModelReader SpecReader SpecDeadline QueryProofs DeadlineProofs
  ModelFileset SpecFileset FilesetProofs PropsIter PropsQuery PropsReader FilesetDemo Demo PropsFileset SpecCounters.

(** ** Wildcards *)

Lemma left_wild_iff : forall nm,
  match is_left_wildcard nm with
  | Some true => begins_with plus_sign nm /\ ~ begins_with star_sign nm
  | Some false => begins_with star_sign nm /\ ~ begins_with plus_sign nm
  | None => ~ wild_left nm
  end.
Proof.
  intros [|a [|b [|c nm]]]; cbn;
    try (intros [(x & r & E)|(x & r & E)]; discriminate E).
  destruct ((a =? 1) && ((b =? star) || (b =? plus)))%bool eqn:E.
  - apply andb_prop in E. destruct E as [Ea Eb]. apply N.eqb_eq in Ea. subst a. unfold star, plus in *.
    destruct (b =? 43) eqn:E3.
    + apply N.eqb_eq in E3. subst b. split; [exists c, nm; reflexivity|]. intros (x & r & X). discriminate X.
    + rewrite Bool.orb_false_r in Eb. apply N.eqb_eq in Eb. subst b. split; [exists c, nm; reflexivity|]. intros (x & r & X). discriminate X.
  - unfold star, plus in *. intros [(x & r & X)|(x & r & X)]; inversion X; subst; discriminate E.
Qed.

Lemma last_three : forall (nm : bytes), (3 <= length nm)%nat -> exists front a b c, nm = front ++ [a; b; c] /\ skipn (length nm - 3) nm = [a; b; c].
Proof.
  intros nm H. exists (firstn (length nm - 3) nm).
  assert (L : length (skipn (length nm - 3) nm) = 3%nat) by (rewrite skipn_length; lia).
  destruct (skipn (length nm - 3) nm) as [|a [|b [|c [|d l]]]] eqn:E; try discriminate L.
  exists a, b, c. split; [|reflexivity]. rewrite <- E. symmetry. apply firstn_skipn.
Qed.

Lemma ends_inj : forall (f g : bytes) a b c a' b' c', f ++ [a; b; c] = g ++ [a'; b'; c'] -> [a; b; c] = [a'; b'; c'].
Proof.
  intros f g a b c a' b' c' H. 
  assert (H1 : (f ++ [a; b]) ++ [c] = (g ++ [a'; b']) ++ [c']) by (rewrite <- !app_assoc; exact H).
  apply app_inj_tail in H1. destruct H1 as [H1 ->].
  assert (H2 : (f ++ [a]) ++ [b] = (g ++ [a']) ++ [b']) by (rewrite <- !app_assoc; exact H1).
  apply app_inj_tail in H2. destruct H2 as [H2 ->].
  apply app_inj_tail in H2. destruct H2 as [_ ->]. reflexivity.
Qed.

Lemma right_wild_iff : forall nm,
  match is_right_wildcard nm with
  | Some true => ends_with plus_sign nm /\ ~ ends_with star_sign nm
  | Some false => ends_with star_sign nm /\ ~ ends_with plus_sign nm
  | None => ~ wild_right nm
  end.
Proof.
  intros nm. unfold is_right_wildcard. destruct (Nat.leb_spec 3 (length nm)) as [L|L].
  - destruct (last_three nm L) as (f & a & b & c & -> & ->).
    destruct ((a =? 1) && ((b =? star) || (b =? plus)))%bool eqn:E.
    + apply andb_prop in E. destruct E as [Ea Eb]. apply N.eqb_eq in Ea. subst a. unfold star, plus in *.
      destruct (b =? 43) eqn:E3.
      * apply N.eqb_eq in E3. subst b. split; [exists f, c; reflexivity|]. intros (x & r & X). apply ends_inj in X. discriminate X.
      * rewrite Bool.orb_false_r in Eb. apply N.eqb_eq in Eb. subst b. split; [exists f, c; reflexivity|]. intros (x & r & X). apply ends_inj in X. discriminate X.
    + unfold star, plus in *. intros [(x & r & X)|(x & r & X)]; apply ends_inj in X; inversion X; subst; discriminate E.
  - intros [(x & r & X)|(x & r & X)]; subst nm; rewrite app_length in L; cbn in L; lia.
Qed.

(** ** The stages of an iterator *)

Lemma open_has : forall st h s, iter_has st (open h s) = source_has st s.
Proof. intros st h s. induction s; cbn [open iter_has source_has]; congruence. Qed.

Lemma seek_has : forall st it k w ok it' w', seek k it w = (ok, it', w') -> iter_has st it' = iter_has st it.
Proof.
  intros st it. induction it as [b|s f u IH|u IH|h rms u IH|mf rb rkv fin u IH]; intros k w ok it' w' H; cbn [seek] in H.
  - destruct (base_seek k b w). inversion H; subst. reflexivity.
  - destruct (seek k u w) as [[o u1] w1] eqn:E. inversion H; subst. cbn [iter_has]. rewrite (IH _ _ _ _ _ E). reflexivity.
  - destruct (seek k u w) as [[o u1] w1] eqn:E. inversion H; subst. cbn [iter_has]. apply (IH _ _ _ _ _ E).
  - destruct (remove_entries_seek k rms w) as [rms1 w1]. destruct (seek k u w1) as [[o u1] w2] eqn:E. inversion H; subst. cbn [iter_has].
    rewrite (IH _ _ _ _ _ E). reflexivity.
  - destruct (seek k u w) as [[o u1] w1] eqn:E. destruct o; [destruct (base_seek k rb w1)|]; inversion H; subst; cbn [iter_has];
      rewrite (IH _ _ _ _ _ E); reflexivity.
Qed.

Lemma next_has : forall st fuel it w o it' w', next fuel it w = (o, it', w') -> iter_has st it' = iter_has st it.
Proof.
  intros st. induction fuel as [|f IH]; intros it w o it' w' H; cbn [next] in H; [inversion H; reflexivity|].
  destruct it as [b|s ff u|u|h rms u|mf rb rkv fin u].
  - destruct (base_next b) as [[e|] b']; inversion H; reflexivity.
  - destruct (next f u w) as [[o1 u1] w1] eqn:E. pose proof (IH _ _ _ _ _ E) as I1.
    destruct o1 as [[k v]| | | | |]; try (inversion H; subst; cbn [iter_has]; congruence).
    destruct (ff w1 k v) as [r w2]. destruct r; try (inversion H; subst; cbn [iter_has]; congruence).
    + apply IH in H. cbn [iter_has] in *. congruence.
    + destruct (seek k0 u1 _) as [[ok u2] w3] eqn:ES. pose proof (seek_has st _ _ _ _ _ _ ES) as I2.
      destruct ok; [|inversion H; subst; cbn [iter_has]; congruence].
      apply IH in H. cbn [iter_has] in *. congruence.
  - destruct (gettime w) as [now w1]. destruct (ts_cmp now (w_deadline w1)); try (inversion H; subst; reflexivity).
    destruct (next f u w1) as [[o1 u1] w2] eqn:E. inversion H; subst. cbn [iter_has]. apply (IH _ _ _ _ _ E).
  - destruct (next f u w) as [[o1 u1] w1] eqn:E. pose proof (IH _ _ _ _ _ E) as I1.
    destruct o1 as [[k v]| | | | |]; try (inversion H; subst; cbn [iter_has]; congruence).
    destruct (match_key f h k v rms w1) as [[[[] rms'] w2]|]; [|inversion H; subst; cbn [iter_has]; congruence|inversion H; subst; reflexivity].
    apply IH in H. cbn [iter_has] in *. congruence.
  - destruct (next f u w) as [[o1 u1] w1] eqn:E. pose proof (IH _ _ _ _ _ E) as I1.
    destruct o1 as [[k v]| | | | |]; try (inversion H; subst; cbn [iter_has]; congruence).
    destruct (join_right f mf rb rkv fin k v w1) as [[[[o2 rb'] rkv'] fin'] w2]. inversion H; subst. cbn [iter_has]. congruence.
Qed.

Lemma indirect_has : forall st n fuel q src tb idx cur w r idx' cur' w',
  indirect_loop n fuel q src tb idx cur w = (r, idx', cur', w') -> iter_has st idx' = iter_has st idx.
Proof.
  intros st. induction n as [|n IH]; intros fuel q src tb idx cur w r idx' cur' w' H; cbn [indirect_loop] in H; [inversion H; reflexivity|].
  destruct cur as [it|].
  - destruct (next fuel it w) as [[o it1] w1]. destruct o as [[k v]| | | | |]; try (inversion H; subst; reflexivity).
    + destruct (entry_decode k v); try (inversion H; subst; reflexivity). exact (IH _ _ _ _ _ _ _ _ _ _ _ H).
    + exact (IH _ _ _ _ _ _ _ _ _ _ _ H).
  - destruct (next fuel idx w) as [[o idx1] w1] eqn:E. pose proof (next_has st _ _ _ _ _ _ E) as I1.
    destruct o as [[k v]| | | | |]; try (inversion H; subst; exact I1).
    destruct (index_lookup_key q tb k v) as [[fk|]| | | |]; try (inversion H; subst; exact I1);
      rewrite <- I1; exact (IH _ _ _ _ _ _ _ _ _ _ _ H).
Qed.

Lemma qnext_has : forall st fuel qi w a qi' w', qnext fuel qi w = (a, qi', w') -> qiter_has st qi' = qiter_has st qi /\ qi_source qi' = qi_source qi.
Proof.
  intros st fuel qi w a qi' w' H. unfold qnext in H. unfold qiter_has. destruct (qi_kind qi) as [it|tb idx cur].
  - destruct (direct_loop fuel fuel it _) as [[r it1] w1]. inversion H; subst. cbn [qi_source qi_kind]. auto.
  - destruct (indirect_loop fuel fuel _ _ tb idx cur _) as [[[r idx1] cur1] w1] eqn:E. inversion H; subst. cbn [qi_source qi_kind].
    rewrite (indirect_has st _ _ _ _ _ _ _ _ _ _ _ _ E). auto.
Qed.

Definition of_name (st : stage) (q : query) : Prop :=
  match st with StSingleLabel | StRrtype | StBailiwick => stage_used false q st | _ => False end.

Lemma cond_has : forall st b s f u, source_has st (filter_set_cond b s f u) = (b && stage_eqb st s) || source_has st u.
Proof. intros st [] s f u; reflexivity. Qed.

Lemma bailiwick_has : forall st q u, source_has st (opt_filter_bailiwick q u) =
  (match q_bailiwick q with Some _ => true | None => false end && stage_eqb st StBailiwick) || source_has st u.
Proof. intros st q u. unfold opt_filter_bailiwick. destruct (q_bailiwick q); reflexivity. Qed.

Lemma init_has : forall st q s i p, query_init q s i = Ok p -> source_has st s = false -> source_has st i = false ->
  (source_has st (p_source p) || match p_index p with Some (_, it) => iter_has st it | None => false end = true <-> of_name st q).
Proof.
  intros st q s i p H HS HI. unfold query_init in H.
  pose proof (left_wild_iff (asked_name q)) as HL. pose proof (right_wild_iff (asked_name q)) as HR.
  change (asked_name q) with (name_data q) in *.
  destruct (q_type q) eqn:ET.
  - unfold init_rrset in H. destruct (is_left_wildcard (name_data q)) as [wp|].
    + unfold init_rrset_left_wildcard in H. destruct (reverse_buf _ _); try discriminate. cbn [bind] in H. inversion H; subst.
      cbn [p_source p_index]. rewrite bailiwick_has, !cond_has, HS.
      unfold of_name, stage_used, one_label, wildcard_name, wild_left in *. rewrite ET. change (asked_name q) with (name_data q).
      destruct st, wp, (q_do_rrtype q), (q_bailiwick q); cbn; intuition congruence.
    + destruct (is_right_wildcard (name_data q)) as [wp|].
      * unfold init_rrset_right_wildcard in H. inversion H; subst. cbn [p_source p_index]. rewrite open_has, bailiwick_has, !cond_has, HS, HI.
        unfold of_name, stage_used, one_label, wildcard_name, wild_left, wild_right in *. rewrite ET. change (asked_name q) with (name_data q).
        destruct st, wp, (q_do_rrtype q), (q_bailiwick q); cbn; intuition congruence.
      * destruct (reverse_buf _ _); try discriminate. cbn [bind] in H.
        unfold of_name, stage_used, one_label, wildcard_name, wild_left, wild_right in *. rewrite ET. change (asked_name q) with (name_data q).
        destruct (q_do_rrtype q).
        -- destruct (add_rrtype_to_key _ _); try discriminate. cbn [bind] in H. inversion H; subst. cbn [p_source p_index]. rewrite HS.
           destruct st; cbn; intuition congruence.
        -- inversion H; subst. cbn [p_source p_index]. rewrite bailiwick_has, HS. destruct st, (q_bailiwick q); cbn; intuition congruence.
  - unfold init_rdata_name in H.
    unfold of_name, stage_used, one_label, wildcard_name, wild_left, wild_right in *. rewrite ET. change (asked_name q) with (name_data q).
    destruct (is_right_wildcard (name_data q)) as [wp|].
    + unfold init_rdata_right_wildcard in H. inversion H; subst. cbn [p_source p_index]. rewrite cond_has. cbn [source_has]. rewrite HS.
      destruct st, wp; cbn; intuition congruence.
    + destruct (is_left_wildcard (name_data q)) as [wp|].
      * unfold init_rdata_left_wildcard in H. destruct (reverse_buf _ _); try discriminate. cbn [bind] in H. inversion H; subst.
        cbn [p_source p_index]. rewrite open_has, cond_has. cbn [source_has]. rewrite HS, HI. destruct st, wp; cbn; intuition congruence.
      * match type of H with bind ?x _ = _ => destruct x; try discriminate end. cbn [bind] in H. inversion H; subst. cbn [p_source p_index source_has]. rewrite HS.
        destruct st; cbn; intuition congruence.
  - unfold init_rdata_ip in H. destruct (negb (q_do_rrtype q)); [discriminate|]. destruct (q_len_ip1 q =? 0); [discriminate|].
    destruct (add_rrtype_to_key _ _); try discriminate. cbn [bind] in H. match type of H with bind ?x _ = _ => destruct x; try discriminate end.
    cbn [bind] in H. inversion H; subst. cbn [p_source p_index source_has]. rewrite HS. unfold of_name, stage_used, one_label. rewrite ET.
    destruct st; cbn; intuition congruence.
  - unfold init_rdata_raw in H. destruct (_ <? _); [discriminate|]. inversion H; subst. cbn [p_source p_index]. rewrite cond_has, HS.
    unfold of_name, stage_used, one_label. rewrite ET. destruct st, (q_do_rrtype q); cbn; intuition congruence.
  - inversion H; subst. cbn [p_source p_index]. rewrite HS. unfold of_name, stage_used, one_label. rewrite ET. destruct st; cbn; intuition congruence.
  - inversion H; subst. cbn [p_source p_index]. rewrite HS. unfold of_name, stage_used, one_label. rewrite ET. destruct st; cbn; intuition congruence.
  - inversion H; subst. cbn [p_source p_index]. rewrite HS. unfold of_name, stage_used, one_label. rewrite ET. destruct st; cbn; intuition congruence.
Qed.

(** What the fence adds is in use exactly when the query says so. *)
Definition fence_fits (set : bool) (q : query) (fc : fenced) : Prop :=
  (f_remove fc <> None <-> merged_files set q /\ (q_do_tfa q = true \/ q_do_tlb q = true)) /\
  (f_fill fc <> None <-> merged_files set q /\ time_bounded q).

Lemma has_bound_iff : forall q, has_time_bound q = true <-> time_bounded q.
Proof. intros q. unfold has_time_bound, time_bounded. destruct (q_do_tfa q), (q_do_tlb q), (q_do_tfb q), (q_do_tla q); cbn; intuition congruence. Qed.

Definition listed (st : stage) : Prop := st <> StFileset /\ st <> StFillMerger.

Lemma stack_bool : forall st q fc s, source_has st (stack_filters q fc s) =
  ((0 <? q_offset q) && stage_eqb st StOffset) || ((has_time_bound q && stage_eqb st StTime) || ((is_some (f_fill fc) && stage_eqb st StLjoin) ||
  ((has_time_bound q && is_some (f_remove fc) && stage_eqb st StRemoveStrict) || ((has_time_bound q && stage_eqb st StTimePrefilter) || source_has st s)))).
Proof.
  intros st q fc s. unfold stack_filters.
  destruct (0 <? q_offset q), (has_time_bound q), (f_remove fc), (f_fill fc); reflexivity.
Qed.

Lemma stack_has : forall set q fc st s, listed st -> fence_fits set q fc -> (source_has st s = true -> of_name st q) ->
  (source_has st (stack_filters q fc s) = true <-> source_has st s = true \/ (~ of_name st q /\ stage_used set q st)).
Proof.
  intros set q fc st s [L1 L2] [F1 F2] HS. rewrite stack_bool. pose proof (has_bound_iff q) as HB.
  assert (TT : q_do_tfa q = true \/ q_do_tlb q = true -> time_bounded q) by (unfold time_bounded; tauto).
  pose proof (N.ltb_lt 0 (q_offset q)) as HO.
  destruct st; try congruence; cbn -[N.ltb time_bounded merged_files one_label] in *;
    rewrite ?Bool.andb_false_r, ?Bool.andb_true_r, ?Bool.orb_false_l; destruct (source_has _ s); try (exfalso; tauto);
    rewrite ?Bool.orb_false_r; try tauto; try (split; [discriminate|tauto]).
  - destruct (has_time_bound q), (f_remove fc); cbn [is_some andb]; intuition congruence.
  - destruct (f_fill fc); cbn [is_some]; intuition congruence.
Qed.

Lemma stack_fill : forall set q fc s, fence_fits set q fc -> has_fill s = false ->
  (has_fill (stack_filters q fc s) = true <-> stage_used set q StFillMerger).
Proof.
  intros set q fc s [F1 F2] H. unfold stack_filters. cbn [stage_used].
  destruct (0 <? q_offset q), (has_time_bound q), (f_remove fc), (f_fill fc); cbn [has_fill]; rewrite ?H; intuition congruence.
Qed.

Lemma init_fill : forall q s i p, query_init q s i = Ok p -> has_fill s = false -> has_fill (p_source p) = false.
Proof.
  assert (C : forall b s f u, has_fill u = false -> has_fill (filter_set_cond b s f u) = false) by (intros [] s f u H; exact H).
  assert (B : forall q u, has_fill u = false -> has_fill (opt_filter_bailiwick q u) = false) by (intros q u H; unfold opt_filter_bailiwick; destruct (q_bailiwick q); exact H).
  intros q s i p H HS. unfold query_init, init_rrset, init_rrset_left_wildcard, init_rrset_right_wildcard, init_rdata_name, init_rdata_right_wildcard,
    init_rdata_left_wildcard, init_rdata_ip, init_rdata_raw in H.
  repeat match type of H with
  | bind ?x _ = _ => destruct x; try discriminate; cbn [bind] in H
  | (if ?b then _ else _) = _ => destruct b; try discriminate
  | match ?x with _ => _ end = _ => destruct x; try discriminate
  end; inversion H; subst; cbn [p_source has_fill]; auto.
Qed.

Definition has_inv (set : bool) (q : query) (qi : qiter) : Prop :=
  (forall st, listed st -> (qiter_has st qi = true <-> stage_used set q st)) /\
  (has_fill (qi_source qi) = true <-> stage_used set q StFillMerger) /\ timed_calm q qi.

Lemma of_name_used : forall set st q, of_name st q -> stage_used set q st.
Proof. intros set [] q H; cbn [of_name] in H; try contradiction; exact H. Qed.

Lemma common_inv : forall set q fc a b qi, fence_fits set q fc -> query_iter_common q fc (SBase a) (SBase b) = Ok qi -> has_inv set q qi.
Proof.
  intros set q fc a b qi HF H. split; [|split]; [| |eapply iter_common_calm; [| | | |exact H]; cbn; auto]; unfold query_iter_common in H.
  - intros st HL.
    set (s0 := if is_timed q then STimeout (SBase a) else SBase a) in *. set (i0 := if is_timed q then STimeout (SBase b) else SBase b) in *.
    assert (S0 : source_has st s0 = false) by (unfold s0; destruct (is_timed q); reflexivity).
    assert (I0 : source_has st i0 = false) by (unfold i0; destruct (is_timed q); reflexivity).
    destruct (query_init q s0 i0) as [p| | | |] eqn:EP; try discriminate. cbn [bind] in H. inversion H; subst qi. clear H.
    pose proof (init_has st q s0 i0 p EP S0 I0) as HN. unfold qiter_has. cbn [qi_source qi_kind].
    assert (HS : source_has st (p_source p) = true -> of_name st q) by (intro X; apply HN; rewrite X; reflexivity).
    pose proof (stack_has set q fc st (p_source p) HL HF HS) as HK.
    assert (HX : forall x, (source_has st (p_source p) || x = true <-> of_name st q) ->
      (source_has st (stack_filters q fc (p_source p)) || x = true <-> stage_used set q st)).
    { intros x Hx. pose proof (of_name_used set st q) as U.
      assert (D : of_name st q \/ ~ of_name st q) by (rewrite <- Hx; destruct (source_has st (p_source p)), x; cbn; intuition congruence).
      destruct (source_has st (stack_filters q fc (p_source p))), (source_has st (p_source p)), x; cbn in *; intuition congruence. }
    destruct (p_index p) as [[tb it]|]; [apply HX, HN|].
    destruct (p_key2 p); apply HX, HN.
  - destruct (query_init q _ _) as [p| | | |] eqn:EP; try discriminate. cbn [bind] in H. inversion H; subst qi. cbn [qi_source].
    apply stack_fill; [exact HF|]. eapply init_fill; [exact EP|]. destruct (is_timed q); reflexivity.
Qed.

Lemma retime_used : forall set q tm st, stage_used set (retime tm q) st <-> stage_used set q st.
Proof. intros set q [|x|x] st; reflexivity. Qed.

Lemma query_inv : forall lib r q qi, dnstable_reader_query lib r q = Ok qi -> has_inv (over_set r) q qi.
Proof.
  intros lib r q qi H. unfold dnstable_reader_query, over_set in *. destruct (r_fs r) as [fs|].
  - unfold dnstable_query_iter_fileset in H. destruct (fates q fs) as [l| | | |]; try discriminate. cbn [bind] in H.
    assert (HF : fence_fits true q {| f_remove := if q_aggregated q && has_time_bound q && (q_do_tfa q || q_do_tlb q) then Some (files_with Remove l) else None;
               f_fill := if q_aggregated q && has_time_bound q then Some (lib_merged lib (files_with Fill l)) else None |}).
    { pose proof (has_bound_iff q) as HB. unfold fence_fits, merged_files. cbn [f_remove f_fill].
      assert (TT : q_do_tfa q = true \/ q_do_tlb q = true -> time_bounded q) by (unfold time_bounded; tauto).
      destruct (q_aggregated q), (has_time_bound q), (q_do_tfa q), (q_do_tlb q); cbn; intuition congruence. }
    destruct (q_aggregated q) eqn:EA; (eapply common_inv; [|exact H]); exact HF.
  - destruct (r_source r) as [t|]; [|discriminate]. eapply common_inv; [|exact H].
    unfold fence_fits, no_fence, merged_files. cbn [f_remove f_fill]. intuition congruence.
Qed.

Lemma iterator_inv : forall lib r q qi, reader_iterator lib r q qi -> has_inv (over_set r) q qi.
Proof.
  intros lib r q qi H. induction H as [q qi H|q fuel qi w a qi' w' H IH E|q qi tm H IH E].
  - eapply query_inv; eauto.
  - destruct IH as (A & B & C). split; [|split].
    + intros st HL. rewrite (proj1 (qnext_has st _ _ _ _ _ _ E)). apply A, HL.
    + rewrite (proj2 (qnext_has StTime _ _ _ _ _ _ E)). exact B.
    + eapply qnext_clock; eauto.
  - destruct IH as (A & B & C). split; [|split].
    + intros st HL. rewrite retime_used. apply A, HL.
    + rewrite retime_used. exact B.
    + destruct C as (EQ & SC & ST & HK). unfold timed_calm, set_timing. cbn [qi_query qi_source qi_kind].
      rewrite (retime_timed tm q E). rewrite E in *. rewrite EQ. auto.
Qed.

(** Which statistics there are: the question for a number fails for a stage that is not
    at work (the stage merging the added files always has an answer); a number exists for
    the stages at work and the categories they keep.  Otherwise 0 is answered, but for
    seeks and for the stage merging the added files. *)
Theorem statistics_there : forall lib r q qi w st c ok ex num, reader_iterator lib r q qi ->
  iter_get_count qi w st c = (ok, ex, num) ->
  (ok = true <-> stage_used (over_set r) q st \/ st = StFillMerger) /\
  (ex = true <-> stage_used (over_set r) q st /\ In c (keeps st)) /\
  (ok = false -> num = 0) /\ (ex = false -> c <> CSeek -> st <> StFillMerger -> num = 0).
Proof.
  intros lib r q qi w st c ok ex num HR H. destruct (iterator_inv lib r q qi HR) as (A & B & _).
  assert (A' : listed st -> forall b, qiter_has st qi = b -> if b then stage_used (over_set r) q st else ~ stage_used (over_set r) q st).
  { intros HL b E. specialize (A st HL). rewrite E in A. destruct b; [apply A; reflexivity|]. intro X. apply A in X. discriminate X. }
  assert (B' : forall b, has_fill (qi_source qi) = b -> if b then stage_used (over_set r) q StFillMerger else ~ stage_used (over_set r) q StFillMerger).
  { intros b E. rewrite E in B. destruct b; [apply B; reflexivity|]. intro X. apply B in X. discriminate X. }
  clear A B.
  destruct (stage_eqb st StFileset) eqn:E1; [destruct st; try discriminate|destruct (stage_eqb st StFillMerger) eqn:E2; [destruct st; try discriminate|]].
  - cbn in H. destruct c; inversion H; subst; cbn; intuition congruence.
  - unfold iter_get_count in H. specialize (B' _ eq_refl). destruct (has_fill (qi_source qi)); set (P := stage_used _ _ _) in *; clearbody P;
      destruct c; cbn in H; inversion H; subst; cbn [keeps In]; intuition congruence.
  - specialize (A' ltac:(split; intros ->; discriminate) _ eq_refl).
    unfold iter_get_count, stage_counter, filter_counter, remove_counter, ljoin_counter, filtered_only in H.
    destruct (qiter_has st qi) eqn:EP; set (P := stage_used _ _ _) in *; clearbody P;
    destruct st; try discriminate; destruct c; cbn [fst snd andb] in H; inversion H; subst; cbn [keeps In]; intuition congruence.
Qed.
Print Assumptions statistics_there.

Lemma calls_cm : forall lib r n q fuel qi w, reader_iterator lib r q qi -> counters_match w -> counters_match (after_calls fuel n qi w).
Proof.
  intros lib r. induction n as [|n IH]; intros q fuel qi w HI HC; cbn [after_calls]; [exact HC|].
  destruct (qnext fuel qi w) as [[a qi'] w'] eqn:E. apply (IH q).
  - eapply ri_next; eauto.
  - eapply qnext_cm; [apply (iterator_inv _ _ _ _ HI)|exact HC|exact E].
Qed.

(** However often dnstable_iter_next has been called, the numbers there are, are those of
    the entries the stage rejected, of the values it merged and of the seeks it made. *)
Theorem statistics_count : forall lib r q qi w fuel n st c ok num, reader_iterator lib r q qi -> fresh w ->
  st <> StFileset -> st <> StFillMerger -> c <> CFiles ->
  iter_get_count qi (after_calls fuel n qi w) st c = (ok, true, num) ->
  num = N.of_nat (length (filter (event_is st c) (w_log (after_calls fuel n qi w)))).
Proof.
  intros lib r q qi w fuel n st c ok num HR HF N1 N2 N3 H.
  pose proof (calls_cm lib r n q fuel qi w HR (fresh_matches w HF)) as HC.
  rewrite <- HC. unfold iter_get_count, stage_counter, filter_counter, remove_counter, ljoin_counter, filtered_only in H.
  destruct st; try congruence; destruct (qiter_has _ qi); destruct c; cbn [fst snd andb] in H; inversion H; congruence.
Qed.
Print Assumptions statistics_count.

Lemma stack_removed : forall q fc s, removed_count s = 0 -> removed_count (stack_filters q fc s) =
  if has_time_bound q then match f_remove fc with Some l => N.of_nat (length l) | None => 0 end else 0.
Proof.
  intros q fc s H. unfold stack_filters.
  destruct (0 <? q_offset q), (has_time_bound q), (f_remove fc), (f_fill fc); cbn [removed_count]; auto.
Qed.

Lemma init_removed : forall q s i p, query_init q s i = Ok p -> removed_count s = 0 -> removed_count (p_source p) = 0.
Proof.
  assert (C : forall b s f u, removed_count u = 0 -> removed_count (filter_set_cond b s f u) = 0) by (intros [] s f u H; exact H).
  assert (B : forall q u, removed_count u = 0 -> removed_count (opt_filter_bailiwick q u) = 0) by (intros q u H; unfold opt_filter_bailiwick; destruct (q_bailiwick q); exact H).
  intros q s i p H HS. unfold query_init, init_rrset, init_rrset_left_wildcard, init_rrset_right_wildcard, init_rdata_name, init_rdata_right_wildcard,
    init_rdata_left_wildcard, init_rdata_ip, init_rdata_raw in H.
  repeat match type of H with
  | bind ?x _ = _ => destruct x; try discriminate; cbn [bind] in H
  | (if ?b then _ else _) = _ => destruct b; try discriminate
  | match ?x with _ => _ end = _ => destruct x; try discriminate
  end; inversion H; subst; cbn [p_source removed_count]; auto.
Qed.

Lemma removed_role : forall q f r, strict f -> time_range f r -> (fate_for q r = Remove <-> file_removed q f).
Proof.
  intros q f r S R. assert (B : forall b, before b f <-> match r with Some (mn, mx) => mx < b | None => False end).
  { intro b. split; [intros (mn & mx & T & L); rewrite (time_range_fun f r _ S R T); exact L|]. destruct r as [[mn mx]|]; [intro L; exists mn, mx; auto|tauto]. }
  assert (A : forall b, after b f <-> match r with Some (mn, mx) => b < mn | None => False end).
  { intro b. split; [intros (mn & mx & T & L); rewrite (time_range_fun f r _ S R T); exact L|]. destruct r as [[mn mx]|]; [intro L; exists mn, mx; auto|tauto]. }
  unfold file_removed, too_early, too_late, adds_only. rewrite !B, !A. clear A B. unfold fate_for.
  destruct r as [[mn mx]|]; [|intuition discriminate].
  destruct (q_do_tfa q), (q_do_tla q), (q_do_tlb q), (q_do_tfb q); cbn [andb negb];
    repeat match goal with |- context [if ?a <? ?b then _ else _] => destruct (N.ltb_spec a b) end; split; intros; try discriminate; try reflexivity; try (exfalso; intuition lia); intuition (try discriminate; try lia).
Qed.

Lemma iterator_source : forall lib r q qi, reader_iterator lib r q qi ->
  exists q0 qi0, dnstable_reader_query lib r q0 = Ok qi0 /\ qi_source qi = qi_source qi0 /\
    (forall l, fates q0 l = fates q l) /\ q_aggregated q0 = q_aggregated q /\ has_time_bound q0 = has_time_bound q /\ q_do_tfa q0 = q_do_tfa q /\ q_do_tlb q0 = q_do_tlb q.
Proof.
  intros lib r q qi H. induction H as [q qi H|q fuel qi w a qi' w' H IH E|q qi tm H IH E].
  - exists q, qi. auto 8.
  - destruct IH as (q0 & qi0 & A & B & C). exists q0, qi0. rewrite (proj2 (qnext_has StTime _ _ _ _ _ _ E)). auto.
  - destruct IH as (q0 & qi0 & A & B & C & D). exists q0, qi0. split; [exact A|]. split; [exact B|].
    assert (F : forall l, fates (retime tm q) l = fates q l).
    { induction l as [|f l IHl]; [reflexivity|]. cbn [fates]. rewrite IHl. destruct tm; reflexivity. }
    split; [intro l; rewrite F; apply C|]. destruct tm; exact D.
Qed.

(** The number of files of the stage that removes records is that of the files of the set
    that serve for nothing else. *)
Theorem removing_files_counted : forall lib files q qi w, Forall file_ok files -> reader_iterator lib (dnstable_reader_init_setfile files) q qi ->
  stage_used true q StRemoveStrict ->
  exists removing, selects (file_removed q) files removing /\
    iter_get_count qi w StRemoveStrict CFiles = (true, true, N.of_nat (length removing)).
Proof.
  intros lib files q qi w HO HR HU. destruct (iterator_source _ _ _ _ HR) as (q0 & qi0 & HQ & ES & EF & EA & ET & E1 & E2).
  destruct (iterator_inv _ _ _ _ HR) as (A & _ & _). cbn [over_set dnstable_reader_init_setfile r_fs] in A.
  assert (HP : qiter_has StRemoveStrict qi = true) by (apply A; [split; discriminate|exact HU]).
  destruct (fates_found q files HO) as (l & EL & EM & HF). exists (files_with Remove l). split.
  - assert (HS : Forall strict (map snd l)) by (rewrite EM; eapply Forall_impl; [|exact HO]; intros f (S & _); exact S).
    rewrite <- EM. eapply selects_ext; [exact (files_with_selects q Remove l HS HF)|]. rewrite EM. eapply Forall_impl; [|exact HO]. intros f (S & r & R & _).
    rewrite <- (removed_role q f r S R). split; [intros (r' & R' & E); rewrite (time_range_fun f r r' S R R'); exact E|intro E; exists r; auto].
  - unfold iter_get_count, stage_counter, remove_counter. rewrite HP. cbn [fst snd]. rewrite ES. do 2 f_equal.
    destruct HU as [[_ HA] HB]. cbn [dnstable_reader_query dnstable_reader_init_setfile r_fs] in HQ. unfold dnstable_query_iter_fileset in HQ.
    rewrite EF, EL in HQ. cbn [bind] in HQ. rewrite EA, HA, ET, E1, E2 in HQ.
    assert (HT : has_time_bound q = true) by (apply has_bound_iff; unfold time_bounded; tauto).
    assert (HT2 : q_do_tfa q || q_do_tlb q = true) by (destruct HB as [-> | ->]; [reflexivity|apply Bool.orb_true_r]).
    rewrite HT, HT2 in HQ. cbn [andb] in HQ. unfold query_iter_common in HQ.
    destruct (query_init q0 _ _) as [p| | | |] eqn:EP; try discriminate. cbn [bind] in HQ. inversion HQ; subst qi0. cbn [qi_source].
    rewrite stack_removed; [rewrite ET, HT; reflexivity|]. eapply init_removed; [exact EP|]. destruct (is_timed q0); reflexivity.
Qed.
Print Assumptions removing_files_counted.

(** Three files, first seen after 50 and last seen after 300: two files can contribute
    results, one has nothing but records to remove. *)
Example c41_counters_case : exists qi, reader_iterator lib0 (dnstable_reader_init_setfile demo_files) Q30 qi /\
  (let w := after_calls 100 3 qi (load_offset Q30 world0) in
   map (fun st => map (iter_get_count qi w st) [CFiltered; CMerged; CSeek; CFiles]) [StRrtype; StTime; StRemoveStrict; StLjoin; StOffset] =
     [[(true, true, 0); (true, false, 0); (true, true, 0); (true, false, 0)];
      [(true, true, 0); (true, false, 0); (true, false, 0); (true, false, 0)];
      [(true, true, 1); (true, false, 0); (true, true, 1); (true, true, 1)];
      [(true, false, 0); (true, true, 1); (true, true, 0); (true, false, 0)];
      [(false, false, 0); (false, false, 0); (false, false, 0); (false, false, 0)]]) /\
  stage_used true Q30 StRemoveStrict /\ stage_used true Q30 StLjoin /\ stage_used true Q30 StRrtype /\ ~ stage_used true Q30 StOffset.
Proof.
  eexists. split; [apply ri_new; reflexivity|]. split; [vm_compute; reflexivity|].
  cbn. unfold merged_files, time_bounded, wildcard_name, wild_left, begins_with, star_sign. cbn. repeat split; auto; try (intro; discriminate).
  left. left. do 2 eexists. reflexivity.
Qed.
