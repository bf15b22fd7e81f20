(** Calls change nothing of the query but its offset, and this only through iterators made
    with one. *)
From Verif Require Import Base BaseFacts ModelVarint ModelMerge ModelEntry ModelIter ModelQuery ModelSetters ModelFileset ModelLive SpecQuery SpecSettings SpecLive SoundProofs LiveProofs.

Section Offset.
Variable R : N -> N -> Prop.
Hypothesis R_refl : forall n, R n n.
Hypothesis R_trans : forall a b c, R a b -> R b c -> R a c.
Definition tame_filter (f : filter_fn) : Prop := forall w k v, R (w_offset w) (w_offset (snd (f w k v))).
Fixpoint tame_iter (it : iter) : Prop :=
  match it with
  | IBase _ => True
  | IFilter _ f u => tame_filter f /\ tame_iter u
  | ITimeout u | IRemove _ _ u | ILjoin _ _ _ _ u => tame_iter u
  end.
Fixpoint tame_source (s : source) : Prop :=
  match s with
  | SBase _ => True
  | SFilter _ f u => tame_filter f /\ tame_source u
  | STimeout u | SRemove _ u | SLjoin _ _ u => tame_source u
  end.
Lemma tame_open : forall h s, tame_source s -> tame_iter (open h s).
Proof using. intros h s. induction s; cbn [tame_source tame_iter open]; tauto. Qed.

Lemma rm_seek_offset : forall k l w, w_offset (snd (remove_entries_seek k l w)) = w_offset w.
Proof using.
  intros k l. induction l as [|re l IH]; intro w; [reflexivity|]. cbn [remove_entries_seek].
  assert (H1 : w_offset (snd (remove_entry_seek k re w)) = w_offset w).
  { unfold remove_entry_seek. destruct (re_it re); [|reflexivity]. destruct (_ || _); [|reflexivity]. destruct (base_seek k b w) as [ok b1]. destruct ok; [|reflexivity]. destruct (base_next b1) as [[e|] b2]; reflexivity. }
  destruct (remove_entry_seek k re w) as [re' w1]. cbn [snd] in H1. specialize (IH w1). destruct (remove_entries_seek k l w1) as [r' w2]. cbn [snd] in *. congruence.
Qed.
Lemma seek_tame : forall k it w, w_offset (snd (seek k it w)) = w_offset w /\ (tame_iter it -> tame_iter (snd (fst (seek k it w)))).
Proof using.
  intros k it. induction it as [b|st f u IH|u IH|h rms u IH|mf rb rk fin u IH]; intro w; cbn [seek].
  - destruct (base_seek k b w). split; [reflexivity|auto].
  - specialize (IH w). destruct (seek k u w) as [[ok u'] w']. cbn [fst snd tame_iter] in *. tauto.
  - specialize (IH w). destruct (seek k u w) as [[ok u'] w']. cbn [fst snd tame_iter] in *. tauto.
  - pose proof (rm_seek_offset k rms w) as H. destruct (remove_entries_seek k rms w) as [rms' w1]. cbn [snd] in H. specialize (IH w1). destruct (seek k u w1) as [[ok u'] w']. cbn [fst snd tame_iter] in *.
    split; [destruct IH; congruence|tauto].
  - specialize (IH w). destruct (seek k u w) as [[ok u'] w']. cbn [fst snd] in IH. destruct ok; [destruct (base_seek k rb w')|]; cbn [fst snd tame_iter]; tauto.
Qed.
Lemma match_entry_offset : forall fuel k re w m re' w', match_entry fuel k re w = Some (m, re', w') -> w_offset w' = w_offset w.
Proof using.
  induction fuel as [|f IH]; intros k re w m re' w' E; cbn [match_entry] in E; [discriminate|]. destruct (re_finished re); [injection E as <- <- <-; reflexivity|].
  destruct (re_it re) as [b|]; [|injection E as <- <- <-; reflexivity]. destruct (bytes_compare (re_key re) k); try (injection E as <- <- <-; reflexivity).
  destruct (base_seek k b w) as [ok b1]. destruct ok; [|injection E as <- <- <-; reflexivity]. destruct (base_next b1) as [[e|] b2]; [|injection E as <- <- <-; reflexivity].
  apply IH in E. exact E.
Qed.
Lemma open_entry_offset : forall h k re w, w_offset (snd (open_entry h k re w)) = w_offset w.
Proof using.
  intros h k re w. unfold open_entry. destruct (re_it re); [reflexivity|]. destruct (base_seek _ _ _) as [ok b1]. destruct ok; [|reflexivity]. destruct (base_next b1) as [[e|] b2]; reflexivity.
Qed.
Lemma match_key_offset : forall fuel h k v l w m l' w', match_key fuel h k v l w = Some (m, l', w') -> w_offset w' = w_offset w.
Proof using.
  intros fuel h k v l. induction l as [|re l IH]; intros w m l' w' E; cbn [match_key] in E; [injection E as <- <- <-; reflexivity|].
  pose proof (open_entry_offset h k re w) as H1. destruct (open_entry h k re w) as [re1 w1]. cbn [snd] in H1.
  destruct (match_entry fuel k re1 w1) as [[[[|] re2] w2]|] eqn:E2; [| |discriminate]; apply match_entry_offset in E2.
  - injection E as <- <- <-. cbn. congruence.
  - destruct (match_key fuel h k v l w2) as [[[b r'] w3]|] eqn:E3; [|discriminate]. apply IH in E3. destruct b; [destruct r'|]; injection E as <- <- <-; congruence.
Qed.
Lemma join_offset : forall fuel mf rb rkv fin lk lv w o rb' rkv' fin' w', join_right fuel mf rb rkv fin lk lv w = (o, rb', rkv', fin', w') -> w_offset w' = w_offset w.
Proof using.
  induction fuel as [|f IH]; intros mf rb rkv fin lk lv w o rb' rkv' fin' w' E; cbn [join_right] in E; [injection E as <- <- <- <- <-; reflexivity|].
  destruct fin; [injection E as <- <- <- <- <-; reflexivity|]. destruct (match rkv with Some e => (Some e, rb) | None => base_next rb end) as [[[rk rv]|] rb1]; [|injection E as <- <- <- <- <-; reflexivity].
  destruct (bytes_compare rk lk).
  - destruct (mf lk lv rv); injection E as <- <- <- <- <-; reflexivity.
  - destruct (base_seek lk rb1 w) as [ok rb2]. destruct ok; [apply IH in E; exact E|injection E as <- <- <- <- <-; reflexivity].
  - injection E as <- <- <- <- <-; reflexivity.
Qed.

Lemma next_tame : forall fuel it w o it' w', tame_iter it -> next fuel it w = (o, it', w') -> tame_iter it' /\ R (w_offset w) (w_offset w').
Proof using R_refl R_trans.
  induction fuel as [|f IH]; intros it w o it' w' HT E; cbn [next] in E; [injection E as <- <- <-; auto|].
  destruct it as [b|st ff u|u|h rms u|mf rb rk fin u].
  - destruct (base_next b) as [[e|] b']; injection E as <- <- <-; split; auto; exact I.
  - destruct HT as [HF HT]. destruct (next f u w) as [[o1 u1] w1] eqn:E1. destruct (IH u _ _ _ _ HT E1) as [HT1 HR1].
    destruct o1 as [[k v]| | | | |]; try (injection E as <- <- <-; cbn [tame_iter]; auto). specialize (HF w1 k v) as HF1. destruct (ff w1 k v) as [fr w2]. cbn [snd] in HF1.
    assert (HR2 : R (w_offset w) (w_offset w2)) by (eapply R_trans; eauto).
    destruct fr; try (injection E as <- <- <-; cbn [tame_iter]; auto).
    + apply IH in E; [|cbn [tame_iter]; auto]. cbn [note bump w_offset] in E. destruct E as [A B]. split; [exact A|eapply R_trans; eauto].
    + pose proof (seek_tame k0 u1 (note (EvSeek st k0) (bump st CSeek w2))) as HS. destruct (seek k0 u1 _) as [[ok u2] w3]. cbn [fst snd note bump w_offset] in HS. destruct HS as [HS1 HS2]. specialize (HS2 HT1). destruct ok.
      * apply IH in E; [|cbn [tame_iter]; auto]. cbn [note bump w_offset] in E. rewrite HS1 in E. destruct E as [A B]. split; [exact A|eapply R_trans; eauto].
      * injection E as <- <- <-. cbn [tame_iter]. rewrite HS1. auto.
  - cbn [gettime] in E. cbv beta iota in E. unfold gettime in E. match type of E with context [next f u ?w1] => set (w1' := w1) in E end.
    destruct (ts_cmp _ _); try (injection E as <- <- <-; split; [exact HT|apply R_refl]).
    destruct (next f u w1') as [[o1 u1] w2] eqn:E1. injection E as <- <- <-. apply (IH u w1' _ _ _ HT E1).
  - destruct (next f u w) as [[o1 u1] w1] eqn:E1. destruct (IH u _ _ _ _ HT E1) as [HT1 HR1]. destruct o1 as [[k v]| | | | |]; try (injection E as <- <- <-; cbn [tame_iter]; auto).
    destruct (match_key f h k v rms w1) as [[[b rms'] w2]|] eqn:EM; [|injection E as <- <- <-; split; [exact HT|apply R_refl]]. apply match_key_offset in EM.
    destruct b; [apply IH in E; [|exact HT1]; rewrite EM in E; destruct E as [A B]; split; [exact A|eapply R_trans; eauto]|injection E as <- <- <-; rewrite EM; auto].
  - destruct (next f u w) as [[o1 u1] w1] eqn:E1. destruct (IH u _ _ _ _ HT E1) as [HT1 HR1]. destruct o1 as [[k v]| | | | |]; try (injection E as <- <- <-; cbn [tame_iter]; auto).
    destruct (join_right f mf rb rk fin k v w1) as [[[[o2 rb'] rkv'] fin'] w2] eqn:EJ. apply join_offset in EJ. injection E as <- <- <-. rewrite EJ. auto.
Qed.

Definition tame_kind (k : kind) : Prop := match k with Direct it => tame_iter it | Indirect _ idx cur => tame_iter idx /\ forall it, cur = Some it -> tame_iter it end.
Lemma direct_tame : forall n fuel it w r it' w', tame_iter it -> direct_loop n fuel it w = (r, it', w') -> tame_iter it' /\ R (w_offset w) (w_offset w').
Proof using R_refl R_trans.
  induction n as [|n IH]; intros fuel it w r it' w' HT E; cbn [direct_loop] in E; [injection E as <- <- <-; auto|].
  destruct (next fuel it w) as [[o u1] w1] eqn:E1. destruct (next_tame _ _ _ _ _ _ HT E1) as [A B]. destruct o as [[k v]| | | | |]; try (injection E as <- <- <-; auto).
  destruct (entry_decode k v); try (injection E as <- <- <-; auto). apply IH in E; [|exact A]. destruct E. split; [assumption|eapply R_trans; eauto].
Qed.
Lemma indirect_tame : forall n fuel q src tb idx cur w r idx' cur' w', tame_source src -> tame_iter idx -> (forall it, cur = Some it -> tame_iter it) ->
  indirect_loop n fuel q src tb idx cur w = (r, idx', cur', w') -> tame_iter idx' /\ (forall it, cur' = Some it -> tame_iter it) /\ R (w_offset w) (w_offset w').
Proof using R_refl R_trans.
  induction n as [|n IH]; intros fuel q src tb idx cur w r idx' cur' w' HS HI HC E; cbn [indirect_loop] in E; [injection E as <- <- <- <-; auto|].
  assert (HN : forall it, @None iter = Some it -> tame_iter it) by discriminate.
  destruct cur as [it|].
  - destruct (next fuel it w) as [[o u1] w1] eqn:E1. destruct (next_tame _ _ _ _ _ _ (HC it eq_refl) E1) as [A B].
    assert (HC1 : forall it, Some u1 = Some it -> tame_iter it) by (intros x Ex; injection Ex as <-; exact A).
    destruct o as [[k v]| | | | |]; try (injection E as <- <- <- <-; auto).
    + destruct (entry_decode k v); try (injection E as <- <- <- <-; auto). apply IH in E; auto. destruct E as (X & Y & Z). split; [exact X|split; [exact Y|eapply R_trans; eauto]].
    + apply IH in E; auto. destruct E as (X & Y & Z). split; [exact X|split; [exact Y|eapply R_trans; eauto]].
  - destruct (next fuel idx w) as [[o u1] w1] eqn:E1. destruct (next_tame _ _ _ _ _ _ HI E1) as [A B]. destruct o as [[k v]| | | | |]; try (injection E as <- <- <- <-; auto).
    destruct (index_lookup_key q tb k v) as [[fk|]| | | |]; try (injection E as <- <- <- <-; auto).
    + apply IH in E; auto; [|intros it Ex; injection Ex as <-; apply tame_open; exact HS]. destruct E as (X & Y & Z). split; [exact X|split; [exact Y|eapply R_trans; eauto]].
    + apply IH in E; auto. destruct E as (X & Y & Z). split; [exact X|split; [exact Y|eapply R_trans; eauto]].
Qed.
Lemma qnext_tame : forall fuel qi w r qi' w', tame_source (qi_source qi) -> tame_kind (qi_kind qi) -> qnext fuel qi w = (r, qi', w') ->
  tame_source (qi_source qi') /\ tame_kind (qi_kind qi') /\ R (w_offset w) (w_offset w').
Proof using R_refl R_trans.
  intros fuel qi w r qi' w' HS HK E. unfold qnext in E. set (w0 := if is_timed (qi_query qi) then iter_set_deadline (qi_query qi) w else w) in E.
  assert (E0 : w_offset w0 = w_offset w) by (unfold w0; destruct (is_timed _); [apply QueryProofs.set_deadline_offset|reflexivity]). rewrite <- E0.
  destruct (qi_kind qi) as [it|tb idx cur].
  - destruct (direct_loop fuel fuel it w0) as [[r1 it1] w1] eqn:ED. injection E as <- <- <-. destruct (direct_tame _ _ _ _ _ _ _ HK ED) as [A B]. auto.
  - destruct (indirect_loop fuel fuel _ _ _ _ _ w0) as [[[r1 i1] c1] w1] eqn:EI in E. injection E as <- <- <-. destruct HK as [H1 H2]. destruct (indirect_tame _ _ _ _ _ _ _ _ _ _ _ _ HS H1 H2 EI) as (A & B & C). cbn [qi_source qi_kind tame_kind]. auto.
Qed.

(** Filters that do not touch the world. *)
Lemma plain_tame : forall (g : bytes -> bytes -> fres), tame_filter (fun w k v => (g k v, w)).
Proof using R_refl. intros g w k v. apply R_refl. Qed.
Lemma live_tame : forall made now st f, tame_filter f -> tame_filter (live_filter made now st f).
Proof using R_refl.
  intros made now st f H. destruct st; cbn [live_filter]; try exact H; try (apply plain_tame).
  destruct (q_type made); [|destruct (q_do_rrtype made); [|exact H]| | | | |]; apply plain_tame.
Qed.
Lemma live_source_tame : forall made now s, tame_source s -> tame_source (live_source made now s).
Proof using R_refl. intros made now s. induction s; cbn [tame_source live_source]; auto. intros [A B]. split; [apply live_tame; exact A|auto]. Qed.
Lemma live_iter_tame : forall made now it, tame_iter it -> tame_iter (live_iter made now it).
Proof using R_refl. intros made now it. induction it; cbn [tame_iter live_iter]; auto. intros [A B]. split; [apply live_tame; exact A|auto]. Qed.
Lemma live_kind_tame : forall made now k, tame_kind k -> tame_kind (live_kind made now k).
Proof using R_refl.
  intros made now [it|tb idx cur]; cbn [tame_kind live_kind]; [apply live_iter_tame|]. intros [A B]. split; [apply live_iter_tame; exact A|].
  intros it Ei. destruct cur as [it0|]; [|discriminate]. injection Ei as <-. apply live_iter_tame. auto.
Qed.

Lemma cond_tame : forall c st f s, tame_filter f -> tame_source s -> tame_source (filter_set_cond c st f s).
Proof using. intros c st f s HF HS. unfold filter_set_cond. destruct c; [split; auto|exact HS]. Qed.
Lemma bailiwick_tame : forall q s, tame_source s -> tame_source (opt_filter_bailiwick q s).
Proof using R_refl. intros q s H. unfold opt_filter_bailiwick. destruct (q_bailiwick q); [split; [apply plain_tame|exact H]|exact H]. Qed.
Lemma plan_tame : forall q src idx p, query_init q src idx = Ok p -> tame_source src -> tame_source idx ->
  tame_source (p_source p) /\ forall tb it, p_index p = Some (tb, it) -> tame_iter it.
Proof using R_refl.
  intros q src idx p E HS HI. unfold query_init, init_rrset, init_rdata_name, init_rdata_ip, init_rdata_raw, init_simple, init_version in E.
  assert (F1 : tame_filter (filter_rrtype q)) by apply plain_tame. assert (F2 : tame_filter filter_rrtype_rdata_name) by apply plain_tame.
  assert (F3 : forall n, tame_filter (filter_single_label n)) by (intro n; apply plain_tame). assert (F4 : forall n, tame_filter (filter_rrtype_ip q n)) by (intro n; apply plain_tame).
  destruct (q_type q).
  - destruct (is_left_wildcard (name_data q)).
    { unfold init_rrset_left_wildcard in E. destruct (reverse_buf _ _); cbn [bind] in E; try discriminate. injection E as <-. split; [|discriminate]. apply bailiwick_tame, cond_tame, cond_tame; auto. }
    destruct (is_right_wildcard (name_data q)).
    { unfold init_rrset_right_wildcard in E. injection E as <-. split; [apply bailiwick_tame, cond_tame; auto|]. intros tb it Ei. injection Ei as <- <-. apply tame_open, cond_tame; auto. }
    destruct (reverse_buf _ _); cbn [bind] in E; try discriminate. destruct (q_do_rrtype q).
    { destruct (add_rrtype_to_key _ _); cbn [bind] in E; try discriminate. injection E as <-. split; [exact HS|discriminate]. }
    injection E as <-. split; [apply bailiwick_tame; exact HS|discriminate].
  - assert (H1 : tame_source (SFilter StRrtype (if q_do_rrtype q then filter_rrtype q else filter_rrtype_rdata_name) src)) by (split; [destruct (q_do_rrtype q); assumption|exact HS]).
    destruct (is_right_wildcard (name_data q)).
    { unfold init_rdata_right_wildcard in E. injection E as <-. split; [|discriminate]. apply cond_tame; auto. }
    destruct (is_left_wildcard (name_data q)).
    { unfold init_rdata_left_wildcard in E. destruct (reverse_buf _ _); cbn [bind] in E; try discriminate. injection E as <-. split; [exact H1|]. intros tb it Ei. injection Ei as <- <-. apply tame_open, cond_tame; auto. }
    match type of E with (let* key1 := ?x in _) = _ => destruct x; cbn [bind] in E; try discriminate end. injection E as <-. split; [exact H1|discriminate].
  - destruct (negb (q_do_rrtype q)); [discriminate|]. destruct (q_len_ip1 q =? 0); [discriminate|]. destruct (add_rrtype_to_key _ _); cbn [bind] in E; try discriminate.
    match type of E with (let* key2 := ?x in _) = _ => destruct x; cbn [bind] in E; try discriminate end. injection E as <-. split; [|discriminate]. split; [apply F4|exact HS].
  - destruct (_ <? _); [discriminate|]. injection E as <-. split; [|discriminate]. apply cond_tame; auto.
  - injection E as <-. split; [exact HS|discriminate].
  - injection E as <-. split; [exact HS|discriminate].
  - injection E as <-. split; [exact HS|discriminate].
Qed.
Lemma stack_tame : forall q fc src, (0 < q_offset q -> tame_filter filter_offset) -> tame_source src -> tame_source (stack_filters q fc src).
Proof using R_refl.
  intros q fc src HO HC. unfold stack_filters.
  assert (F1 : tame_filter (filter_time q)) by apply plain_tame. assert (F2 : tame_filter (filter_time_prefilter q)) by apply plain_tame.
  destruct (N.ltb_spec 0 (q_offset q)) as [HL|HL]; destruct (has_time_bound q), (f_remove fc), (f_fill fc); cbn [tame_source]; auto 6.
Qed.
Lemma reader_tame : forall lib r q qi, (0 < q_offset q -> tame_filter filter_offset) -> dnstable_reader_query lib r q = Ok qi -> tame_source (qi_source qi) /\ tame_kind (qi_kind qi).
Proof using R_refl.
  intros lib r q qi HO E.
  assert (HC : forall fc t ti, query_iter_common q fc (SBase t) (SBase ti) = Ok qi -> tame_source (qi_source qi) /\ tame_kind (qi_kind qi)).
  { intros fc t ti E1. unfold query_iter_common in E1. destruct (query_init q _ _) as [p| | | |] eqn:EP in E1; cbn [bind] in E1; try discriminate.
    destruct (plan_tame _ _ _ _ EP) as [H1 H2]; try (destruct (is_timed q); exact I). injection E1 as <-. cbn [qi_source qi_kind]. pose proof (stack_tame q fc _ HO H1) as H3. split; [exact H3|].
    destruct (p_index p) as [[tb it]|]; [split; [eauto|discriminate]|]. destruct (p_key2 p); apply tame_open; exact H3. }
  unfold dnstable_reader_query in E. destruct (r_fs r) as [files|].
  - unfold dnstable_query_iter_fileset in E. destruct (fates q files) as [l| | | |]; cbn [bind] in E; try discriminate. destruct (q_aggregated q); eapply HC; exact E.
  - destruct (r_source r) as [t|]; [|discriminate]. eapply HC. exact E.
Qed.
End Offset.

Definition down (a b : N) : Prop := b <= a.
Definition still (a b : N) : Prop := b = a.
Definition tame_handle (h : handle) : Prop :=
  (tame_source down (qi_source (h_it h)) /\ tame_kind down (qi_kind (h_it h))) /\
  (q_offset (h_made h) = 0 -> tame_source still (qi_source (h_it h)) /\ tame_kind still (qi_kind (h_it h))).

Lemma down_refl : forall n, down n n. Proof. unfold down. intro n. lia. Qed.
Lemma down_trans : forall a b c, down a b -> down b c -> down a c. Proof. unfold down. intros a b c. lia. Qed.
Lemma still_refl : forall n, still n n. Proof. reflexivity. Qed.
Lemma still_trans : forall a b c, still a b -> still b c -> still a c. Proof. unfold still. congruence. Qed.
Lemma offset_down : tame_filter down filter_offset.
Proof. intros w k v. unfold filter_offset, down. destruct (0 <? w_offset w); cbn; lia. Qed.

Lemma made_tame : forall lib r q qi own, dnstable_reader_query lib r q = Ok qi -> tame_handle {| h_made := q; h_it := qi; h_world := own |}.
Proof.
  intros lib r q qi own E. split; cbn [h_made h_it].
  - exact (reader_tame down down_refl _ _ _ _ (fun _ => offset_down) E).
  - intro HO. refine (reader_tame still still_refl _ _ _ _ _ E). intro. lia.
Qed.

Lemma live_next_tame : forall fuel q h clock r h' q' w', tame_handle h -> live_next fuel q h clock = (r, h', q', w') ->
  tame_handle h' /\ q_offset q' <= q_offset q /\ with_offset_of (q_offset q) q' = q /\ (q_offset (h_made h) = 0 -> q' = q).
Proof.
  intros fuel q h clock r h' q' w' [[A1 A2] B] E. unfold live_next in E. destruct (qnext fuel _ _) as [[r0 qi'] w0] eqn:EQ in E. injection E as <- <- <- <-.
  pose proof (qnext_tame down down_refl down_trans _ (live (h_made h) q (h_it h)) _ _ _ _ (live_source_tame down down_refl _ _ _ A1) (live_kind_tame down down_refl _ _ _ A2) EQ) as (C1 & C2 & C3).
  cbn [view w_offset] in C3. unfold down in C3. split; [|split; [|split]].
  - split; cbn [h_made h_it]; [auto|]. intro HO. destruct (B HO) as [B1 B2].
    destruct (qnext_tame still still_refl still_trans _ (live (h_made h) q (h_it h)) _ _ _ _ (live_source_tame still still_refl _ _ _ B1) (live_kind_tame still still_refl _ _ _ B2) EQ) as (D1 & D2 & D3). auto.
  - exact C3.
  - destruct q; reflexivity.
  - intro HO. destruct (B HO) as [B1 B2].
    destruct (qnext_tame still still_refl still_trans _ (live (h_made h) q (h_it h)) _ _ _ _ (live_source_tame still still_refl _ _ _ B1) (live_kind_tame still still_refl _ _ _ B2) EQ) as (D1 & D2 & D3).
    unfold still in D3. cbn [view w_offset] in D3. rewrite D3. destruct q; reflexivity.
Qed.

Lemma replace_forall : forall {A} (P : A -> Prop) i x l, Forall P l -> P x -> Forall P (replace i x l).
Proof. intros A P i x l H Hx. revert i. induction H as [|y l Hy Hl IH]; intro i; destruct i; cbn [replace]; constructor; auto. Qed.
Lemma replace_length : forall {A} i (x : A) l, length (replace i x l) = length l.
Proof. intros A i x l. revert i. induction l as [|y l IH]; intros [|i]; cbn [replace length]; auto. Qed.
Lemma act_tame : forall ev fuel a s x s', Forall tame_handle (s_handles s) -> do_act ev fuel a s = Ok (x, s') -> Forall tame_handle (s_handles s').
Proof.
  intros ev fuel a s x s' H E. destruct a as [c|lib r|j]; cbn [do_act] in E.
  - destruct (apply_setting ev c (s_query s)) as [[b q]| | | |]; cbn [bind fst snd] in E; try discriminate. injection E as <- <-. exact H.
  - destruct (dnstable_reader_query lib r (s_query s)) as [qi| | | |] eqn:EQ; try discriminate; injection E as <- <-; [|exact H]. cbn [s_handles]. apply Forall_app. split; [exact H|]. constructor; [|constructor]. eapply made_tame. exact EQ.
  - destruct (nth_error (s_handles s) j) as [h0|] eqn:Ej; [|discriminate]. destruct (live_next fuel (s_query s) h0 (s_world s)) as [[[r h'] q'] w'] eqn:EN. injection E as <- <-. cbn [s_handles].
    apply replace_forall; [exact H|]. rewrite Forall_forall in H. apply nth_error_In in Ej. apply (live_next_tame _ _ _ _ _ _ _ _ (H _ Ej) EN).
Qed.
Lemma acts_tame : forall ev fuel l s rs s', Forall tame_handle (s_handles s) -> do_acts ev fuel l s = Ok (rs, s') -> Forall tame_handle (s_handles s').
Proof.
  intros ev fuel l. induction l as [|a l IH]; intros s rs s' H E; cbn [do_acts] in E; [injection E as <- <-; exact H|].
  destruct (do_act ev fuel a s) as [[x s1]| | | |] eqn:EA; cbn [bind fst snd] in E; try discriminate. destruct (do_acts ev fuel l s1) as [[ys s2]| | | |] eqn:E1; cbn [bind fst snd] in E; try discriminate. injection E as <- <-.
  eapply IH; [|exact E1]. eapply act_tame; eauto.
Qed.
