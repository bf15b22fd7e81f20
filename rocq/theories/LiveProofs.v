(** Iterators of one query do not get in each other's way. *)
From Verif Require Import Base BaseFacts ModelVarint ModelMerge ModelEntry ModelIter ModelQuery ModelSetters ModelFileset ModelLive SpecQuery SpecSettings SpecLive SoundProofs SettingsProofs PropsSettings.

(** ** Iterators without timeout and offset do not depend on the rest of the world *)

Section World.
Variable seeks : table -> bytes -> bool.
Variable P : stage -> filter_fn -> Prop.
Hypothesis P_plain : forall st f, P st f -> exists g : bytes -> bytes -> fres, f = fun w k v => (g k v, w).
Definition same (w w' : world) : Prop := w_seek_end w = seeks /\ w_seek_end w' = seeks.
Lemma same_bump : forall s c s' c' w w', same w w' -> same (bump s c w) (bump s' c' w').
Proof. intros s c s' c' w w' H. exact H. Qed.
Lemma same_note : forall e e' w w', same w w' -> same (note e w) (note e' w').
Proof. intros e e' w w' H. exact H. Qed.

Fixpoint calm_iter (it : iter) : Prop :=
  match it with
  | IBase _ => True
  | IFilter st f u => P st f /\ calm_iter u
  | ITimeout _ => False
  | IRemove _ _ u => calm_iter u
  | ILjoin _ _ _ _ u => calm_iter u
  end.
Fixpoint calm_source (s : source) : Prop :=
  match s with
  | SBase _ => True
  | SFilter st f u => P st f /\ calm_source u
  | STimeout _ => False
  | SRemove _ u => calm_source u
  | SLjoin _ _ u => calm_source u
  end.
Lemma calm_open : forall h s, calm_source s -> calm_iter (open h s).
Proof using. clear. intros h s. induction s; cbn [calm_source open calm_iter]; intro H; try exact I; try contradiction; try (split; [apply H|]); apply IHs; apply H. Qed.

Lemma base_seek_same : forall k b w w', same w w' -> base_seek k b w = base_seek k b w'.
Proof. intros k b w w' H. unfold base_seek. destruct H as [-> ->]. reflexivity. Qed.

Definition agree3 {A B} (x y : A * B * world) : Prop := fst x = fst y /\ same (snd x) (snd y).
Lemma entry_seek_same : forall k re w w', same w w' ->
  fst (remove_entry_seek k re w) = fst (remove_entry_seek k re w') /\ same (snd (remove_entry_seek k re w)) (snd (remove_entry_seek k re w')).
Proof.
  intros k re w w' H. unfold remove_entry_seek. destruct (re_it re); [|auto]. destruct (_ || _); [|auto]. rewrite (base_seek_same _ _ _ _ H).
  destruct (base_seek k b w') as [ok b1]. destruct ok; [|auto]. destruct (base_next b1) as [[e|] b2]; auto.
Qed.
Lemma entries_seek_same : forall k l w w', same w w' ->
  fst (remove_entries_seek k l w) = fst (remove_entries_seek k l w') /\ same (snd (remove_entries_seek k l w)) (snd (remove_entries_seek k l w')).
Proof.
  intros k l. induction l as [|re l IH]; intros w w' H; cbn [remove_entries_seek]; [auto|].
  destruct (entry_seek_same k re w w' H) as [E1 E2]. destruct (remove_entry_seek k re w) as [a w1]. destruct (remove_entry_seek k re w') as [a' w1']. cbn [fst snd] in *. subst a'.
  destruct (IH w1 w1' E2) as [E3 E4]. destruct (remove_entries_seek k l w1) as [b w2]. destruct (remove_entries_seek k l w1') as [b' w2']. cbn [fst snd] in *. subst. auto.
Qed.
Lemma seek_same : forall k it w w', same w w' -> agree3 (seek k it w) (seek k it w').
Proof.
  intros k it. induction it as [b|st f u IH|u IH|h rms u IH|mf rb rk fin u IH]; intros w w' H; cbn [seek].
  - rewrite (base_seek_same _ _ _ _ H). destruct (base_seek k b w'). split; [reflexivity|exact H].
  - destruct (IH w w' H) as [E1 E2]. destruct (seek k u w) as [[ok u1] w1]. destruct (seek k u w') as [[ok' u1'] w1']. cbn [fst snd] in *. injection E1 as -> ->. split; auto.
  - destruct (IH w w' H) as [E1 E2]. destruct (seek k u w) as [[ok u1] w1]. destruct (seek k u w') as [[ok' u1'] w1']. cbn [fst snd] in *. injection E1 as -> ->. split; auto.
  - destruct (entries_seek_same k rms w w' H) as [E3 E4]. destruct (remove_entries_seek k rms w) as [a w1]. destruct (remove_entries_seek k rms w') as [a' w1']. cbn [fst snd] in *. subst a'.
    destruct (IH w1 w1' E4) as [E1 E2]. destruct (seek k u w1) as [[ok u1] w2]. destruct (seek k u w1') as [[ok' u1'] w2']. cbn [fst snd] in *. injection E1 as -> ->. split; auto.
  - destruct (IH w w' H) as [E1 E2]. destruct (seek k u w) as [[ok u1] w1]. destruct (seek k u w') as [[ok' u1'] w1']. cbn [fst snd] in *. injection E1 as -> ->.
    destruct ok'; [|split; auto]. rewrite (base_seek_same _ _ _ _ E2). destruct (base_seek k rb w1'). split; auto.
Qed.

Lemma match_entry_same : forall fuel key re w w', same w w' ->
  match match_entry fuel key re w, match_entry fuel key re w' with
  | Some x, Some y => agree3 x y
  | None, None => True
  | _, _ => False
  end.
Proof.
  induction fuel as [|f IH]; intros key re w w' H; cbn [match_entry]; [exact I|]. destruct (re_finished re); [split; auto|]. destruct (re_it re) as [b|]; [|split; auto].
  destruct (bytes_compare (re_key re) key); [split; auto| |split; auto]. rewrite (base_seek_same _ _ _ _ H). destruct (base_seek key b w') as [ok b1]. destruct ok; [|split; auto].
  destruct (base_next b1) as [[e|] b2]; [apply IH; exact H|split; [reflexivity|exact H]].
Qed.
Lemma open_entry_same : forall h key re w w', same w w' ->
  fst (open_entry h key re w) = fst (open_entry h key re w') /\ same (snd (open_entry h key re w)) (snd (open_entry h key re w')).
Proof.
  intros h key re w w' H. unfold open_entry. destruct (re_it re); [auto|]. rewrite (base_seek_same _ _ _ _ H). destruct (base_seek key _ w') as [ok b1]. destruct ok; [|auto].
  destruct (base_next b1) as [[e|] b2]; auto.
Qed.
Lemma match_key_same : forall fuel h key val l w w', same w w' ->
  match match_key fuel h key val l w, match_key fuel h key val l w' with
  | Some x, Some y => agree3 x y
  | None, None => True
  | _, _ => False
  end.
Proof.
  intros fuel h key val l. induction l as [|re l IH]; intros w w' H; cbn [match_key]; [split; auto|].
  destruct (open_entry_same h key re w w' H) as [E1 E2]. destruct (open_entry h key re w) as [re1 w1]. destruct (open_entry h key re w') as [re1' w1']. cbn [fst snd] in *. subst re1'.
  pose proof (match_entry_same fuel key re1 w1 w1' E2) as HM. destruct (match_entry fuel key re1 w1) as [[[b re2] w2]|]; destruct (match_entry fuel key re1 w1') as [[[b' re2'] w2']|]; try contradiction; [|exact I].
  destruct HM as [HM1 HM2]. cbn [fst snd] in *. injection HM1 as -> ->. destruct b'; [split; [reflexivity|exact HM2]|].
  specialize (IH w2 w2' HM2). destruct (match_key fuel h key val l w2) as [[[c r] w3]|]; destruct (match_key fuel h key val l w2') as [[[c' r'] w3']|]; try contradiction; [|exact I].
  destruct IH as [IH1 IH2]. cbn [fst snd] in *. injection IH1 as -> ->. destruct c'; [destruct r'|]; split; auto.
Qed.
Lemma join_same : forall fuel mf rb rkv fin lk lv w w', same w w' ->
  fst (join_right fuel mf rb rkv fin lk lv w) = fst (join_right fuel mf rb rkv fin lk lv w') /\
  same (snd (join_right fuel mf rb rkv fin lk lv w)) (snd (join_right fuel mf rb rkv fin lk lv w')).
Proof.
  induction fuel as [|f IH]; intros mf rb rkv fin lk lv w w' H; cbn [join_right]; [auto|]. destruct fin; [auto|].
  destruct (match rkv with Some e => (Some e, rb) | None => base_next rb end) as [x rb1]. destruct x as [[rk rv]|]; [|auto].
  destruct (bytes_compare rk lk).
  - destruct (mf lk lv rv); auto.
  - rewrite (base_seek_same _ _ _ _ H). destruct (base_seek lk rb1 w') as [ok rb2]. destruct ok; [apply IH; exact H|auto].
  - auto.
Qed.

Lemma seek_calm : forall k it w ok it' w', calm_iter it -> seek k it w = (ok, it', w') -> calm_iter it'.
Proof.
  intros k it. induction it as [b|st f u IH|u IH|h rms u IH|mf rb rk fin u IH]; intros w ok it' w' HC E; cbn [seek calm_iter] in *.
  - destruct (base_seek k b w). injection E as <- <- <-. exact I.
  - destruct (seek k u w) as [[ok1 u1] w1] eqn:E1. injection E as <- <- <-. cbn [calm_iter]. split; [apply HC|eapply IH; [apply HC|exact E1]].
  - contradiction.
  - destruct (remove_entries_seek k rms w) as [a w0]. destruct (seek k u w0) as [[ok1 u1] w1] eqn:E1. injection E as <- <- <-. cbn [calm_iter]. eapply IH; eauto.
  - destruct (seek k u w) as [[ok1 u1] w1] eqn:E1. destruct ok1; [destruct (base_seek k rb w1)|]; injection E as <- <- <-; cbn [calm_iter]; eapply IH; eauto.
Qed.
Lemma next_same : forall fuel it w w', calm_iter it -> same w w' -> agree3 (next fuel it w) (next fuel it w') /\ calm_iter (snd (fst (next fuel it w))).
Proof.
  induction fuel as [|f IH]; intros it w w' HC H; cbn [next]; [split; [split; [reflexivity|exact H]|exact HC]|].
  destruct it as [b|st ff u|u|h rms u|mf rb rk fin u]; cbn [calm_iter] in HC.
  - destruct (base_next b) as [[e|] b']; (split; [split; [reflexivity|exact H]|exact I]).
  - destruct HC as [HP HC]. destruct (IH u w w' HC H) as [[E1 E2] HC1]. destruct (next f u w) as [[o u1] w1]. destruct (next f u w') as [[o' u1'] w1']. cbn [fst snd] in *. injection E1 as -> ->.
    destruct o' as [[k v]| | | | |]; try (split; [split; [reflexivity|exact E2]|split; assumption]).
    pose proof (P_plain _ _ HP) as HP'. destruct HP' as [g ->]. destruct (g k v) as [| |k'| | |]; try (split; [split; [reflexivity|exact E2]|split; assumption]).
    + apply IH; [split; assumption|exact E2].
    + destruct (seek_same k' u1' (note (EvSeek st k') (bump st CSeek w1)) (note (EvSeek st k') (bump st CSeek w1')) E2) as [E3 E4].
      destruct (seek k' u1' (note (EvSeek st k') (bump st CSeek w1))) as [[ok u2] w3] eqn:ES. destruct (seek k' u1' (note (EvSeek st k') (bump st CSeek w1'))) as [[ok' u2'] w3']. cbn [fst snd] in *. injection E3 as <- <-.
      pose proof (seek_calm _ _ _ _ _ _ HC1 ES) as HC2. destruct ok; [apply IH; [split; assumption|exact E4]|split; [split; [reflexivity|exact E4]|split; assumption]].
  - contradiction.
  - destruct (IH u w w' HC H) as [[E1 E2] HC1]. destruct (next f u w) as [[o u1] w1]. destruct (next f u w') as [[o' u1'] w1']. cbn [fst snd] in *. injection E1 as -> ->.
    destruct o' as [[k v]| | | | |]; try (split; [split; [reflexivity|exact E2]|exact HC1]).
    pose proof (match_key_same f h k v rms w1 w1' E2) as HM. destruct (match_key f h k v rms w1) as [[[b r1] w2]|]; destruct (match_key f h k v rms w1') as [[[b' r1'] w2']|]; try contradiction; [|split; [split; [reflexivity|exact H]|exact HC]].
    destruct HM as [HM1 HM2]. cbn [fst snd] in *. injection HM1 as -> ->. destruct b'; [apply IH; assumption|split; [split; [reflexivity|exact HM2]|exact HC1]].
  - destruct (IH u w w' HC H) as [[E1 E2] HC1]. destruct (next f u w) as [[o u1] w1]. destruct (next f u w') as [[o' u1'] w1']. cbn [fst snd] in *. injection E1 as -> ->.
    destruct o' as [[k v]| | | | |]; try (split; [split; [reflexivity|exact E2]|exact HC1]).
    destruct (join_same f mf rb rk fin k v w1 w1' E2) as [E3 E4]. destruct (join_right f mf rb rk fin k v w1) as [[[[o2 a1] a2] a3] w2]. destruct (join_right f mf rb rk fin k v w1') as [[[[o2' b1] b2] b3] w2'].
    cbn [fst snd] in *. injection E3 as -> -> -> ->. split; [split; [reflexivity|exact E4]|exact HC1].
Qed.

Lemma direct_same : forall n fuel it w w', calm_iter it -> same w w' ->
  agree3 (direct_loop n fuel it w) (direct_loop n fuel it w') /\ calm_iter (snd (fst (direct_loop n fuel it w))).
Proof.
  induction n as [|n IH]; intros fuel it w w' HC H; cbn [direct_loop]; [split; [split; [reflexivity|exact H]|exact HC]|].
  destruct (next_same fuel it w w' HC H) as [[E1 E2] HC1]. destruct (next fuel it w) as [[o u1] w1]. destruct (next fuel it w') as [[o' u1'] w1']. cbn [fst snd] in *. injection E1 as -> ->.
  destruct o' as [[k v]| | | | |]; try (split; [split; [reflexivity|exact E2]|exact HC1]).
  destruct (entry_decode k v); try (split; [split; [reflexivity|exact E2]|exact HC1]). apply IH; assumption.
Qed.
Lemma indirect_same : forall n fuel q q' src tb idx cur w w', calm_source src -> calm_iter idx -> (forall it, cur = Some it -> calm_iter it) -> alike q q' -> same w w' ->
  fst (indirect_loop n fuel q src tb idx cur w) = fst (indirect_loop n fuel q' src tb idx cur w') /\
  same (snd (indirect_loop n fuel q src tb idx cur w)) (snd (indirect_loop n fuel q' src tb idx cur w')) /\
  calm_iter (snd (fst (fst (indirect_loop n fuel q src tb idx cur w)))) /\
  (forall it, snd (fst (indirect_loop n fuel q src tb idx cur w)) = Some it -> calm_iter it).
Proof.
  induction n as [|n IH]; intros fuel q q' src tb idx cur w w' HS HC HU HA H; cbn [indirect_loop]; [auto|]. destruct cur as [it|].
  - specialize (HU it eq_refl). destruct (next_same fuel it w w' HU H) as [[E1 E2] HC1]. destruct (next fuel it w) as [[o u1] w1]. destruct (next fuel it w') as [[o' u1'] w1']. cbn [fst snd] in *. injection E1 as -> ->.
    assert (HU1 : forall it, Some u1' = Some it -> calm_iter it) by (intros x Ex; injection Ex as <-; exact HC1).
    destruct o' as [[k v]| | | | |]; try (split; [reflexivity|split; [exact E2|split; [exact HC|exact HU1]]]).
    + destruct (entry_decode k v); try (split; [reflexivity|split; [exact E2|split; [exact HC|exact HU1]]]). apply IH; assumption.
    + apply IH; try assumption. discriminate.
  - destruct (next_same fuel idx w w' HC H) as [[E1 E2] HC1]. destruct (next fuel idx w) as [[o u1] w1]. destruct (next fuel idx w') as [[o' u1'] w1']. cbn [fst snd] in *. injection E1 as -> ->.
    destruct o' as [[k v]| | | | |]; try (split; [reflexivity|split; [exact E2|split; [exact HC1|discriminate]]]).
    rewrite (HA tb k v). destruct (index_lookup_key q tb k v) as [[fk|]| | | |]; try (split; [reflexivity|split; [exact E2|split; [exact HC1|discriminate]]]).
    + apply IH; try assumption. intros it Eo. injection Eo as <-. apply calm_open. exact HS.
    + apply IH; try assumption.
Qed.

Definition calm_kind (k : kind) : Prop :=
  match k with Direct it => calm_iter it | Indirect _ idx cur => calm_iter idx /\ forall it, cur = Some it -> calm_iter it end.
Definition is_indirect (k : kind) : bool := match k with Indirect _ _ _ => true | _ => false end.
Lemma timed_same : forall q w, w_seek_end (if is_timed q then iter_set_deadline q w else w) = w_seek_end w.
Proof. intros q w. unfold iter_set_deadline. destruct (is_timed q); [|reflexivity]. destruct (negb _); reflexivity. Qed.
Lemma qnext_same : forall fuel q q' src k w w', calm_source src -> calm_kind k -> (is_indirect k = true -> alike q q') -> same w w' ->
  let x := qnext fuel {| qi_query := q; qi_source := src; qi_kind := k |} w in
  let y := qnext fuel {| qi_query := q'; qi_source := src; qi_kind := k |} w' in
  fst (fst x) = fst (fst y) /\ qi_kind (snd (fst x)) = qi_kind (snd (fst y)) /\ qi_source (snd (fst x)) = src /\ qi_source (snd (fst y)) = src /\
  calm_kind (qi_kind (snd (fst x))) /\ is_indirect (qi_kind (snd (fst x))) = is_indirect k /\ qi_query (snd (fst x)) = q /\ qi_query (snd (fst y)) = q' /\ same (snd x) (snd y).
Proof.
  intros fuel q q' src k w w' HS HC HA H x y. subst x y. unfold qnext. cbn [qi_query qi_source qi_kind].
  set (w0 := if is_timed q then _ else w). set (w0' := if is_timed q' then _ else w').
  assert (H0 : same w0 w0') by (unfold same, w0, w0'; rewrite !timed_same; exact H).
  destruct k as [it|tb idx cur]; cbn [calm_kind is_indirect] in *.
  - destruct (direct_same fuel fuel it w0 w0' HC H0) as [[E1 E2] HC1].
    destruct (direct_loop fuel fuel it w0) as [[r1 it1] w1]. destruct (direct_loop fuel fuel it w0') as [[r2 it2] w2]. cbn [fst snd] in *. injection E1 as -> ->. cbn [qi_kind qi_source qi_query calm_kind is_indirect].
    auto 12.
  - destruct HC as [HC1 HC2]. destruct (indirect_same fuel fuel q q' src tb idx cur w0 w0' HS HC1 HC2 (HA eq_refl) H0) as (E1 & E2 & E3 & E4).
    destruct (indirect_loop fuel fuel q src tb idx cur w0) as [[[r1 idx1] cur1] w1]. destruct (indirect_loop fuel fuel q' src tb idx cur w0') as [[[r2 idx2] cur2] w2]. cbn [fst snd] in *. injection E1 as -> -> ->.
    cbn [qi_kind qi_source qi_query calm_kind is_indirect]. auto 14.
Qed.
End World.

(** ** What an iterator reads of its query *)

Definition plain_fn (f : filter_fn) : Prop := exists g : bytes -> bytes -> fres, f = fun w k v => (g k v, w).
Definition staged (made : query) (st : stage) (f : filter_fn) : Prop :=
  plain_fn f /\
  match st with
  | StRrtype => (f = live_filter made made StRrtype f /\ watches_type made = true) \/ (q_type made = QRdataName /\ q_do_rrtype made = false)
  | StBailiwick => f = filter_bailiwick (val_or [] (q_bailiwick made)) /\ watches_bailiwick made = true
  | StTimePrefilter => f = filter_time_prefilter made /\ watches_times made = true
  | StTime => f = filter_time made /\ watches_times made = true
  | _ => True
  end.
Lemma staged_plain : forall made st f, staged made st f -> exists g : bytes -> bytes -> fres, f = fun w k v => (g k v, w).
Proof. intros made st f H. apply H. Qed.

Definition keep (made now : query) : Prop :=
  q_type now = q_type made /\
  (watches_type made = true -> q_do_rrtype now = q_do_rrtype made /\ q_rrtype now = q_rrtype made) /\
  (watches_bailiwick made = true -> q_bailiwick now = q_bailiwick made) /\
  (watches_times made = true -> (q_do_tfa now = q_do_tfa made /\ q_tfa now = q_tfa made) /\ (q_do_tfb now = q_do_tfb made /\ q_tfb now = q_tfb made) /\
     (q_do_tla now = q_do_tla made /\ q_tla now = q_tla made) /\ (q_do_tlb now = q_do_tlb made /\ q_tlb now = q_tlb made)).

Lemma live_kept : forall made now st f, keep made now -> staged made st f -> live_filter made now st f = f.
Proof.
  intros made now st f (HQ & HT & HB & HM) [_ HS]. destruct st; cbn [live_filter] in *; try reflexivity.
  - destruct HS as [[HF HW]|[EQ ED]].
    + destruct (HT HW) as [E1 E2]. transitivity (live_filter made made StRrtype f); [|symmetry; exact HF]. cbn [live_filter]. clear HF. destruct (q_type made); try (unfold filter_rrtype; rewrite E2; reflexivity).
      unfold filter_rrtype_ip, rrtype_ip_res. rewrite E2. reflexivity.
    + rewrite EQ, ED. reflexivity.
  - destruct HS as [-> HW]. rewrite (HB HW). reflexivity.
  - destruct HS as [-> HW]. destruct (HM HW) as ((E1 & E2) & (E3 & E4) & (E5 & E6) & (E7 & E8)). unfold filter_time_prefilter, time_res. rewrite E1, E2, E3, E4, E5, E6, E7, E8. reflexivity.
  - destruct HS as [-> HW]. destruct (HM HW) as ((E1 & E2) & (E3 & E4) & (E5 & E6) & (E7 & E8)). unfold filter_time, time_res. rewrite E1, E2, E3, E4, E5, E6, E7, E8. reflexivity.
Qed.
Lemma live_source_kept : forall made now s, keep made now -> calm_source (staged made) s -> live_source made now s = s.
Proof.
  intros made now s HK. induction s; cbn [calm_source live_source]; intro HC; try reflexivity; try (rewrite IHs by (try exact HC; apply HC); try reflexivity); try contradiction.
  rewrite (live_kept _ _ _ _ HK (proj1 HC)). reflexivity.
Qed.
Lemma live_iter_kept : forall made now it, keep made now -> calm_iter (staged made) it -> live_iter made now it = it.
Proof.
  intros made now it HK. induction it; cbn [calm_iter live_iter]; intro HC; try reflexivity; try (rewrite IHit by (try exact HC; apply HC); try reflexivity); try contradiction.
  rewrite (live_kept _ _ _ _ HK (proj1 HC)). reflexivity.
Qed.
Lemma live_kind_kept : forall made now k, keep made now -> calm_kind (staged made) k -> live_kind made now k = k.
Proof.
  intros made now [it|tb idx cur] HK HC; cbn [live_kind calm_kind] in *.
  - rewrite (live_iter_kept _ _ _ HK HC). reflexivity.
  - destruct HC as [H1 H2]. rewrite (live_iter_kept _ _ _ HK H1). destruct cur as [it|]; [|reflexivity]. cbn [option_map]. rewrite (live_iter_kept _ _ _ HK (H2 it eq_refl)). reflexivity.
Qed.
Lemma keep_alike : forall made now, keep made now -> watches_type made = true -> alike made now.
Proof. intros made now (_ & HT & _) HW tb k v. destruct (HT HW) as [E1 E2]. unfold index_lookup_key. rewrite E1, E2. reflexivity. Qed.
Lemma keep_refl : forall made, keep made made.
Proof. intro made. unfold keep. auto 12. Qed.

(** ** Iterators as they are made *)

Lemma cond_calm : forall made c st f s, (c = true -> staged made st f) -> calm_source (staged made) s -> calm_source (staged made) (filter_set_cond c st f s).
Proof. intros made c st f s HF HC. unfold filter_set_cond. destruct c; [split; auto|exact HC]. Qed.
Lemma rrtype_staged : forall made, match q_type made with QRdataIp => False | QRdataName => q_do_rrtype made = true | _ => True end -> watches_type made = true -> staged made StRrtype (filter_rrtype made).
Proof.
  intros made HQ HW. split; [eexists (fun k _ => _); reflexivity|]. left. split; [|exact HW]. cbn [live_filter]. destruct (q_type made); try reflexivity; [rewrite HQ; reflexivity|contradiction].
Qed.
Lemma label_staged : forall made n, staged made StSingleLabel (filter_single_label n).
Proof. intros made n. split; [eexists (fun k _ => _); reflexivity|exact I]. Qed.
Lemma bailiwick_calm : forall made s, (q_bailiwick made <> None -> watches_bailiwick made = true) -> calm_source (staged made) s -> calm_source (staged made) (opt_filter_bailiwick made s).
Proof.
  intros made s HW HC. unfold opt_filter_bailiwick. destruct (q_bailiwick made) as [bw|] eqn:EB; [|exact HC]. split; [|exact HC]. split; [eexists (fun k _ => _); reflexivity|].
  rewrite EB. split; [reflexivity|]. apply HW. discriminate.
Qed.

Lemma plan_calm : forall q src idx p, query_init q src idx = Ok p -> calm_source (staged q) src -> calm_source (staged q) idx ->
  calm_source (staged q) (p_source p) /\ forall tb it, p_index p = Some (tb, it) -> calm_iter (staged q) it /\ watches_type q = true.
Proof.
  intros q src idx p E HS HI. unfold query_init, init_rrset, init_rdata_name, init_rdata_ip, init_rdata_raw, init_simple, init_version in E.
  assert (WT : watches_type q = match q_type q with
    | QRrset => if begins_wild q then q_do_rrtype q else ends_wild q
    | QRdataName => q_do_rrtype q || (begins_wild q && negb (ends_wild q))
    | QRdataIp => true | QRdataRaw => q_do_rrtype q | _ => false end) by reflexivity.
  assert (WB : watches_bailiwick q = match q_type q with QRrset => is_some (q_bailiwick q) && (begins_wild q || ends_wild q || negb (q_do_rrtype q)) | _ => false end) by reflexivity.
  unfold begins_wild, ends_wild in WT, WB.
  destruct (q_type q) eqn:EQ.
  - destruct (is_left_wildcard (name_data q)) as [wp|].
    { unfold init_rrset_left_wildcard in E. destruct (reverse_buf _ _); cbn [bind] in E; try discriminate. injection E as <-. cbn [p_source p_index]. split; [|discriminate].
      apply bailiwick_calm. { intro HB. rewrite WB. destruct (q_bailiwick q); [reflexivity|congruence]. }
      apply cond_calm. { intro HD. apply rrtype_staged; [rewrite EQ; exact I|rewrite WT; exact HD]. }
      apply cond_calm; [intros _; apply label_staged|exact HS]. }
    destruct (is_right_wildcard (name_data q)) as [wp|].
    { unfold init_rrset_right_wildcard in E. injection E as <-. cbn [p_source p_index]. split.
      - apply bailiwick_calm. { intro HB. rewrite WB. destruct (q_bailiwick q); [reflexivity|congruence]. }
        apply cond_calm; [|exact HS]. intro HD. apply rrtype_staged; [rewrite EQ; exact I|rewrite WT; reflexivity].
      - intros tb it Ei. injection Ei as <- <-. split; [|rewrite WT; reflexivity]. apply calm_open. apply cond_calm; [intros _; apply label_staged|exact HI]. }
    destruct (reverse_buf _ _); cbn [bind] in E; try discriminate. destruct (q_do_rrtype q) eqn:ED.
    { destruct (add_rrtype_to_key _ _); cbn [bind] in E; try discriminate. injection E as <-. cbn [p_source p_index]. split; [exact HS|discriminate]. }
    injection E as <-. cbn [p_source p_index]. split; [|discriminate]. apply bailiwick_calm; [|exact HS]. intro HB. rewrite WB. destruct (q_bailiwick q); [reflexivity|congruence].
  - assert (H1 : calm_source (staged q) (SFilter StRrtype (if q_do_rrtype q then filter_rrtype q else filter_rrtype_rdata_name) src)).
    { split; [|exact HS]. destruct (q_do_rrtype q) eqn:ED; [apply rrtype_staged; [rewrite EQ; exact ED|rewrite WT; reflexivity]|]. split; [eexists (fun k _ => _); reflexivity|]. right. auto. }
    destruct (is_right_wildcard (name_data q)) as [wp|].
    { unfold init_rdata_right_wildcard in E. injection E as <-. cbn [p_source p_index]. split; [|discriminate]. apply cond_calm; [intros _; apply label_staged|exact H1]. }
    destruct (is_left_wildcard (name_data q)) as [wp|].
    { unfold init_rdata_left_wildcard in E. destruct (reverse_buf _ _); cbn [bind] in E; try discriminate. injection E as <-. cbn [p_source p_index]. split; [exact H1|].
      intros tb it Ei. injection Ei as <- <-. split; [apply calm_open; apply cond_calm; [intros _; apply label_staged|exact HI]|]. rewrite WT. cbn. apply orb_true_r. }
    match type of E with (let* key1 := ?x in _) = _ => destruct x; cbn [bind] in E; try discriminate end. injection E as <-. cbn [p_source p_index]. split; [exact H1|discriminate].
  - destruct (q_do_rrtype q) eqn:ED; cbn [negb] in E; [|discriminate]. destruct (q_len_ip1 q =? 0) eqn:EL; [discriminate|].
    destruct (add_rrtype_to_key (ENTRY_TYPE_RDATA :: firstn (N.to_nat (q_len_ip1 q)) (q_ip1 q)) (q_rrtype q)) as [key| | | |] eqn:EK; cbn [bind] in E; try discriminate.
    match type of E with (let* key2 := ?x in _) = _ => destruct x as [key2| | | |] eqn:E2; cbn [bind] in E; try discriminate end.
    assert (EKS : length key = key_size q) by (unfold key_size, query_init; rewrite EQ; unfold init_rdata_ip; rewrite ED, EL; cbn [negb]; rewrite EK; cbn [bind]; rewrite E2; reflexivity).
    injection E as <-. cbn [p_source p_index]. split; [|discriminate]. split; [|exact HS].
    split; [eexists (fun k _ => _); reflexivity|]. left. split; [|rewrite WT; reflexivity]. cbn [live_filter]. rewrite EQ. f_equal. exact EKS.
  - destruct (_ <? _); [discriminate|]. injection E as <-. cbn [p_source p_index]. split; [|discriminate]. apply cond_calm; [|exact HS]. intro HD. apply rrtype_staged; [rewrite EQ; exact I|rewrite WT; exact HD].
  - injection E as <-. cbn [p_source p_index]. split; [exact HS|discriminate].
  - injection E as <-. cbn [p_source p_index]. split; [exact HS|discriminate].
  - injection E as <-. cbn [p_source p_index]. split; [exact HS|discriminate].
Qed.

Lemma stack_calm : forall q fc src, q_offset q = 0 -> calm_source (staged q) src -> calm_source (staged q) (stack_filters q fc src).
Proof.
  intros q fc src HO HC. unfold stack_filters. rewrite HO. cbn [N.ltb N.compare]. 
  assert (W : watches_times q = has_time_bound q) by reflexivity.
  assert (ST : has_time_bound q = true -> staged q StTime (filter_time q) /\ staged q StTimePrefilter (filter_time_prefilter q)).
  { intro H. split; (split; [eexists (fun _ v => _); reflexivity|]); rewrite W; auto. }
  destruct (has_time_bound q); [destruct (ST eq_refl) as [S1 S2]|]; destruct (f_remove fc), (f_fill fc); cbn [calm_source]; auto.
Qed.
Lemma common_calm : forall q fc t ti qi, is_timed q = false -> q_offset q = 0 -> query_iter_common q fc (SBase t) (SBase ti) = Ok qi ->
  qi_query qi = q /\ calm_source (staged q) (qi_source qi) /\ calm_kind (staged q) (qi_kind qi) /\ (is_indirect (qi_kind qi) = true -> watches_type q = true).
Proof.
  intros q fc t ti qi HT HO E. unfold query_iter_common in E. rewrite HT in E. destruct (query_init q (SBase t) (SBase ti)) as [p| | | |] eqn:EP; cbn [bind] in E; try discriminate.
  destruct (plan_calm _ _ _ _ EP I I) as [H1 H2]. injection E as <-. cbn [qi_query qi_source qi_kind]. pose proof (stack_calm q fc _ HO H1) as H3. split; [reflexivity|]. split; [exact H3|].
  destruct (p_index p) as [[tb it]|]; [|destruct (p_key2 p); (split; [apply calm_open; exact H3|discriminate])].
  destruct (H2 tb it eq_refl) as [A B]. split; [split; [exact A|discriminate]|auto].
Qed.
Lemma reader_calm : forall lib r q qi, is_timed q = false -> q_offset q = 0 -> dnstable_reader_query lib r q = Ok qi ->
  qi_query qi = q /\ calm_source (staged q) (qi_source qi) /\ calm_kind (staged q) (qi_kind qi) /\ (is_indirect (qi_kind qi) = true -> watches_type q = true).
Proof.
  intros lib r q qi HT HO E. unfold dnstable_reader_query in E. destruct (r_fs r) as [files|].
  - unfold dnstable_query_iter_fileset in E. destruct (fates q files) as [l| | | |]; cbn [bind] in E; try discriminate.
    destruct (q_aggregated q); eapply common_calm; eauto.
  - destruct (r_source r) as [t|]; [|discriminate]. eapply common_calm; eauto.
Qed.

(** ** Settings *)

Lemma keep_with_flags : forall made q a b n, keep made q -> keep made (with_flags a b n q).
Proof. intros made q a b n H. exact H. Qed.
Lemma ip_kept : forall ev s q b q', set_data_rdata_ip ev s q = Ok (b, q') -> b = false \/ s = None ->
  q_do_rrtype q' = q_do_rrtype q /\ q_rrtype q' = q_rrtype q.
Proof.
  intros ev s q b q' E H. unfold set_data_rdata_ip in E. destruct s as [s|]; [|injection E as <- <-; auto]. destruct H as [->|H]; [|discriminate].
  destruct (has_char 45 s).
  { unfold set_data_ip_range in E. destruct (strtok_all 45 s) as [|a1 [|a2 [|]]]; try (injection E as <- <-; auto; fail); try (injection E as <-; auto; fail).
    destruct (query_load_address ev a1 (q_ip1 q)) as [[ok1 l1] ip1]. destruct ok1; [|injection E as <-; auto].
    destruct (query_load_address ev a2 _) as [[ok2 l2] ip2]. destruct ok2; [|injection E as <-; auto]. destruct (l1 =? l2); [discriminate|injection E as <-; auto]. }
  destruct (has_char 47 s).
  { unfold set_data_ip_prefix in E. destruct (strtok_all 47 s) as [|a [|p [|]]]; try (injection E as <-; auto; fail).
    destruct (query_load_address ev a []) as [[ok l] ip]. destruct ok; cbn [negb] in E; [|injection E as <-; auto]. destruct (strtol_all p) as [z|]; [|injection E as <-; auto].
    destruct (_ || _); [injection E as <-; auto|]. destruct (l =? 4).
    - destruct (ip4_lower ip _); cbn [bind] in E; try discriminate. destruct (ip4_upper ip _); cbn [bind] in E; discriminate.
    - destruct (ip6_lower ip _); cbn [bind] in E; try discriminate. destruct (ip6_upper ip _); cbn [bind] in E; discriminate. }
  unfold set_data_ip_address in E. destruct (query_load_address ev s _) as [[ok l] ip]. destruct ok; [discriminate|]. injection E as <-. auto.
Qed.

Lemma ip_same : forall ev s q b q', set_data_rdata_ip ev s q = Ok (b, q') ->
  q_type q' = q_type q /\ q_bailiwick q' = q_bailiwick q /\ (q_do_tfa q' = q_do_tfa q /\ q_tfa q' = q_tfa q) /\ (q_do_tfb q' = q_do_tfb q /\ q_tfb q' = q_tfb q) /\
     (q_do_tla q' = q_do_tla q /\ q_tla q' = q_tla q) /\ (q_do_tlb q' = q_do_tlb q /\ q_tlb q' = q_tlb q).
Proof.
  intros ev s q b q' E. unfold set_data_rdata_ip in E. destruct s as [s|]; [|injection E as <- <-; auto 12].
  destruct (has_char 45 s).
  { unfold set_data_ip_range in E. destruct (strtok_all 45 s) as [|a1 [|a2 [|]]]; try (injection E as <- <-; auto 12; fail).
    destruct (query_load_address ev a1 (q_ip1 q)) as [[ok1 l1] ip1]. destruct ok1; [|injection E as <- <-; auto 12].
    destruct (query_load_address ev a2 _) as [[ok2 l2] ip2]. destruct ok2; [|injection E as <- <-; auto 12]. destruct (l1 =? l2); injection E as <- <-; auto 12. }
  destruct (has_char 47 s).
  { unfold set_data_ip_prefix in E. destruct (strtok_all 47 s) as [|a [|p [|]]]; try (injection E as <- <-; auto 12; fail).
    destruct (query_load_address ev a []) as [[ok l] ip]. destruct ok; cbn [negb] in E; [|injection E as <- <-; auto 12]. destruct (strtol_all p) as [z|]; [|injection E as <- <-; auto 12].
    destruct (_ || _); [injection E as <- <-; auto 12|]. destruct (l =? 4).
    - destruct (ip4_lower ip _); cbn [bind] in E; try discriminate. destruct (ip4_upper ip _); cbn [bind] in E; try discriminate. injection E as <- <-; auto 12.
    - destruct (ip6_lower ip _); cbn [bind] in E; try discriminate. destruct (ip6_upper ip _); cbn [bind] in E; try discriminate. injection E as <- <-; auto 12. }
  unfold set_data_ip_address in E. destruct (query_load_address ev s _) as [[ok l] ip]. destruct ok; injection E as <- <-; auto 12.
Qed.

Lemma harmless_keeps : forall ev made q c b q', env_ok ev -> keep made q -> harmless ev made c -> apply_setting ev c q = Ok (b, q') -> keep made q'.
Proof.
  intros ev made q c b q' HE HK HH E. destruct c as [s|s|s|n|a|a|t|t|p v len]; cbn [apply_setting harmless] in *.
  - unfold set_data in E. pose proof HK as (HQ & HT & HB & HM). destruct (q_type q) eqn:EQ.
    + unfold set_data_name in E. destruct (query_load_name ev s _). injection E as <- <-. rewrite <- EQ in HQ. unfold keep. cbn. rewrite EQ in *. auto.
    + unfold set_data_name in E. destruct (query_load_name ev s _). injection E as <- <-. unfold keep. cbn. rewrite EQ. auto.
    + pose proof (ip_same _ _ _ _ _ E) as (E1 & E2 & (A1 & A2) & (A3 & A4) & (A5 & A6) & A7 & A8).
      assert (ET : q_do_rrtype q' = q_do_rrtype q /\ q_rrtype q' = q_rrtype q).
      { destruct b; [|eapply ip_kept; eauto]. destruct s as [s|]; [|eapply ip_kept; eauto].
        pose proof (settings_answers ev q (SetData (Some s)) true q' HE) as HA. cbn [apply_setting] in HA. unfold set_data in HA. rewrite EQ in HA. specialize (HA E).
        destruct (proj1 HA eq_refl s eq_refl) as (n & lo & hi & HD). symmetry in HQ.
        destruct (HH HQ s n lo hi eq_refl HD) as [H1 H2].
        destruct (proj1 (address_texts ev q s HE EQ) n lo hi HD) as (q2 & EQ2 & _ & HR). unfold set_data in EQ2. rewrite EQ in EQ2. rewrite E in EQ2. injection EQ2 as <-.
        assert (HW : watches_type made = true) by (unfold watches_type; rewrite HQ; reflexivity). destruct (HT HW) as [T1 T2].
        rewrite T1, T2, H1, H2. revert HR. unfold asks_range. intuition. }
      unfold keep. rewrite E1, E2, A1, A2, A3, A4, A5, A6, A7, A8. destruct ET as [-> ->]. exact HK.
    + unfold set_data_rdata_raw in E. destruct s as [s|]; [destruct (hex_decode s None (q_len_rdata q)) as [[ok raw] len]|]; injection E as <- <-; unfold keep; cbn; rewrite EQ; auto.
    + injection E as <- <-. unfold keep. rewrite EQ. auto.
    + injection E as <- <-. unfold keep. rewrite EQ. auto.
    + unfold set_version_type in E. destruct s as [s|]; [destruct (ModelNames.entry_type_from_string s); [destruct (existsb _ _)|]|]; injection E as <- <-; unfold keep; cbn; rewrite EQ; auto.
  - destruct HK as (HQ & HT & HB & HM).
    assert (ES : exists x, q' = with_rrtype x q \/ q' = q).
    { unfold set_rrtype in E. destruct s as [s|]; [|injection E as <- <-; eauto]. destruct (_ || _); [injection E as <- <-; eauto|]. destruct (_ =? 0); injection E as <- <-; [exists None; auto|eauto]. }
    destruct ES as [x [->| ->]]; unfold keep; cbn; rewrite HH; (split; [exact HQ|]); (split; [discriminate|]); auto.
  - destruct HK as (HQ & HT & HB & HM).
    assert (ES : exists x, q' = with_bailiwick x q \/ q' = q).
    { unfold set_bailiwick in E. destruct (q_type q); try (injection E as <- <-; exists None; auto; fail). destruct (query_load_name ev s false) as [ok [n|]]; [|injection E as <- <-; eauto].
      destruct (ModelWdns.wdns_reverse_name n (blen n)); try discriminate; injection E as <- <-; eauto. }
    destruct ES as [x [->| ->]]; unfold keep; cbn; rewrite HH; (split; [exact HQ|]); (split; [exact HT|]); (split; [discriminate|exact HM]).
  - injection E as <- <-. exact HK.
  - injection E as <- <-. exact HK.
  - injection E as <- <-. exact HK.
  - injection E as <- <-. exact HK.
  - injection E as <- <-. exact HK.
  - destruct HK as (HQ & HT & HB & HM).
    assert (ES : exists a b c d, q' = with_bounds a b c d q \/ q' = q).
    { unfold set_filter_parameter in E. destruct (negb _); [injection E as <- <-; exists None, None, None, None; auto|]. destruct (p =? 0); [injection E as <- <-; do 4 eexists; left; reflexivity|].
      destruct (p =? 1); [injection E as <- <-; do 4 eexists; left; reflexivity|]. destruct (p =? 2); [injection E as <- <-; do 4 eexists; left; reflexivity|].
      destruct (p =? 3); [injection E as <- <-; do 4 eexists; left; reflexivity|]. injection E as <- <-; exists None, None, None, None; auto. }
    destruct ES as (a1 & a2 & a3 & a4 & [->| ->]); unfold keep; cbn; rewrite HH; (split; [exact HQ|]); (split; [exact HT|]); (split; [exact HB|discriminate]).
Qed.

(** ** One iterator among the others *)

Lemma replace_same : forall {A} i (x y : A) l, nth_error l i = Some y -> nth_error (replace i x l) i = Some x.
Proof. intros A i x y. induction i as [|i IH]; intros [|a l] H; try discriminate; cbn in *; [reflexivity|auto]. Qed.
Lemma replace_other : forall {A} i j (x : A) l, i <> j -> nth_error (replace j x l) i = nth_error l i.
Proof. intros A i. induction i as [|i IH]; intros [|j] x [|a l] H; try reflexivity; try congruence. cbn. apply IH. congruence. Qed.

(** The iterator is where the one that is alone would be. *)
Definition twin (seeks : table -> bytes -> bool) (made : query) (qi : qiter) (h : handle) : Prop :=
  h_made h = made /\ qi_query qi = made /\ qi_source (h_it h) = qi_source qi /\ qi_kind (h_it h) = qi_kind qi /\
  calm_source (staged made) (qi_source qi) /\ calm_kind (staged made) (qi_kind qi) /\ (is_indirect (qi_kind qi) = true -> watches_type made = true).

Lemma calm_no_timeout : forall P fuel it w, calm_iter P it -> (forall st f, P st f -> exists g : bytes -> bytes -> fres, f = fun w k v => (g k v, w)) -> fst (fst (next fuel it w)) <> OExpired.
Proof.
  intros P fuel. induction fuel as [|f IH]; intros it w HC HP; cbn [next]; [discriminate|]. destruct it as [b|st ff u|u|h rms u|mf rb rk fin u]; cbn [calm_iter] in HC.
  - destruct (base_next b) as [[e|] b']; discriminate.
  - pose proof (IH u w (proj2 HC) HP) as H1. destruct (next_same (w_seek_end w) P HP f u w w (proj2 HC) (conj eq_refl eq_refl)) as [_ HC1].
    destruct (next f u w) as [[o u1] w1]. cbn [fst snd] in *. destruct o as [[k v]| | | | |]; try discriminate; try congruence.
    destruct (ff w1 k v) as [fr w2]. destruct fr as [| |k'| | |]; try discriminate.
    + apply IH; [split; [apply HC|exact HC1]|exact HP].
    + destruct (seek k' u1 _) as [[ok u2] w3] eqn:ES. destruct ok; [|discriminate]. apply IH; [split; [apply HC|]|exact HP]. eapply seek_calm; eauto.
  - contradiction.
  - pose proof (IH u w HC HP) as H1. destruct (next_same (w_seek_end w) P HP f u w w HC (conj eq_refl eq_refl)) as [_ HC1].
    destruct (next f u w) as [[o u1] w1]. cbn [fst snd] in *. destruct o as [[k v]| | | | |]; try discriminate; try congruence.
    destruct (match_key f h k v rms w1) as [[[[|] r] w2]|]; try discriminate. apply IH; [exact HC1|exact HP].
  - pose proof (IH u w HC HP) as H1. destruct (next f u w) as [[o u1] w1]. cbn [fst snd] in *. destruct o as [[k v]| | | | |]; try discriminate; try congruence.
    assert (HJ : forall f mf rb rk fin k v w, fst (fst (fst (fst (join_right f mf rb rk fin k v w)))) <> OExpired).
    { clear. induction f as [|f IH]; intros; cbn [join_right]; [discriminate|]. destruct fin; [discriminate|]. destruct (match rk with Some e => (Some e, rb) | None => base_next rb end) as [[[rk' rv]|] rb1]; [|discriminate].
      destruct (bytes_compare rk' k); [destruct (mf k v rv); discriminate|destruct (base_seek k rb1 w) as [[|] rb2]; [apply IH|discriminate]|discriminate]. }
    specialize (HJ f mf rb rk fin k v w1). destruct (join_right f mf rb rk fin k v w1) as [[[[o2 a1] a2] a3] w2]. exact HJ.
Qed.
Lemma qnext_no_timeout : forall made fuel qi w, calm_source (staged made) (qi_source qi) -> calm_kind (staged made) (qi_kind qi) -> fst (fst (qnext fuel qi w)) <> QTimeout.
Proof.
  intros made fuel qi w HS HC. unfold qnext. set (w0 := if is_timed (qi_query qi) then _ else w). clearbody w0. destruct (qi_kind qi) as [it|tb idx cur]; cbn [calm_kind] in HC.
  - assert (G : forall n it w, calm_iter (staged made) it -> fst (fst (direct_loop n fuel it w)) <> QTimeout).
    { clear. induction n as [|n IH]; intros it w HC; cbn [direct_loop]; [discriminate|]. pose proof (calm_no_timeout _ fuel it w HC (staged_plain made)) as H1.
      destruct (next_same (w_seek_end w) _ (staged_plain made) fuel it w w HC (conj eq_refl eq_refl)) as [_ HC1].
      destruct (next fuel it w) as [[o u1] w1]. cbn [fst snd] in *. destruct o as [[k v]| | | | |]; try discriminate; try congruence. destruct (entry_decode k v); try discriminate. apply IH. exact HC1. }
    specialize (G fuel it w0 HC). destruct (direct_loop fuel fuel it w0) as [[r it'] w']. exact G.
  - destruct HC as [H1 H2]. assert (G : forall n idx cur w, calm_iter (staged made) idx -> (forall it, cur = Some it -> calm_iter (staged made) it) ->
      fst (fst (fst (indirect_loop n fuel (qi_query qi) (qi_source qi) tb idx cur w))) <> QTimeout).
    { clear -HS. induction n as [|n IH]; intros idx cur w H1 H2; cbn [indirect_loop]; [discriminate|]. destruct cur as [it|].
      - specialize (H2 it eq_refl). pose proof (calm_no_timeout _ fuel it w H2 (staged_plain made)) as HN.
        destruct (next_same (w_seek_end w) _ (staged_plain made) fuel it w w H2 (conj eq_refl eq_refl)) as [_ HC1].
        destruct (next fuel it w) as [[o u1] w1]. cbn [fst snd] in *. destruct o as [[k v]| | | | |]; try discriminate; try congruence.
        + destruct (entry_decode k v); try discriminate. apply IH; [exact H1|]. intros x Ex. injection Ex as <-. exact HC1.
        + apply IH; [exact H1|discriminate].
      - pose proof (calm_no_timeout _ fuel idx w H1 (staged_plain made)) as HN.
        destruct (next_same (w_seek_end w) _ (staged_plain made) fuel idx w w H1 (conj eq_refl eq_refl)) as [_ HC1].
        destruct (next fuel idx w) as [[o u1] w1]. cbn [fst snd] in *. destruct o as [[k v]| | | | |]; try discriminate; try congruence.
        destruct (index_lookup_key (qi_query qi) tb k v) as [[fk|]| | | |]; try discriminate; (apply IH; [exact HC1|]); [|discriminate].
        intros x Ex. injection Ex as <-. apply calm_open. exact HS. }
    specialize (G fuel idx cur w0 H1 H2). destruct (indirect_loop fuel fuel (qi_query qi) (qi_source qi) tb idx cur w0) as [[[r i1] c1] w']. exact G.
Qed.

Lemma twin_next : forall seeks made fuel q h clock qi w, keep made q -> twin seeks made qi h -> w_seek_end clock = seeks -> w_seek_end w = seeks ->
  let '(r, h', q', clock') := live_next fuel q h clock in
  let '(r2, qi', w') := qnext fuel qi w in
  r = r2 /\ twin seeks made qi' h' /\ keep made q' /\ w_seek_end clock' = seeks /\ w_seek_end w' = seeks.
Proof.
  intros seeks made fuel q h clock qi w HK (HM & HQ & HS & HD & C1 & C2 & C3) Hc Hw. unfold live_next.
  destruct (h_it h) as [hq hs hk] eqn:Eh. cbn [qi_source qi_kind] in HS, HD. destruct qi as [qq qs qk]. cbn [qi_query qi_source qi_kind] in *. subst hs hk. rewrite HM. subst qq.
  unfold live. cbn [qi_query qi_source qi_kind]. rewrite (live_source_kept _ _ _ HK C1), (live_kind_kept _ _ _ HK C2).
  destruct (qnext_same seeks (staged made) (staged_plain made) fuel q made qs qk (view q clock (h_world h)) w C1 C2) as (E1 & E2 & E3 & E4 & E5 & E6 & E7 & E8 & E9).
  { intro HI. intros tb k v. symmetry. apply (keep_alike made q HK (C3 HI)). }
  { split; [exact Hc|exact Hw]. }
  pose proof (qnext_no_timeout made fuel {| qi_query := q; qi_source := qs; qi_kind := qk |} (view q clock (h_world h)) C1 C2) as HN.
  destruct (qnext fuel {| qi_query := q; qi_source := qs; qi_kind := qk |} (view q clock (h_world h))) as [[r qi1] w1]. destruct (qnext fuel {| qi_query := made; qi_source := qs; qi_kind := qk |} w) as [[r2 qi2] w2]. cbn [fst snd] in *.
  split; [destruct r; congruence|]. split; [|split; [apply keep_with_flags; exact HK|split; [exact Hc|apply E9]]].
  unfold twin. cbn [h_made h_it]. rewrite E4, <- E2. split; [reflexivity|]. split; [exact E8|]. split; [exact E3|]. split; [reflexivity|]. split; [exact C1|]. split; [exact E5|]. rewrite E6. exact C3.
Qed.

Lemma step_world : forall ev fuel a s x s', do_act ev fuel a s = Ok (x, s') -> w_seek_end (s_world s') = w_seek_end (s_world s) /\ (forall i h, nth_error (s_handles s) i = Some h -> a <> ANext i -> nth_error (s_handles s') i = Some h).
Proof.
  intros ev fuel a s x s' E. destruct a as [c|lib r|j]; cbn [do_act] in E.
  - destruct (apply_setting ev c (s_query s)) as [[b q']| | | |]; cbn [bind] in E; try discriminate. injection E as <- <-. cbn. auto.
  - destruct (dnstable_reader_query lib r (s_query s)) as [qi| | | |]; try discriminate; injection E as <- <-; cbn; (split; [reflexivity|]); intros i h Hi _; [|exact Hi].
    rewrite nth_error_app1; [exact Hi|]. apply nth_error_Some. congruence.
  - destruct (nth_error (s_handles s) j) as [h0|] eqn:Ej; [|discriminate]. unfold live_next in E. destruct (qnext fuel (live (h_made h0) (s_query s) (h_it h0)) (view (s_query s) (s_world s) (h_world h0))) as [[r qi'] w'].
    injection E as <- <-. cbn. split; [reflexivity|]. intros i h Hi Hn. rewrite replace_other by congruence. exact Hi.
Qed.

Lemma run_twin : forall ev fuel made i l s rs s' h qi w, env_ok ev -> Forall (leaves_alone ev made) l -> do_acts ev fuel l s = Ok (rs, s') ->
  keep made (s_query s) -> nth_error (s_handles s) i = Some h -> twin (w_seek_end (s_world s)) made qi h -> w_seek_end w = w_seek_end (s_world s) ->
  gave i l rs = calls fuel (length (gave i l rs)) qi w.
Proof.
  intros ev fuel made i l. induction l as [|a l IH]; intros s rs s' h qi w HE HF ER HK Hi HT Hw; cbn [do_acts] in ER.
  { injection ER as <- <-. reflexivity. }
  inversion HF as [|? ? HA HF']; subst. destruct (do_act ev fuel a s) as [[x s1]| | | |] eqn:ES; cbn [bind fst snd] in ER; try discriminate.
  destruct (do_acts ev fuel l s1) as [[ys s2]| | | |] eqn:E1; cbn [bind fst snd] in ER; try discriminate. injection ER as <- <-.
  pose proof (step_world _ _ _ _ _ _ ES) as [HW HH].
  assert (Hother : a <> ANext i -> keep made (s_query s1) -> gave i l ys = calls fuel (length (gave i l ys)) qi w).
  { intros Hn HK1. eapply (IH s1 ys s2 h qi w HE HF' E1 HK1 (HH i h Hi Hn)); rewrite HW; assumption. }
  destruct a as [c|lib r|j]; cbn [do_act leaves_alone] in *.
  - destruct (apply_setting ev c (s_query s)) as [[b q']| | | |] eqn:EA; cbn [bind] in ES; try discriminate. injection ES as <- <-. cbn [gave]. apply Hother; [discriminate|]. eapply harmless_keeps; eauto.
  - assert (Hq : s_query s1 = s_query s) by (destruct (dnstable_reader_query lib r (s_query s)); try discriminate; injection ES as <- <-; reflexivity).
    cbn [gave]. apply Hother; [discriminate|rewrite Hq; exact HK].
  - destruct (nth_error (s_handles s) j) as [h0|] eqn:Ej; [|discriminate]. destruct (Nat.eq_dec i j) as [<-|Hij].
    + rewrite Hi in Ej. injection Ej as <-. pose proof (twin_next _ made fuel (s_query s) h (s_world s) qi w HK HT eq_refl Hw) as HN.
      destruct (live_next fuel (s_query s) h (s_world s)) as [[[r h'] q'] w'] eqn:EL. injection ES as <- <-. cbn [gave]. rewrite Nat.eqb_refl. cbn [length calls].
      destruct (qnext fuel qi w) as [[r2 qi'] w2]. destruct HN as (-> & HT' & HK' & Hc' & Hw'). f_equal.
      eapply (IH _ _ _ h' qi' w2); [exact HE|exact HF'|exact E1|exact HK'|cbn; eapply replace_same; exact Hi|cbn [s_world]; rewrite Hc'; exact HT'|cbn [s_world]; rewrite Hc'; exact Hw'].
    + assert (HK1 : keep made (s_query s1)).
      { unfold live_next in ES. destruct (qnext fuel (live (h_made h0) (s_query s) (h_it h0)) (view (s_query s) (s_world s) (h_world h0))) as [[r qi'] w']. injection ES as <- <-. apply keep_with_flags. exact HK. }
      assert (Hx : exists r, x = AGave r) by (destruct (live_next fuel (s_query s) h0 (s_world s)) as [[[r h'] q'] w']; injection ES as <- <-; eauto). destruct Hx as [r ->].
      cbn [gave]. rewrite (proj2 (Nat.eqb_neq i j) Hij). apply Hother; [congruence|exact HK1].
Qed.
