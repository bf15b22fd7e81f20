(** * Memory: readers and clients *)
From Coq Require Import Permutation.
From Verif Require Import Base ModelMemory SpecMemory HeapLogic MemoryBasics MemoryIters MemoryQuery MemoryQueryIter MemoryNext.

(** ** reader.c *)

Lemma reader_init_setfile_ok rm H : tri rm H reader_init_setfile (fun r H' => exists f s l, f <> 0 /\
  Permutation H' ((r, OReader 0 f) :: (f, OFileset s l) :: (s, OSource SBase) :: base_cells l ++ H)).
Proof.
  unfold reader_init_setfile. go. eapply tri_bind; [apply fileset_init_ok|]. intros f H1 (Hf & s & l & HP). start HP. go. fin.
  exists f, s, l. split; [exact Hf|]. perm.
Qed.

(** ** What a client holds *)

(** What the client knows about a query is so. *)
Record viewed (v : query_view) (d : query_data) : Prop := {
  vd_type : v_type v = q_type d;
  vd_data : v_data v = true -> has_data d;
  vd_timeout : v_timeout v = q_do_timeout d;
  vd_deadline : v_deadline v = q_do_deadline d;
  vd_aggregated : v_aggregated v = q_aggregated d;
  vd_after : v_strict_after v = q_tfa d;
  vd_before : v_strict_before v = q_tlb d
}.
Definition source_cells (o : option N) : list cell := match o with Some s => [(s, OSource SBase)] | None => [] end.

(** The blocks of a handle; for a query, whether its bailiwick may be looked at, for an
    iterator, whether it looks at it. *)
Inductive held (rm : bool) : handle -> bool -> list cell -> Prop :=
| held_source s : held rm (HSource s) false [(s, OSource SBase)]
| held_reader r s : held rm (HReader r (Some s)) false [(r, OReader s 0)]
| held_setfile r f s l : f <> 0 -> held rm (HReader r None) false ((r, OReader 0 f) :: (f, OFileset s l) :: (s, OSource SBase) :: base_cells l)
| held_query q v d : viewed v d -> held rm (HQuery q v) (good_bailiwick d) (query_cells q d)
| held_iter i q o tm bw C : iterator {| f_rm := rm; f_tm := tm; f_bw := bw |} (source_cells o) q i C ->
    held rm (HIter i {| i_query := Some q; i_source := o; i_timed := tm |}) bw C
| held_whole i s C : whole s i C -> held rm (HIter i {| i_query := None; i_source := Some s; i_timed := false |}) false C
| held_entry e k C : entry e k C -> held rm (HEntry e match k with EUnknown => false | _ => true end) false C
| held_string s : held rm (HString s) false [(s, OBytes)]
| held_formatter f : held rm (HFormatter f) false [(f, OFormatter)].

Record item := { it_handle : handle; it_flag : bool; it_cells : list cell }.
Definition handles (W : list item) : client := map it_handle W.
Definition blocks (W : list item) : list cell := concat (map it_cells W).
Lemma blocks_app A B : blocks (A ++ B) = blocks A ++ blocks B.
Proof. unfold blocks. rewrite map_app, concat_app. reflexivity. Qed.
Lemma blocks_cons x B : blocks (x :: B) = it_cells x ++ blocks B.
Proof. reflexivity. Qed.

(** What a handle relies on is held too. *)
Definition linked (W : list item) (w : item) : Prop :=
  match it_handle w with
  | HReader _ (Some s) => exists x, In x W /\ it_handle x = HSource s
  | HIter _ v =>
      (forall s, i_source v = Some s -> exists x, In x W /\ it_handle x = HSource s) /\
      (forall q, i_query v = Some q -> exists x vq, In x W /\ it_handle x = HQuery q vq /\ (i_timed v = true -> v_timed vq = true) /\ (it_flag w = true -> it_flag x = true))
  | _ => True
  end.
Record inv (rm : bool) (W : list item) (H : list cell) : Prop := {
  inv_held : forall w, In w W -> held rm (it_handle w) (it_flag w) (it_cells w);
  inv_linked : forall w, In w W -> linked W w;
  inv_blocks : Permutation H (blocks W)
}.

Lemma inv_in rm W H w : inv rm W H -> In w W -> incl (it_cells w) H.
Proof.
  intros HI Hw x Hx. rewrite (inv_blocks _ _ _ HI). unfold blocks. apply in_concat. exists (it_cells w). split; [|exact Hx]. apply in_map. exact Hw.
Qed.
Lemma blocks_in W w : In w W -> incl (it_cells w) (blocks W).
Proof. intros Hw x Hx. unfold blocks. apply in_concat. exists (it_cells w). split; [|exact Hx]. apply in_map. exact Hw. Qed.

(** A handle is added, dropped, or changed. *)
Lemma inv_add rm W H w H' : inv rm W H -> held rm (it_handle w) (it_flag w) (it_cells w) -> linked (w :: W) w -> Permutation H' (it_cells w ++ H) -> inv rm (w :: W) H'.
Proof.
  intros [I1 I2 I3] Hh Hl HP. constructor.
  - intros x [<-|Hx]; auto.
  - intros x [<-|Hx]; [exact Hl|]. specialize (I2 x Hx). unfold linked in *. destruct (it_handle x) as [ |r [s|]| |i v| | | ]; auto.
    + destruct I2 as (y & Hy & E). exists y. split; [right; exact Hy|exact E].
    + destruct I2 as [J1 J2]. split.
      * intros s Hs. destruct (J1 s Hs) as (y & Hy & E). exists y. split; [right; exact Hy|exact E].
      * intros q Hq. destruct (J2 q Hq) as (y & vq & Hy & E). exists y, vq. split; [right; exact Hy|exact E].
  - rewrite HP, I3. reflexivity.
Qed.
Lemma inv_change rm W1 w W2 w' H H' : inv rm (W1 ++ w :: W2) H -> held rm (it_handle w') (it_flag w') (it_cells w') ->
  Permutation H' (it_cells w' ++ blocks (W1 ++ W2)) -> linked (W1 ++ w :: W2) w' ->
  (forall s, it_handle w = HSource s -> it_handle w' = HSource s) ->
  (forall q v, it_handle w = HQuery q v -> exists v', it_handle w' = HQuery q v' /\
     (v_timed v = true -> v_timed v' = true \/ nobody (timed_iter_of_query q) (handles (W1 ++ w :: W2)) = true) /\
     (it_flag w = true -> it_flag w' = true \/ nobody (iter_of_query q) (handles (W1 ++ w :: W2)) = true)) ->
  inv rm (W1 ++ w' :: W2) H'.
Proof.
  intros [I1 I2 I3] Hh HP Hl Hs Hq.
  assert (Hsub : forall x, In x (W1 ++ w' :: W2) -> x = w' \/ In x (W1 ++ w :: W2)) by (intros x; rewrite !in_app_iff; simpl; intuition).
  assert (Hkeep : forall x, In x (W1 ++ w :: W2) -> x = w \/ In x (W1 ++ w' :: W2)) by (intros x; rewrite !in_app_iff; simpl; intuition).
  assert (Hw' : In w' (W1 ++ w' :: W2)) by (apply in_or_app; right; left; reflexivity).
  constructor.
  - intros x Hx. destruct (Hsub x Hx) as [->|Hx']; auto.
  - intros x Hx. assert (Lx : linked (W1 ++ w :: W2) x /\ (x <> w' -> In x (W1 ++ w :: W2))) by (destruct (Hsub x Hx) as [->|Hx']; split; auto; intro C; congruence).
    destruct Lx as [Lx Hin].
    assert (HS : forall s, (exists y, In y (W1 ++ w :: W2) /\ it_handle y = HSource s) -> exists y, In y (W1 ++ w' :: W2) /\ it_handle y = HSource s).
    { intros s (y & Hy & E). destruct (Hkeep y Hy) as [->|Hy']; [exists w'; split; [exact Hw'|auto]|exists y; auto]. }
    unfold linked in *. destruct (it_handle x) as [ |r [s|]| |i v| | | ] eqn:Ex; auto.
    destruct Lx as [J1 J2]. split; [auto|]. intros q Eq. destruct (J2 q Eq) as (y & vq & Hy & Ey & Ht & Hb).
    destruct (Hkeep y Hy) as [->|Hy']; [|exists y, vq; auto].
    destruct (Hq q vq Ey) as (v' & Ev' & HT & HB). exists w', v'. split; [exact Hw'|]. split; [exact Ev'|].
    assert (Hnb : forall f, nobody f (handles (W1 ++ w :: W2)) = true -> f (it_handle x) = false).
    { intros f Hn. unfold nobody in Hn. apply negb_true_iff in Hn. destruct (f (it_handle x)) eqn:E; [|reflexivity]. exfalso.
      assert (Hx' : In x (W1 ++ w :: W2)) by (destruct (Hsub x Hx) as [->|]; [|assumption]; congruence).
      assert (existsb f (handles (W1 ++ w :: W2)) = true) by (apply existsb_exists; exists (it_handle x); split; [apply in_map; exact Hx'|exact E]). congruence. }
    assert (Hiq : iter_of_query q (it_handle x) = true) by (rewrite Ex; simpl; rewrite Eq; apply N.eqb_refl).
    split.
    + intro Et. destruct (HT (Ht Et)) as [|Hn]; [assumption|]. apply Hnb in Hn. unfold timed_iter_of_query in Hn. rewrite Hiq, Ex, Et in Hn. discriminate.
    + intro Eb. destruct (HB (Hb Eb)) as [|Hn]; [assumption|]. apply Hnb in Hn. congruence.
  - rewrite HP, !blocks_app, blocks_cons. perm.
Qed.
Lemma inv_drop rm W1 w W2 H H' : inv rm (W1 ++ w :: W2) H -> Permutation H' (blocks (W1 ++ W2)) ->
  (forall s, it_handle w = HSource s -> nobody (reader_of s) (handles (W1 ++ w :: W2)) = true /\ nobody (iter_of_source s) (handles (W1 ++ w :: W2)) = true) ->
  (forall q v, it_handle w = HQuery q v -> nobody (iter_of_query q) (handles (W1 ++ w :: W2)) = true) ->
  inv rm (W1 ++ W2) H'.
Proof.
  intros [I1 I2 I3] HP Hs Hq.
  assert (Hsub : forall x, In x (W1 ++ W2) -> In x (W1 ++ w :: W2)) by (intros x; rewrite !in_app_iff; simpl; intuition).
  assert (Hkeep : forall x, In x (W1 ++ w :: W2) -> x = w \/ In x (W1 ++ W2)) by (intros x; rewrite !in_app_iff; simpl; intuition).
  assert (Hnb : forall f x, In x (W1 ++ W2) -> nobody f (handles (W1 ++ w :: W2)) = true -> f (it_handle x) = false).
  { intros f x Hx Hn. unfold nobody in Hn. apply negb_true_iff in Hn. destruct (f (it_handle x)) eqn:E; [|reflexivity]. exfalso.
    assert (existsb f (handles (W1 ++ w :: W2)) = true) by (apply existsb_exists; exists (it_handle x); split; [apply in_map; auto|exact E]). congruence. }
  constructor.
  - auto.
  - intros x Hx. pose proof (I2 x (Hsub x Hx)) as Lx. unfold linked in *. destruct (it_handle x) as [ |r [s|]| |i v| | | ] eqn:Ex; auto.
    + destruct Lx as (y & Hy & E). destruct (Hkeep y Hy) as [->|Hy']; [|exists y; auto]. destruct (Hs s E) as [Hn _]. apply (Hnb _ x Hx) in Hn. rewrite Ex in Hn. simpl in Hn. rewrite N.eqb_refl in Hn. discriminate.
    + destruct Lx as [J1 J2]. split.
      * intros s Es. destruct (J1 s Es) as (y & Hy & E). destruct (Hkeep y Hy) as [->|Hy']; [|exists y; auto]. destruct (Hs s E) as [_ Hn]. apply (Hnb _ x Hx) in Hn. rewrite Ex in Hn. simpl in Hn. rewrite Es, N.eqb_refl in Hn. discriminate.
      * intros q Eq. destruct (J2 q Eq) as (y & vq & Hy & E & Hr). destruct (Hkeep y Hy) as [->|Hy']; [|exists y, vq; auto]. pose proof (Hq q vq E) as Hn. apply (Hnb _ x Hx) in Hn. rewrite Ex in Hn. simpl in Hn. rewrite Eq, N.eqb_refl in Hn. discriminate.
  - exact HP.
Qed.

(** ** Finding handles *)

Lemma existsb_split f W : existsb f (handles W) = true -> exists W1 w W2, W = W1 ++ w :: W2 /\ f (it_handle w) = true /\ drop f (handles W) = handles (W1 ++ W2).
Proof.
  induction W as [|w W IH]; simpl; [discriminate|]. destruct (f (it_handle w)) eqn:E; simpl.
  - intros _. exists [], w, W. auto.
  - intro He. destruct (IH He) as (W1 & w' & W2 & -> & Hf & Hd). exists (w :: W1), w', W2. simpl. rewrite Hd. auto.
Qed.
Lemma find_query_split q W v : find_query q (handles W) = Some v -> exists W1 w W2, W = W1 ++ w :: W2 /\ it_handle w = HQuery q v /\
  drop (is_query q) (handles W) = handles (W1 ++ W2) /\ forall f b C, know q f (handles W) = handles (W1 ++ {| it_handle := HQuery q (f v); it_flag := b; it_cells := C |} :: W2).
Proof.
  induction W as [|w W IH]; simpl; [discriminate|]. destruct (it_handle w) as [ | |p x| | | | ] eqn:E; simpl; try destruct (p =? q) eqn:Ep.
  3: { apply N.eqb_eq in Ep. subst p. intros [= ->]. exists [], w, W. auto. }
  all: intro He; destruct (IH He) as (W1 & w' & W2 & -> & Hf & Hd & Hk); exists (w :: W1), w', W2; simpl; rewrite Hd, E;
    (split; [reflexivity|split; [exact Hf|split; [reflexivity|]]]; intros g b C; rewrite (Hk g b C); reflexivity).
Qed.
Lemma find_iter_split i W v : find_iter i (handles W) = Some v -> exists W1 w W2, W = W1 ++ w :: W2 /\ it_handle w = HIter i v /\ drop (is_iter i) (handles W) = handles (W1 ++ W2).
Proof.
  induction W as [|w W IH]; simpl; [discriminate|]. destruct (it_handle w) as [ | | |p x| | | ] eqn:E; simpl; try destruct (p =? i) eqn:Ep.
  4: { apply N.eqb_eq in Ep. subst p. intros [= ->]. exists [], w, W. auto. }
  all: intro He; destruct (IH He) as (W1 & w' & W2 & -> & Hf & Hd); exists (w :: W1), w', W2; simpl; rewrite Hd, E; auto.
Qed.
Lemma find_reader_split r W v : find_reader r (handles W) = Some v -> exists W1 w W2, W = W1 ++ w :: W2 /\ it_handle w = HReader r v /\ drop (is_reader r) (handles W) = handles (W1 ++ W2).
Proof.
  induction W as [|w W IH]; simpl; [discriminate|]. destruct (it_handle w) as [ |p x| | | | | ] eqn:E; simpl; try destruct (p =? r) eqn:Ep.
  2: { apply N.eqb_eq in Ep. subst p. intros [= ->]. exists [], w, W. auto. }
  all: intro He; destruct (IH He) as (W1 & w' & W2 & -> & Hf & Hd); exists (w :: W1), w', W2; simpl; rewrite Hd, E; auto.
Qed.
Lemma find_entry_split e W v : find_entry e (handles W) = Some v -> exists W1 w W2, W = W1 ++ w :: W2 /\ it_handle w = HEntry e v /\ drop (is_entry e) (handles W) = handles (W1 ++ W2).
Proof.
  induction W as [|w W IH]; simpl; [discriminate|]. destruct (it_handle w) as [ | | | |p x| | ] eqn:E; simpl; try destruct (p =? e) eqn:Ep.
  5: { apply N.eqb_eq in Ep. subst p. intros [= ->]. exists [], w, W. auto. }
  all: intro He; destruct (IH He) as (W1 & w' & W2 & -> & Hf & Hd); exists (w :: W1), w', W2; simpl; rewrite Hd, E; auto.
Qed.

(** What is held, by the kind of handle. *)
Lemma held_source_inv rm s b C : held rm (HSource s) b C -> C = [(s, OSource SBase)].
Proof. inversion 1; reflexivity. Qed.
Lemma held_query_inv rm q v b C : held rm (HQuery q v) b C -> exists d, viewed v d /\ b = good_bailiwick d /\ C = query_cells q d.
Proof. inversion 1; subst; eauto. Qed.
Lemma held_entry_inv rm e x b C : held rm (HEntry e x) b C -> exists k, entry e k C /\ x = match k with EUnknown => false | _ => true end /\ b = false.
Proof. inversion 1; subst; eauto. Qed.

(** ** The calls *)

Definition kept (rm : bool) (c : client) (H : list cell) : Prop := exists W, c = handles W /\ inv rm W H.

Lemma inv_focus rm W1 w W2 H : inv rm (W1 ++ w :: W2) H -> Permutation H (it_cells w ++ blocks (W1 ++ W2)).
Proof. intros [_ _ HP]. rewrite HP, !blocks_app, blocks_cons. perm. Qed.
Lemma inv_at rm W1 w W2 H : inv rm (W1 ++ w :: W2) H -> held rm (it_handle w) (it_flag w) (it_cells w) /\ linked (W1 ++ w :: W2) w.
Proof. intros [I1 I2 _]. assert (Hw : In w (W1 ++ w :: W2)) by (apply in_or_app; right; left; reflexivity). auto. Qed.
Lemma handles_same W1 w w' W2 : it_handle w' = it_handle w -> handles (W1 ++ w :: W2) = handles (W1 ++ w' :: W2).
Proof. intro E. unfold handles. rewrite !map_app. simpl. rewrite E. reflexivity. Qed.

(** A query is changed. *)
Definition query_item (q : N) (v : query_view) (d : query_data) : item := {| it_handle := HQuery q v; it_flag := good_bailiwick d; it_cells := query_cells q d |}.
Lemma query_changed rm W1 w W2 q v d v' d' H H' : inv rm (W1 ++ w :: W2) H -> it_handle w = HQuery q v -> it_flag w = good_bailiwick d -> viewed v' d' ->
  Permutation H' (query_cells q d' ++ blocks (W1 ++ W2)) ->
  (v_timed v = true -> v_timed v' = true \/ nobody (timed_iter_of_query q) (handles (W1 ++ w :: W2)) = true) ->
  (good_bailiwick d = true -> good_bailiwick d' = true \/ nobody (iter_of_query q) (handles (W1 ++ w :: W2)) = true) ->
  inv rm (W1 ++ query_item q v' d' :: W2) H'.
Proof.
  intros HI Ew Ef Hv HP Ht Hb. eapply inv_change; [exact HI| |exact HP|exact I| |].
  - simpl. apply held_query. exact Hv.
  - rewrite Ew. discriminate.
  - rewrite Ew. intros q0 v0 [= <- <-]. exists v'. rewrite Ef. simpl. auto.
Qed.
Lemma query_here rm W H q v : inv rm W H -> find_query q (handles W) = Some v ->
  exists W1 w W2 d, W = W1 ++ w :: W2 /\ it_handle w = HQuery q v /\ it_flag w = good_bailiwick d /\ viewed v d /\ Permutation H (query_cells q d ++ blocks (W1 ++ W2)) /\
    drop (is_query q) (handles W) = handles (W1 ++ W2) /\ (forall f d', know q f (handles W) = handles (W1 ++ query_item q (f v) d' :: W2)) /\ (forall d', handles W = handles (W1 ++ query_item q v d' :: W2)).
Proof.
  intros HI Hf. destruct (find_query_split q W v Hf) as (W1 & w & W2 & -> & Ew & Hd & Hk). destruct (inv_at _ _ _ _ _ HI) as [Hh _]. rewrite Ew in Hh.
  apply held_query_inv in Hh as (d & Hv & Eb & EC). exists W1, w, W2, d. repeat (split; [solve [auto]|]). split; [rewrite <- EC; apply (inv_focus _ _ _ _ _ HI)|].
  split; [exact Hd|]. split; [intros f d'; apply Hk|]. intro d'. apply handles_same. simpl. auto.
Qed.

(** What running an iterator needs. *)
Lemma iterator_usable rm W H i q o tm bw w : inv rm W H -> In w W -> it_handle w = HIter i {| i_query := Some q; i_source := o; i_timed := tm |} -> it_flag w = bw ->
  forall W1 W2, W = W1 ++ w :: W2 -> exists d, usable {| f_rm := rm; f_tm := tm; f_bw := bw |} q d (blocks (W1 ++ W2)) /\ incl (source_cells o) (blocks (W1 ++ W2)).
Proof.
  intros HI Hw Ew Eb W1 W2 ->. pose proof (inv_linked _ _ _ HI w Hw) as HL. unfold linked in HL. rewrite Ew in HL. cbn in HL. destruct HL as [J1 J2].
  assert (Hother : forall x h, In x (W1 ++ w :: W2) -> it_handle x = h -> h <> it_handle w -> incl (it_cells x) (blocks (W1 ++ W2))).
  { intros x h Hx Ex Hn. apply blocks_in. apply in_or_app. apply in_app_or in Hx as [Hx|[<-|Hx]]; auto. congruence. }
  destruct (J2 q eq_refl) as (x & vq & Hx & Ex & Ht & Hb). pose proof (inv_held _ _ _ HI x Hx) as Hh. rewrite Ex in Hh. apply held_query_inv in Hh as (d & Hv & Ebq & EC).
  assert (Hi : incl (query_cells q d) (blocks (W1 ++ W2))) by (rewrite <- EC; eapply Hother; [exact Hx|exact Ex|rewrite Ew; discriminate]).
  exists d. split.
  - constructor; simpl.
    + apply Hi. left. reflexivity.
    + intros y Hy. apply Hi. unfold query_cells. right. rewrite !in_app_iff. auto.
    + intro E. rewrite <- Ebq. apply Hb. congruence.
    + intro E. destruct Hv as [_ _ T D _ _ _]. rewrite <- T, <- D. apply Ht, E.
  - destruct o as [s|]; [|apply incl_nil_l]. destruct (J1 s eq_refl) as (y & Hy & Ey). pose proof (inv_held _ _ _ HI y Hy) as Hh. rewrite Ey in Hh. apply held_source_inv in Hh.
    simpl. rewrite <- Hh. eapply Hother; [exact Hy|exact Ey|rewrite Ew; discriminate].
Qed.
Lemma whole_usable rm W1 w W2 H i s : inv rm (W1 ++ w :: W2) H -> it_handle w = HIter i {| i_query := None; i_source := Some s; i_timed := false |} -> In (s, OSource SBase) (blocks (W1 ++ W2)).
Proof.
  intros HI Ew. destruct (inv_at _ _ _ _ _ HI) as [_ HL]. unfold linked in HL. rewrite Ew in HL. cbn in HL. destruct HL as [J1 _].
  destruct (J1 s eq_refl) as (y & Hy & Ey). pose proof (inv_held _ _ _ HI y Hy) as Hh. rewrite Ey in Hh. apply held_source_inv in Hh.
  assert (Hy' : In y (W1 ++ W2)) by (apply in_or_app; apply in_app_or in Hy as [Hy|[<-|Hy]]; auto; congruence).
  apply (blocks_in _ _ Hy'). rewrite Hh. left. reflexivity.
Qed.
Lemma view_data v d : viewed v d -> v_data v || negb (needs_data (v_type v)) = true -> has_data d.
Proof.
  intros [T D _ _ _ _ _] Hd. destruct (v_data v); [auto|]. simpl in Hd. unfold has_data. rewrite <- T. destruct (v_type v); simpl in Hd; try discriminate; exact I.
Qed.

Section Calls.
  Variables (rm : bool) (fuel : nat) (W : list item) (H : list cell).
  Hypothesis (HI : inv rm W H).
  Local Notation goal a := (tri rm H (make fuel (handles W) a) (kept rm)).

  Lemma kept_same : kept rm (handles W) H.
  Proof. exists W. auto. Qed.
  Lemma kept_add w H' : held rm (it_handle w) (it_flag w) (it_cells w) -> linked (w :: W) w -> Permutation H' (it_cells w ++ H) -> kept rm (it_handle w :: handles W) H'.
  Proof. intros Hh Hl HP. exists (w :: W). split; [reflexivity|]. eapply inv_add; eassumption. Qed.

  Lemma make_source_open : goal SourceOpen.
  Proof.
    unfold make. go. fin. apply (kept_add {| it_handle := HSource p; it_flag := false; it_cells := [(p, OSource SBase)] |}); [constructor|exact I|reflexivity].
  Qed.
  Lemma make_source_close s : allowed (handles W) (SourceClose s) = true -> goal (SourceClose s).
  Proof.
    intro Ha. simpl in Ha. apply andb_true_iff in Ha as [Ha H3]. apply andb_true_iff in Ha as [Ha H2]. unfold make.
    destruct (existsb_split _ _ Ha) as (W1 & w & W2 & -> & Hf & Hd). destruct (it_handle w) as [p| | | | | | ] eqn:Ew; try discriminate. simpl in Hf. apply N.eqb_eq in Hf. subst p.
    destruct (inv_at _ _ _ _ _ HI) as [Hh _]. rewrite Ew in Hh. apply held_source_inv in Hh. rewrite Hd. pose proof (inv_focus _ _ _ _ _ HI) as HP. rewrite Hh in HP. start HP. simpl app.
    eapply source_destroy_bind; [focus|]. fin. exists (W1 ++ W2). split; [reflexivity|]. eapply inv_drop; [exact HI|reflexivity| |].
    - intros s0 E. rewrite Ew in E. injection E as <-. auto.
    - intros q v E. congruence.
  Qed.
  Lemma make_reader_init s : allowed (handles W) (ReaderInit s) = true -> goal (ReaderInit s).
  Proof.
    intro Ha. simpl in Ha. unfold make, reader_init. go. fin. apply (kept_add {| it_handle := HReader p (Some s); it_flag := false; it_cells := [(p, OReader s 0)] |}); [constructor| |reflexivity].
    unfold linked. simpl. destruct (existsb_split _ _ Ha) as (W1 & w & W2 & -> & Hf & _). exists w. split; [right; apply in_or_app; right; left; reflexivity|].
    destruct (it_handle w); try discriminate. simpl in Hf. apply N.eqb_eq in Hf. congruence.
  Qed.
  Lemma make_reader_init_setfile : goal ReaderInitSetfile.
  Proof.
    unfold make. eapply tri_bind; [apply reader_init_setfile_ok|]. intros r H' (f & s & l & Hf & HP). fin.
    apply (kept_add {| it_handle := HReader r None; it_flag := false; it_cells := (r, OReader 0 f) :: (f, OFileset s l) :: (s, OSource SBase) :: base_cells l |}); [constructor; exact Hf|exact I|exact HP].
  Qed.
  Lemma reader_at r v : find_reader r (handles W) = Some v -> exists W1 w W2, W = W1 ++ w :: W2 /\ it_handle w = HReader r v /\ drop (is_reader r) (handles W) = handles (W1 ++ W2) /\
    match v with
    | Some s => it_cells w = [(r, OReader s 0)] /\ In (s, OSource SBase) H /\ exists x, In x W /\ it_handle x = HSource s
    | None => exists f s l, f <> 0 /\ it_cells w = (r, OReader 0 f) :: (f, OFileset s l) :: (s, OSource SBase) :: base_cells l
    end.
  Proof.
    intro Hf. destruct (find_reader_split r W v Hf) as (W1 & w & W2 & E & Ew & Hd). exists W1, w, W2. split; [exact E|split; [exact Ew|split; [exact Hd|]]]. pose proof HI as HI'. rewrite E in HI'.
    destruct (inv_at _ _ _ _ _ HI') as [Hh HL]. rewrite Ew in Hh. destruct v as [s|].
    - unfold linked in HL. rewrite Ew in HL. destruct HL as (x & Hx & Ex). rewrite <- E in Hx. inversion Hh; subst. split; [reflexivity|]. split; [|eauto].
      pose proof (inv_held _ _ _ HI x Hx) as Hs. rewrite Ex in Hs. apply held_source_inv in Hs. apply (inv_in _ _ _ _ HI Hx). rewrite Hs. left. reflexivity.
    - inversion Hh; subst. eauto.
  Qed.
  Lemma reader_in W1 w W2 : W = W1 ++ w :: W2 -> incl (it_cells w) H.
  Proof. intro E. apply (inv_in _ _ _ _ HI). rewrite E. apply in_or_app. right. left. reflexivity. Qed.
  Lemma make_reader_reload r : allowed (handles W) (ReaderReload r) = true -> goal (ReaderReload r).
  Proof.
    simpl. destruct (find_reader r (handles W)) as [v|] eqn:Ef; [intros _|discriminate]. destruct (reader_at r v Ef) as (W1 & w & W2 & E & Ew & _ & Hv). pose proof (reader_in _ _ _ E) as Hin. unfold make, reader_reload.
    destruct v as [s|].
    - destruct Hv as [EC _]. rewrite EC in Hin. go. fin. apply kept_same.
    - destruct Hv as (f & s & l & Hz & EC). rewrite EC in Hin. go. rewrite (proj2 (N.eqb_neq f 0) Hz). go. fin. apply kept_same.
  Qed.
  Lemma make_reader_destroy r : allowed (handles W) (ReaderDestroy r) = true -> goal (ReaderDestroy r).
  Proof.
    simpl. destruct (find_reader r (handles W)) as [v|] eqn:Ef; [intros _|discriminate]. destruct (reader_at r v Ef) as (W1 & w & W2 & E & Ew & Hd & Hv). unfold make, reader_destroy. rewrite Hd. pose proof HI as HI'. rewrite E in HI'.
    pose proof (inv_focus _ _ _ _ _ HI') as HP.
    assert (Hfin : forall H', Permutation H' (blocks (W1 ++ W2)) -> kept rm (handles (W1 ++ W2)) H').
    { intros H' HP'. exists (W1 ++ W2). split; [reflexivity|]. eapply inv_drop; [exact HI'|exact HP'| |]; rewrite Ew; discriminate. }
    destruct v as [s|].
    - destruct Hv as [EC _]. rewrite EC in HP. start HP. simpl app. eapply tri_nz; [left; reflexivity|]. intro Hz. rewrite (proj2 (N.eqb_neq r 0) Hz). go. unfold fileset_destroy at 1. rewrite N.eqb_refl. go. fin. apply Hfin. reflexivity.
    - destruct Hv as (f & s & l & Hf & EC). rewrite EC in HP. start HP. simpl app. eapply tri_nz; [left; reflexivity|]. intro Hz. rewrite (proj2 (N.eqb_neq r 0) Hz). go.
      eapply tri_bind; [apply (fileset_destroy_ok _ f s l _ ((r, OReader 0 f) :: blocks (W1 ++ W2)) Hf); perm|]. intros u H' HP'. start HP'. go. fin. apply Hfin. reflexivity.
  Qed.

  Lemma make_query_init k : goal (QueryInit k).
  Proof.
    unfold make. eapply tri_bind; [apply query_init_ok|]. intros q H' (d & HP & Ed). fin. apply (kept_add (query_item q (new_view k) d)); [|exact I|exact HP].
    simpl. apply held_query. subst d. constructor; simpl; auto; discriminate.
  Qed.
  Ltac query_call q Ha :=
    simpl in Ha; destruct (find_query q (handles W)) as [v|] eqn:Ef; [|try discriminate];
    destruct (query_here rm W H q v HI Ef) as (W1 & w & W2 & d & E & Ew & Eb & Hv & HP & Hd & Hk & Hs); pose proof HI as HI'; rewrite E in HI'; unfold make.
  (** The bailiwick stays usable, or is not used. *)
  Lemma make_query_set_data q null : allowed (handles W) (QuerySetData q null) = true -> goal (QuerySetData q null).
  Proof.
    intro Ha. query_call q Ha. eapply tri_bind; [apply (query_set_data_ok _ q d null _ _ HP)|]. intros r H' (d' & HP' & Hq & Hg & Hdat). fin. rewrite (Hk _ d'). eexists. split; [reflexivity|].
    eapply query_changed; [exact HI'|exact Ew|exact Eb| |exact HP'|auto|rewrite Hg; auto].
    unfold qflags in Hq. injection Hq as Q1 Q2 Q3 Q4 Q5 Q6 Q7 Q8. destruct Hv as [T D V1 V2 V3 V4 V5]. constructor; simpl; try congruence.
    intro Hr. apply andb_true_iff in Hr as [H1 H2]. apply Hdat; [exact H1|]. destruct null; [discriminate|reflexivity].
  Qed.
  Lemma make_query_set_rrtype q null : allowed (handles W) (QuerySetRrtype q null) = true -> goal (QuerySetRrtype q null).
  Proof.
    intro Ha. query_call q Ha. eapply tri_bind; [apply (query_set_rrtype_ok _ q d null _ _ HP)|]. intros r H' (e & HP'). fin. rewrite (Hs (with_err e d)). eexists. split; [reflexivity|].
    eapply query_changed; [exact HI'|exact Ew|exact Eb| |exact HP'|auto|auto]. destruct Hv. constructor; assumption.
  Qed.
  Lemma make_query_get_error q : allowed (handles W) (QueryGetError q) = true -> goal (QueryGetError q).
  Proof.
    intro Ha. query_call q Ha. eapply tri_bind; [apply (query_get_error_ok _ q d _ _ HP)|]. intros r H' (e & HP'). fin. rewrite (Hs (with_err e d)). eexists. split; [reflexivity|].
    eapply query_changed; [exact HI'|exact Ew|exact Eb| |exact HP'|auto|auto]. destruct Hv. constructor; assumption.
  Qed.
  Lemma make_query_set_bailiwick q null : allowed (handles W) (QuerySetBailiwick q null) = true -> goal (QuerySetBailiwick q null).
  Proof.
    intro Ha. query_call q Ha. eapply tri_bind; [apply (query_set_bailiwick_ok _ q d null _ _ HP)|]. intros r H' (d' & HP' & Hq & Hr & Hn & Hg). fin. rewrite (Hs d'). eexists. split; [reflexivity|].
    eapply query_changed; [exact HI'|exact Ew|exact Eb| |exact HP'|auto|].
    - unfold qflags in Hq. injection Hq as Q1 Q2 Q3 Q4 Q5 Q6 Q7 Q8. destruct Hv as [T D V1 V2 V3 V4 V5]. constructor; try congruence. intro Hr'. specialize (D Hr'). unfold has_data in *. rewrite Q1, Hr, Hn. exact D.
    - intro Hgood. simpl in Ha. apply orb_true_iff in Ha as [Ha|Ha]; [left; auto|right]. rewrite <- E. exact Ha.
  Qed.
  Lemma make_query_set_timeout q null : allowed (handles W) (QuerySetTimeout q null) = true -> goal (QuerySetTimeout q null).
  Proof.
    intro Ha. query_call q Ha. eapply tri_bind; [apply (query_set_ok _ q d (with_timeout (negb null)) _ _ eq_refl eq_refl eq_refl eq_refl HP)|]. intros r H' HP'. fin. rewrite (Hk _ (with_timeout (negb null) d)). eexists. split; [reflexivity|].
    eapply query_changed; [exact HI'|exact Ew|exact Eb| |exact HP'| |auto].
    - destruct Hv. constructor; auto.
    - intros _. rewrite <- E. unfold v_timed. simpl. destruct null; simpl in *; [|auto]. apply orb_true_iff in Ha as [Ha|Ha]; auto.
  Qed.
  Lemma make_query_set_deadline q null : allowed (handles W) (QuerySetDeadline q null) = true -> goal (QuerySetDeadline q null).
  Proof.
    intro Ha. query_call q Ha. eapply tri_bind; [apply (query_set_ok _ q d (with_deadline (negb null)) _ _ eq_refl eq_refl eq_refl eq_refl HP)|]. intros r H' HP'. fin. rewrite (Hk _ (with_deadline (negb null) d)). eexists. split; [reflexivity|].
    eapply query_changed; [exact HI'|exact Ew|exact Eb| |exact HP'| |auto].
    - destruct Hv. constructor; auto.
    - intros _. rewrite <- E. unfold v_timed. simpl. destruct null; simpl in *; [|rewrite orb_true_r; auto]. apply orb_true_iff in Ha as [Ha|Ha]; [left; rewrite Ha; reflexivity|auto].
  Qed.
  Lemma make_query_set_aggregated q x : allowed (handles W) (QuerySetAggregated q x) = true -> goal (QuerySetAggregated q x).
  Proof.
    intro Ha. query_call q Ha. eapply tri_bind; [apply (query_set_ok _ q d (with_aggregated x) _ _ eq_refl eq_refl eq_refl eq_refl HP)|]. intros r H' HP'. fin. rewrite (Hk _ (with_aggregated x d)). eexists. split; [reflexivity|].
    eapply query_changed; [exact HI'|exact Ew|exact Eb| |exact HP'|auto|auto]. destruct Hv. constructor; auto.
  Qed.
  Lemma make_query_set_parameter q b null : allowed (handles W) (QuerySetParameter q b null) = true -> goal (QuerySetParameter q b null).
  Proof.
    intro Ha. query_call q Ha. eapply tri_bind; [apply (query_set_ok _ q d (with_bound b (negb null)) _ _ eq_refl eq_refl eq_refl eq_refl HP)|]. intros r H' HP'. fin. rewrite (Hk _ (with_bound b (negb null) d)). eexists. split; [reflexivity|].
    eapply query_changed; [exact HI'|exact Ew|exact Eb| |exact HP'|auto|auto]. destruct Hv. constructor; destruct b; simpl; auto.
  Qed.
  Lemma make_query_set_case q : allowed (handles W) (QuerySetCase q) = true -> goal (QuerySetCase q).
  Proof.
    intro Ha. query_call q Ha. eapply tri_bind; [apply (query_set_ok _ q d (fun d => d) _ _ eq_refl eq_refl eq_refl eq_refl HP)|]. intros r H' HP'. fin. rewrite (Hs d). eexists. split; [reflexivity|].
    eapply query_changed; [exact HI'|exact Ew|exact Eb|exact Hv|exact HP'|auto|auto].
  Qed.
  Lemma make_query_destroy q : allowed (handles W) (QueryDestroy q) = true -> goal (QueryDestroy q).
  Proof.
    intro Ha. query_call q Ha. eapply tri_bind; [apply (query_destroy_ok _ q d _ _ HP)|]. intros r H' HP'. fin. rewrite Hd. eexists. split; [reflexivity|]. eapply inv_drop; [exact HI'|exact HP'| |].
    - rewrite Ew. discriminate.
    - rewrite Ew. intros q0 v0 [= <- <-]. rewrite <- E. exact Ha.
  Qed.
  Lemma entry_at e x : find_entry e (handles W) = Some x -> exists W1 w W2 k, W = W1 ++ w :: W2 /\ it_handle w = HEntry e x /\ entry e k (it_cells w) /\ x = match k with EUnknown => false | _ => true end /\
    Permutation H (it_cells w ++ blocks (W1 ++ W2)) /\ drop (is_entry e) (handles W) = handles (W1 ++ W2) /\ inv rm (W1 ++ w :: W2) H.
  Proof.
    intro Hf. destruct (find_entry_split e W x Hf) as (W1 & w & W2 & E & Ew & Hd). pose proof HI as HI'. rewrite E in HI'. destruct (inv_at _ _ _ _ _ HI') as [Hh _]. rewrite Ew in Hh.
    apply held_entry_inv in Hh as (k & He & Ek & _). exists W1, w, W2, k. repeat (split; [solve [auto]|]). split; [apply (inv_focus _ _ _ _ _ HI')|auto].
  Qed.
  Lemma make_query_filter q e : allowed (handles W) (QueryFilter q e) = true -> goal (QueryFilter q e).
  Proof.
    intro Ha. query_call q Ha. destruct (find_entry e (handles W)) as [x|] eqn:Ee; [|discriminate]. destruct (entry_at e x Ee) as (V1 & y & V2 & k & EV & Ey & Hen & _ & _).
    eapply tri_bind; [eapply (query_filter_ok _ q d e k (it_cells y) H)|].
    - rewrite HP. left. reflexivity.
    - intros z Hz. rewrite HP. apply in_or_app. left. unfold query_cells. right. rewrite !in_app_iff. auto.
    - exact Hen.
    - apply (inv_in _ _ _ _ HI). rewrite EV. apply in_or_app. right. left. reflexivity.
    - intros u H' ->. fin. apply kept_same.
  Qed.

  Lemma make_reader_iter r : allowed (handles W) (ReaderIter r) = true -> goal (ReaderIter r).
  Proof.
    simpl. destruct (find_reader r (handles W)) as [[s|]|] eqn:Ef; try discriminate. intros _. destruct (reader_at r _ Ef) as (W1 & w & W2 & E & Ew & _ & EC & Hs & x & Hx & Ex).
    pose proof (reader_in _ _ _ E) as Hin. rewrite EC in Hin. eapply tri_bind; [apply (reader_iter_ok _ r s 0); [apply Hin; left; reflexivity|exact Hs]|].
    intros i H' (Hz & C & HC & HP). fin. apply (kept_add {| it_handle := HIter i {| i_query := None; i_source := Some s; i_timed := false |}; it_flag := false; it_cells := C |}); [constructor; exact HC| |exact HP].
    split; simpl; [|discriminate]. intros s0 [= <-]. exists x. auto.
  Qed.
  Lemma make_reader_query r q : allowed (handles W) (ReaderQuery r q) = true -> (strict (handles W) (ReaderQuery r q) = true -> rm = true) -> goal (ReaderQuery r q).
  Proof.
    intros Ha Hst. simpl in Ha, Hst. destruct (find_reader r (handles W)) as [o|] eqn:Er; [|discriminate]. query_call q Ha. simpl in Ha.
    destruct (reader_at r o Er) as (V1 & y & V2 & EV & Ey & _ & Hy). pose proof (reader_in _ _ _ EV) as Hin. rewrite Er, Ef.
    set (fl := {| f_rm := rm; f_tm := v_timed v; f_bw := negb (q_bailiwick d =? 0) |}).
    assert (Hq : incl (query_cells q d) H) by (intros z Hz; rewrite HP; mem).
    assert (Hru : runnable fl q d H).
    { constructor; simpl.
      - apply Hq. left. reflexivity.
      - intros z Hz. apply Hq. unfold query_cells. right. rewrite !in_app_iff. auto.
      - intros z Hz. apply Hq. unfold query_cells. right. rewrite !in_app_iff. auto.
      - intros z Hz. apply Hq. unfold query_cells. right. rewrite !in_app_iff. auto.
      - apply (view_data v); assumption.
      - intro Hb. apply N.eqb_neq in Hb. rewrite Hb. reflexivity.
      - unfold v_timed. destruct Hv as [_ _ -> -> _ _ _]. auto. }
    assert (Hdone : forall i H', (exists it, made fl it q (source_cells o) H i H') ->
       kept rm (if i =? 0 then handles W else HIter i {| i_query := Some q; i_source := o; i_timed := v_timed v |} :: handles W) H').
    { intros i H' (it & Hm). apply made_iterator in Hm as [(-> & HP')|(Hz & C & HC & HP')].
      - exists W. split; [reflexivity|]. destruct HI as [I1 I2 I3]. constructor; auto. rewrite HP'. exact I3.
      - rewrite (proj2 (N.eqb_neq i 0) Hz).
        apply (kept_add {| it_handle := HIter i {| i_query := Some q; i_source := o; i_timed := v_timed v |}; it_flag := negb (q_bailiwick d =? 0); it_cells := C |}); [constructor; exact HC| |exact HP'].
        split; simpl.
        + intros s ->. destruct Hy as (_ & _ & x & Hx & Ex). exists x. auto.
        + intros q0 [= <-]. exists w, v. split; [right; rewrite E; apply in_or_app; right; left; reflexivity|]. split; [exact Ew|]. split; [auto|]. rewrite Eb. intro Hb. unfold good_bailiwick. rewrite Hb. reflexivity. }
    unfold reader_query. destruct o as [s|].
    - destruct Hy as (EC & Hs' & _). rewrite EC in Hin. go. eapply tri_bind; [apply (query_iter_ok fl q s d fuel H Hru Hs')|]. intros i H' Hm. fin. apply Hdone. exact Hm.
    - destruct Hy as (f & s & l & Hz & EC). rewrite EC in Hin. go. rewrite (proj2 (N.eqb_neq f 0) Hz). eapply tri_bind; [apply (query_iter_fileset_ok fl q f s l d fuel H Hru)|].
      + apply Hin. right. left. reflexivity.
      + intro Hs'. apply Hst. destruct Hv as [_ _ _ _ -> -> ->]. exact Hs'.
      + intros i H' Hm. fin. apply Hdone. exact Hm.
  Qed.

  (** Iterators. *)
  Lemma iter_at i v : find_iter i (handles W) = Some v -> exists W1 w W2, W = W1 ++ w :: W2 /\ it_handle w = HIter i v /\ drop (is_iter i) (handles W) = handles (W1 ++ W2) /\
    inv rm (W1 ++ w :: W2) H /\ Permutation H (it_cells w ++ blocks (W1 ++ W2)) /\
    ((exists q o tm, v = {| i_query := Some q; i_source := o; i_timed := tm |} /\ iterator {| f_rm := rm; f_tm := tm; f_bw := it_flag w |} (source_cells o) q i (it_cells w)) \/
     (exists s, v = {| i_query := None; i_source := Some s; i_timed := false |} /\ whole s i (it_cells w))).
  Proof.
    intro Hf. destruct (find_iter_split i W v Hf) as (W1 & w & W2 & E & Ew & Hd). pose proof HI as HI'. rewrite E in HI'. destruct (inv_at _ _ _ _ _ HI') as [Hh _]. rewrite Ew in Hh.
    exists W1, w, W2. repeat (split; [solve [auto]|]). split; [apply (inv_focus _ _ _ _ _ HI')|]. inversion Hh; subst; [left|right]; eauto 6.
  Qed.
  Lemma make_iter_get_count i : allowed (handles W) (IterGetCount i) = true -> goal (IterGetCount i).
  Proof.
    simpl. destruct (find_iter i (handles W)) as [v|] eqn:Ef; [intros _|discriminate]. destruct (iter_at i v Ef) as (W1 & w & W2 & E & Ew & Hd & HI' & HP & Hv). pose proof (reader_in _ _ _ E) as Hin.
    destruct Hv as [(q & o & tm & -> & HC)|(s & -> & HC)].
    - eapply tri_bind; [apply (iterator_get_count_ok _ _ _ _ _ H HC Hin)|]. intros u H' ->. fin. apply kept_same.
    - eapply tri_bind; [apply (whole_get_count_ok _ _ _ _ H HC Hin)|]. intros u H' ->. fin. apply kept_same.
  Qed.
  Lemma make_iter_destroy i : allowed (handles W) (IterDestroy i) = true -> goal (IterDestroy i).
  Proof.
    simpl. destruct (find_iter i (handles W)) as [v|] eqn:Ef; [intros _|discriminate]. destruct (iter_at i v Ef) as (W1 & w & W2 & E & Ew & Hd & HI' & HP & Hv). rewrite Hd.
    assert (Hfin : forall H', Permutation H' (blocks (W1 ++ W2)) -> kept rm (handles (W1 ++ W2)) H').
    { intros H' HP'. exists (W1 ++ W2). split; [reflexivity|]. eapply inv_drop; [exact HI'|exact HP'| |]; rewrite Ew; discriminate. }
    destruct Hv as [(q & o & tm & -> & HC)|(s & -> & HC)].
    - destruct (iterator_usable rm W H i q o tm (it_flag w) w HI) with (W1 := W1) (W2 := W2) as (d & HU & HS); auto; [rewrite E; apply in_or_app; right; left; reflexivity|].
      eapply tri_bind; [apply (iterator_destroy_ok _ _ _ _ _ _ _ fuel HS HC HP)|]. intros u H' HP'. fin. apply Hfin. exact HP'.
    - pose proof (whole_usable _ _ _ _ _ _ _ HI' Ew) as HS. eapply tri_bind; [apply (whole_destroy_ok _ _ _ _ _ _ fuel HS HC HP)|]. intros u H' HP'. fin. apply Hfin. exact HP'.
  Qed.
  Lemma make_iter_next i : allowed (handles W) (IterNext i) = true -> goal (IterNext i).
  Proof.
    simpl. destruct (find_iter i (handles W)) as [v|] eqn:Ef; [intros _|discriminate]. destruct (iter_at i v Ef) as (W1 & w & W2 & E & Ew & Hd & HI' & HP & Hv).
    assert (Hfin : forall rep : list cell -> Prop, (forall C, rep C -> held rm (HIter i v) (it_flag w) C) -> forall r H', nexted (blocks (W1 ++ W2)) rep r H' ->
      tri rm H' (let '(r, e) := r in match r with Got => let! k := entry_known e in ret (HEntry e k :: handles W) | _ => ret (handles W) end) (kept rm)).
    { intros rep Hrep [r e] H' (C & HC & Hr).
      assert (Hw : forall H2, Permutation H2 (C ++ blocks (W1 ++ W2)) -> inv rm (W1 ++ {| it_handle := HIter i v; it_flag := it_flag w; it_cells := C |} :: W2) H2).
      { intros H2 HP2. eapply inv_change; [exact HI'|simpl; apply Hrep, HC|exact HP2| | |].
        - destruct (inv_at _ _ _ _ _ HI') as [_ HL]. unfold linked in *. rewrite Ew in HL. exact HL.
        - rewrite Ew. discriminate.
        - rewrite Ew. discriminate. }
      assert (Eh : handles W = handles (W1 ++ {| it_handle := HIter i v; it_flag := it_flag w; it_cells := C |} :: W2)) by (rewrite E; apply handles_same; simpl; auto).
      destruct Hr as [(Hg & Hz & k & Ce & He & HP')|(Hg & HP')]; simpl in Hg.
      - subst r. eapply tri_bind; [apply (entry_known_ok _ e k Ce H' He); intros x Hx; rewrite HP'; mem|]. intros b H2 [-> ->]. fin. rewrite Eh.
        exists ({| it_handle := HEntry e match k with EUnknown => false | _ => true end; it_flag := false; it_cells := Ce |} :: W1 ++ {| it_handle := HIter i v; it_flag := it_flag w; it_cells := C |} :: W2).
        split; [reflexivity|]. eapply inv_add; [apply Hw; reflexivity|simpl; constructor; exact He|exact I|exact HP'].
      - destruct r; [congruence| |]; fin; rewrite Eh; eexists; (split; [reflexivity|]); apply Hw; exact HP'. }
    destruct Hv as [(q & o & tm & -> & HC)|(s & -> & HC)].
    - destruct (iterator_usable rm W H i q o tm (it_flag w) w HI) with (W1 := W1) (W2 := W2) as (d & HU & HS); auto; [rewrite E; apply in_or_app; right; left; reflexivity|].
      eapply tri_bind; [apply (iterator_next_ok _ _ _ d _ _ _ _ fuel HU HS HC HP)|]. intros r H' Hn. apply (Hfin _) in Hn; [exact Hn|]. intros C' HC'. constructor. exact HC'.
    - pose proof (whole_usable _ _ _ _ _ _ _ HI' Ew) as HS. eapply tri_bind; [apply (whole_next_ok _ _ _ _ _ _ fuel HS HC HP)|]. intros r H' Hn. apply (Hfin _) in Hn; [exact Hn|].
      intros C' HC'. destruct (inv_at _ _ _ _ _ HI') as [Hh _]. rewrite Ew in Hh. inversion Hh; subst. constructor. exact HC'.
  Qed.

  (** Entries, formatters and strings. *)
  Lemma make_entry_read e : allowed (handles W) (EntryRead e) = true -> goal (EntryRead e).
  Proof.
    simpl. destruct (find_entry e (handles W)) as [x|] eqn:Ef; [intros _|discriminate]. destruct (entry_at e x Ef) as (W1 & w & W2 & k & E & Ew & He & _ & HP & _ & _).
    eapply tri_bind; [apply (entry_read_ok _ e k _ H He); apply (reader_in _ _ _ E)|]. intros u H' ->. fin. apply kept_same.
  Qed.
  Lemma make_entry_destroy e : allowed (handles W) (EntryDestroy e) = true -> goal (EntryDestroy e).
  Proof.
    simpl. destruct (find_entry e (handles W)) as [x|] eqn:Ef; [intros _|discriminate]. destruct (entry_at e x Ef) as (W1 & w & W2 & k & E & Ew & He & _ & HP & Hd & HI').
    eapply tri_bind; [apply (entry_destroy_ok _ e k _ H _ He HP)|]. intros u H' HP'. fin. rewrite Hd. exists (W1 ++ W2). split; [reflexivity|]. eapply inv_drop; [exact HI'|exact HP'| |]; rewrite Ew; discriminate.
  Qed.
  Lemma format_ok e json raw : find_entry e (handles W) = Some true ->
    tri rm H (let! s := entry_format json raw e in ret (if s =? 0 then handles W else HString s :: handles W)) (kept rm).
  Proof.
    intro Ef. destruct (entry_at e _ Ef) as (W1 & w & W2 & k & E & Ew & He & Ek & HP & Hd & HI').
    eapply tri_bind; [apply (entry_format_ok _ json raw e k _ H _ ltac:(intro; subst k; discriminate) He HP)|]. intros s H' (C & HC & HP'). fin.
    set (w' := {| it_handle := HEntry e true; it_flag := false; it_cells := C |}).
    assert (Hw : forall H2, Permutation H2 (C ++ blocks (W1 ++ W2)) -> inv rm (W1 ++ w' :: W2) H2).
    { intros H2 HP2. eapply inv_change; [exact HI'|simpl; rewrite Ek; constructor; exact HC|exact HP2|exact I| |]; rewrite Ew; discriminate. }
    assert (Eh : handles W = handles (W1 ++ w' :: W2)) by (rewrite E; apply handles_same; simpl; auto). rewrite Eh. unfold blk in HP'.
    destruct (s =? 0) eqn:Es.
    - eexists. split; [reflexivity|]. apply Hw. exact HP'.
    - exists ({| it_handle := HString s; it_flag := false; it_cells := [(s, OBytes)] |} :: W1 ++ w' :: W2). split; [reflexivity|].
      eapply inv_add; [apply Hw; reflexivity|simpl; constructor|exact I|exact HP'].
  Qed.
  Lemma formatter_in f : existsb (is_formatter f) (handles W) = true -> exists W1 w W2, W = W1 ++ w :: W2 /\ it_handle w = HFormatter f /\ it_cells w = [(f, OFormatter)] /\ inv rm (W1 ++ w :: W2) H /\
    drop (is_formatter f) (handles W) = handles (W1 ++ W2).
  Proof.
    intro Ha. destruct (existsb_split _ _ Ha) as (W1 & w & W2 & E & Hf & Hd). exists W1, w, W2. pose proof HI as HI'. rewrite E in HI'.
    destruct (it_handle w) as [ | | | | | |p] eqn:Ew; try discriminate. simpl in Hf. apply N.eqb_eq in Hf. subst p.
    destruct (inv_at _ _ _ _ _ HI') as [Hh _]. rewrite Ew in Hh. inversion Hh. auto.
  Qed.
  Lemma make_entry_to_text e : allowed (handles W) (EntryToText e) = true -> goal (EntryToText e).
  Proof. simpl. destruct (find_entry e (handles W)) as [[|]|] eqn:Ef; try discriminate. intros _. apply format_ok. exact Ef. Qed.
  Lemma make_entry_to_json e : allowed (handles W) (EntryToJson e) = true -> goal (EntryToJson e).
  Proof. simpl. destruct (find_entry e (handles W)) as [[|]|] eqn:Ef; try discriminate. intros _. apply format_ok. exact Ef. Qed.
  Lemma make_entry_format f e json raw : allowed (handles W) (EntryFormat f e json raw) = true -> goal (EntryFormat f e json raw).
  Proof.
    simpl. intro Ha. apply andb_true_iff in Ha as [Hf Ha]. destruct (find_entry e (handles W)) as [[|]|] eqn:Ef; try discriminate.
    destruct (formatter_in f Hf) as (W1 & w & W2 & E & _ & EC & _). pose proof (reader_in _ _ _ E) as Hin. rewrite EC in Hin. go. apply format_ok. exact Ef.
  Qed.
  Lemma make_formatter_init : goal FormatterInit.
  Proof. unfold make. go. fin. apply (kept_add {| it_handle := HFormatter p; it_flag := false; it_cells := [(p, OFormatter)] |}); [constructor|exact I|reflexivity]. Qed.
  Lemma make_formatter_set f : allowed (handles W) (FormatterSet f) = true -> goal (FormatterSet f).
  Proof.
    intro Hf. destruct (formatter_in f Hf) as (W1 & w & W2 & E & _ & EC & _). pose proof (reader_in _ _ _ E) as Hin. rewrite EC in Hin. unfold make. go. fin. apply kept_same.
  Qed.
  Lemma make_formatter_destroy f : allowed (handles W) (FormatterDestroy f) = true -> goal (FormatterDestroy f).
  Proof.
    intro Hf. destruct (formatter_in f Hf) as (W1 & w & W2 & E & Ew & EC & HI' & Hd). pose proof (inv_focus _ _ _ _ _ HI') as HP. rewrite EC in HP. unfold make. rewrite Hd. start HP. simpl app. go. fin.
    exists (W1 ++ W2). split; [reflexivity|]. eapply inv_drop; [exact HI'|reflexivity| |]; rewrite Ew; discriminate.
  Qed.
  Lemma make_string_free s : allowed (handles W) (StringFree s) = true -> goal (StringFree s).
  Proof.
    intro Ha. simpl in Ha. destruct (existsb_split _ _ Ha) as (W1 & w & W2 & E & Hf & Hd). pose proof HI as HI'. rewrite E in HI'.
    destruct (it_handle w) as [ | | | | |p| ] eqn:Ew; try discriminate. simpl in Hf. apply N.eqb_eq in Hf. subst p.
    destruct (inv_at _ _ _ _ _ HI') as [Hh _]. rewrite Ew in Hh. pose proof (inv_focus _ _ _ _ _ HI') as HP. assert (EC : it_cells w = [(s, OBytes)]) by (inversion Hh; auto). rewrite EC in HP.
    unfold make. rewrite Hd. start HP. simpl app. go. fin. exists (W1 ++ W2). split; [reflexivity|]. eapply inv_drop; [exact HI'|reflexivity| |]; rewrite Ew; discriminate.
  Qed.

  Lemma make_ok a : allowed (handles W) a = true -> (strict (handles W) a = true -> rm = true) -> goal a.
  Proof.
    intros Ha Hs. destruct a.
    - apply make_source_open.
    - apply make_source_close; exact Ha.
    - apply make_reader_init; exact Ha.
    - apply make_reader_init_setfile.
    - apply make_reader_reload; exact Ha.
    - apply make_reader_destroy; exact Ha.
    - apply make_query_init.
    - apply make_query_set_data; exact Ha.
    - apply make_query_set_rrtype; exact Ha.
    - apply make_query_set_bailiwick; exact Ha.
    - apply make_query_set_timeout; exact Ha.
    - apply make_query_set_deadline; exact Ha.
    - apply make_query_set_aggregated; exact Ha.
    - apply make_query_set_parameter; exact Ha.
    - apply make_query_set_case; exact Ha.
    - apply make_query_get_error; exact Ha.
    - apply make_query_filter; exact Ha.
    - apply make_query_destroy; exact Ha.
    - apply make_reader_iter; exact Ha.
    - apply make_reader_query; [exact Ha|exact Hs].
    - apply make_iter_next; exact Ha.
    - apply make_iter_get_count; exact Ha.
    - apply make_iter_destroy; exact Ha.
    - apply make_entry_read; exact Ha.
    - apply make_entry_to_text; exact Ha.
    - apply make_entry_to_json; exact Ha.
    - apply make_entry_format; exact Ha.
    - apply make_entry_destroy; exact Ha.
    - apply make_formatter_init.
    - apply make_formatter_set; exact Ha.
    - apply make_formatter_destroy; exact Ha.
    - apply make_string_free; exact Ha.
  Qed.
End Calls.

(** ** Histories *)

Lemma make_all_ok fuel l : forall rm W H m, inv rm W H -> holds rm H m -> follows fuel (handles W) m l -> (rm = false -> never_strict fuel (handles W) m l) ->
  match make_all fuel (handles W) l m with
  | Ok (c, m') => exists H', kept rm c H' /\ holds rm H' m'
  | Hang => True
  | _ => False
  end.
Proof.
  induction l as [|a l IH]; intros rm W H m HI Hm Hf Hn; simpl.
  - exists H. split; [exists W; auto|exact Hm].
  - destruct Hf as [Ha Hf]. unfold mbind.
    assert (Hs : strict (handles W) a = true -> rm = true) by (intro Hs; destruct rm; [reflexivity|]; destruct (Hn eq_refl) as [Hn' _]; congruence).
    pose proof (make_ok rm fuel W H HI a Ha Hs m Hm) as Hstep. destruct (make fuel (handles W) a m) as [[c' m']| | | |] eqn:E; try exact Hstep.
    destruct Hstep as (H' & (W' & -> & HI') & Hm'). apply (IH rm W' H' m' HI' Hm'); [apply Hf; reflexivity|]. intro Hr. destruct (Hn Hr) as [_ Hn']. apply Hn'. exact E.
Qed.
