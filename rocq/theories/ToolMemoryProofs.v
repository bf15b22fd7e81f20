(** * The programs as clients: proofs *)
From Coq Require Import Permutation.
From Verif Require Import Base ModelMemory SpecMemory HeapLogic MemoryBasics MemoryNext MemoryProofs EndsLogic MemoryEnds ModelToolMemory.
From Verif Require ModelLookup ModelQuery.

(** The client holds [c] in [m], and everything is in order. *)
Definition ready (rm : bool) (c : client) (m : memory) : Prop := good m /\ files m c /\ exists H, kept rm c H /\ holds rm H m.

(** With enough fuel there is a result, the same one whatever the fuel. *)
Definition runs {A} (m : memory) (p : nat -> M A) (Q : A -> memory -> Prop) : Prop :=
  exists n0 a m', (forall n, (n0 <= n)%nat -> p n m = Ok (a, m')) /\ (ch m' <= ch m)%nat /\ Q a m'.

Lemma runs_ret {A} m (a : A) (Q : A -> memory -> Prop) : Q a m -> runs m (fun _ => ret a) Q.
Proof. intro HQ. exists O, a, m. split; [reflexivity|]. split; [lia|exact HQ]. Qed.
Lemma runs_bind {A B} m (p : nat -> M A) (k : nat -> A -> M B) (P : A -> memory -> Prop) (Q : B -> memory -> Prop) : runs m p P ->
  (forall a m', (ch m' <= ch m)%nat -> P a m' -> runs m' (fun n => k n a) Q) -> runs m (fun n => mbind (p n) (k n)) Q.
Proof.
  intros (n1 & a & m1 & H1 & C1 & HP) Hk. destruct (Hk a m1 C1 HP) as (n2 & b & m2 & H2 & C2 & HQ). exists (Nat.max n1 n2), b, m2.
  split; [|split; [lia|exact HQ]]. intros n Hn. unfold mbind. rewrite H1 by lia. apply H2. lia.
Qed.
Lemma runs_assoc {A B C} m (p : nat -> M A) (f : nat -> A -> M B) (k : nat -> B -> M C) (Q : C -> memory -> Prop) :
  runs m (fun n => mbind (p n) (fun a => mbind (f n a) (k n))) Q -> runs m (fun n => mbind (mbind (p n) (f n)) (k n)) Q.
Proof.
  intros (n0 & a & m' & H & HC). exists n0, a, m'. split; [|exact HC]. intros n Hn. rewrite <- (H n Hn). unfold mbind. destruct (p n m) as [[x m1]| | | |]; reflexivity.
Qed.
Lemma runs_tail {A} m (p : nat -> M A) (Q : A -> memory -> Prop) : runs m (fun n => mbind (p n) ret) Q -> runs m p Q.
Proof.
  intros (n0 & a & m' & H & HC). exists n0, a, m'. split; [|exact HC]. intros n Hn. specialize (H n Hn). unfold mbind, ret in H.
  destruct (p n m) as [[x m1]| | | |]; exact H.
Qed.
(** A loop that is counted down from the fuel goes round once more. *)
Lemma runs_more {A} m (f : nat -> nat -> M A) (g : nat -> nat -> M A) k (Q : A -> memory -> Prop) : (forall r n, f (S r) n = g r n) ->
  runs m (fun n => g (n - S k)%nat n) Q -> runs m (fun n => f (n - k)%nat n) Q.
Proof.
  intros E (n0 & a & m' & H & HC). exists (Nat.max n0 (S k)), a, m'. split; [|exact HC]. intros n Hn. replace (n - k)%nat with (S (n - S k)) by lia. rewrite E. apply H. lia.
Qed.
Lemma runs_all {A} m (f : nat -> nat -> M A) (Q : A -> memory -> Prop) : runs m (fun n => f (n - 0)%nat n) Q -> runs m (fun n => f n n) Q.
Proof. intros (n0 & a & m' & H & HC). exists n0, a, m'. split; [|exact HC]. intros n Hn. rewrite <- (H n Hn). rewrite Nat.sub_0_r. reflexivity. Qed.
Lemma runs_post {A} m (p : nat -> M A) (P Q : A -> memory -> Prop) : runs m p P -> (forall a m', (ch m' <= ch m)%nat -> P a m' -> Q a m') -> runs m p Q.
Proof. intros (n0 & a & m' & H & HC & HP) HQ. exists n0, a, m'. split; [exact H|]. split; [exact HC|]. apply HQ; assumption. Qed.

Lemma ready_pick rm c m x r : choices m = x :: r -> ready rm c m -> ready rm c {| next := next m; cells := cells m; choices := r |}.
Proof.
  intros Ec (HG & HF & H & HK & HW & L & HL & HP). set (m' := {| next := next m; cells := cells m; choices := r |}).
  assert (E1 : E None m (fun _ => let! x := pick in ret x) (fun _ m2 => files m2 c)).
  { eapply E_pick; [exact HG|]. intros y m2 HG2 HR _ _. apply E_ret; [exact HG2|]. eapply files_mono; eassumption. }
  destruct E1 as (n0 & res & H1 & H2). specialize (H1 n0 (le_n _)). unfold mbind, pick, ret in H1. rewrite Ec in H1. subst res. destruct H2 as (G1 & _ & G3).
  split; [exact G1|]. split; [exact G3|]. exists H. split; [exact HK|]. split; [exact HW|]. exists L. split; [exact HL|exact HP].
Qed.
Lemma runs_choose {A} rm c m (k : nat -> bool -> M A) (Q : A -> memory -> Prop) : ready rm c m ->
  (forall b m', ready rm c m' -> (ch m' <= ch m)%nat -> (b = true -> (ch m' < ch m)%nat) -> runs m' (fun n => k n b) Q) ->
  runs m (fun n => mbind choose (k n)) Q.
Proof.
  intros HR Hk. destruct (choices m) as [|x r] eqn:Ec.
  - destruct (Hk false m HR (le_n _) ltac:(discriminate)) as (n0 & a & m' & H & HC). exists n0, a, m'. split; [|exact HC]. intros n Hn.
    unfold mbind, choose, mbind, pick. rewrite Ec. simpl. apply H, Hn.
  - pose proof (ready_pick rm c m x r Ec HR) as HR'. set (m1 := {| next := next m; cells := cells m; choices := r |}) in *.
    assert (Hlt : (ch m1 < ch m)%nat) by (unfold ch; simpl; rewrite Ec; simpl; lia).
    destruct (Hk (negb (x =? 0)) m1 HR' ltac:(lia) (fun _ => Hlt)) as (n0 & a & m' & H & HC & HQ). exists n0, a, m'. split; [|split; [lia|exact HQ]]. intros n Hn.
    unfold mbind, choose, mbind, pick. rewrite Ec. simpl. apply H, Hn.
Qed.

(** What the client holds after a call. *)
Definition after (c : client) (a : call) (c' : client) : Prop :=
  match a with
  | SourceOpen => exists s, c' = HSource s :: c
  | SourceClose s => c' = drop (is_source s) c
  | ReaderInit s => exists r, c' = HReader r (Some s) :: c
  | ReaderInitSetfile => exists r, c' = HReader r None :: c
  | ReaderDestroy r => c' = drop (is_reader r) c
  | QueryInit k => exists q, c' = HQuery q (new_view k) :: c
  | QuerySetData q null => exists ok, c' = know q (knows_data ok) c
  | QuerySetDeadline q null => c' = know q (knows_deadline (negb null)) c
  | QuerySetAggregated q x => c' = know q (knows_aggregated x) c
  | QuerySetParameter q b null => c' = know q (knows_bound b (negb null)) c
  | QueryDestroy q => c' = drop (is_query q) c
  | ReaderIter r => exists i v, c' = HIter i v :: c /\ i_query v = None
  | ReaderQuery r q => c' = c \/ exists i v, c' = HIter i v :: c /\ i_query v = Some q
  | IterNext i => c' = c \/ exists e k, c' = HEntry e k :: c
  | IterDestroy i => c' = drop (is_iter i) c
  | EntryToText e | EntryToJson e | EntryFormat _ e _ _ => c' = c \/ exists s, c' = HString s :: c
  | EntryDestroy e => c' = drop (is_entry e) c
  | FormatterInit => exists f, c' = HFormatter f :: c
  | FormatterDestroy f => c' = drop (is_formatter f) c
  | StringFree s => c' = drop (is_string s) c
  | QuerySetTimeout q null => c' = know q (knows_timeout (negb null)) c
  | _ => c' = c
  end.
Lemma make_after fuel c a m c' m' : allowed c a = true -> make fuel c a m = Ok (c', m') -> after c a c'.
Proof.
  intros Ha. destruct a; simpl; unfold mbind, ret;
  try (match goal with |- match ?x with _ => _ end = _ -> _ => destruct x as [[? ?]| | | |]; try discriminate end; intros [= <- <-]; eauto; fail).
  - simpl in Ha. destruct (find_reader r c) as [[s|]|]; try discriminate. destruct (reader_iter fuel r m) as [[i m1]| | | |]; try discriminate. intros [= <- _]. eauto.
  - simpl in Ha. apply andb_true_iff in Ha as [H1 H2]. destruct (find_reader r c); [|discriminate]. destruct (find_query q c); [|discriminate].
    destruct (reader_query fuel r q m) as [[i m1]| | | |]; try discriminate. intros [= <- _]. destruct (i =? 0); eauto.
  - destruct (iterator_next fuel i m) as [[[r e] m1]| | | |]; try discriminate. destruct r; try (intros [= <- _]; eauto; fail).
    destruct (entry_known e m1) as [[k m2]| | | |]; try discriminate. intros [= <- _]. eauto.
  - destruct (entry_format false false e m) as [[s m1]| | | |]; try discriminate. intros [= <- _]. destruct (s =? 0); eauto.
  - destruct (entry_format true false e m) as [[s m1]| | | |]; try discriminate. intros [= <- _]. destruct (s =? 0); eauto.
  - destruct (as_formatter f m) as [[u m0]| | | |]; try discriminate. destruct (entry_format json raw e m0) as [[s m1]| | | |]; try discriminate. intros [= <- _]. destruct (s =? 0); eauto.
Qed.

(** A call that is allowed. *)
Lemma runs_make rm c a m : ready rm c m -> allowed c a = true -> (strict c a = true -> rm = true) ->
  runs m (fun n => make n c a) (fun c' m' => ready rm c' m' /\ after c a c' /\ (match a with IterNext _ => c' <> c -> (ch m' < ch m)%nat | _ => True end)).
Proof.
  intros (HG & HF & H & (W & -> & HI) & HH) Ha Hs.
  assert (HE : E None m (fun n => make n (handles W) a) (fun c' m' => files m' c' /\ match a with IterNext _ => c' <> handles W -> (ch m' < ch m)%nat | _ => True end)).
  { destruct a; try (eapply E_post; [apply make_e; assumption|]; intros; split; [assumption|exact I]).
    simpl. ecall iterator_next_e. fl. destruct a as [[] e]; try (eret; split; [assumption|congruence]). ecall entry_known_e. fl. eret. split; [eauto with ends|]. intros _. specialize (HQ eq_refl). lia. }
  destruct HE as (n0 & res & H1 & H2). pose proof (make_ok rm n0 W H HI a Ha Hs m HH) as H3. rewrite (H1 n0 (le_n _)) in H3.
  destruct res as [[c' m']| | | |]; try contradiction. destruct H2 as (G1 & G2 & G3 & G4). destruct H3 as (H' & HK & HH'). exists n0, c', m'. split; [exact H1|]. split; [apply (R_ch _ _ _ G2)|].
  split; [split; [exact G1|split; [exact G3|eauto]]|]. split; [|exact G4]. eapply make_after; [exact Ha|apply (H1 n0 (le_n _))].
Qed.
Lemma ready_iter rm i v c m : ready rm (HIter i v :: c) m -> i =? 0 = false.
Proof.
  intros (_ & _ & H & (W & EW & HI) & (_ & _ & HW) & L & _ & HP). destruct W as [|w W]; [discriminate|]. simpl in EW. injection EW as Ew _.
  pose proof (inv_held _ _ _ HI w (or_introl eq_refl)) as Hh. rewrite <- Ew in Hh. pose proof (inv_in _ _ _ w HI (or_introl eq_refl)) as Hin.
  assert (Hc : exists o, In (i, o) (it_cells w)).
  { inversion Hh; subst; match goal with H : iterator _ _ _ _ _ |- _ => destruct H | H : whole _ _ _ |- _ => destruct H end; eexists; left; reflexivity. }
  destruct Hc as (o & Ho). rewrite Forall_forall in HW. assert (Hx : In (i, o) (cells m)) by (rewrite HP; apply in_or_app; left; apply Hin, Ho). apply HW in Hx. simpl in Hx. lia.
Qed.
Lemma ready_start rm choices : ready rm [] (start choices).
Proof.
  split; [apply good_start|]. split; [intros s []|]. exists []. split; [exists []; split; [reflexivity|constructor; simpl; [intros w []|intros w []|reflexivity]]|].
  split; [split; [simpl; lia|split; constructor]|]. exists []. split; [split; [constructor|auto]|reflexivity].
Qed.
Lemma ready_end rm m : ready rm [] m -> Forall (fun c => snd c = OBytes) (cells m) /\ (rm = false -> cells m = []).
Proof.
  intros (_ & _ & H & (W & EW & [_ _ HB]) & _ & L & [HL HN] & HP). destruct W; [|discriminate]. simpl in HB. apply Permutation_sym, Permutation_nil in HB. subst H. simpl in HP. split.
  - apply Forall_forall. intros c Hc. rewrite HP in Hc. unfold bytes in HL. rewrite Forall_forall in HL. exact (HL c Hc).
  - intro E. rewrite (HN E) in HP. apply Permutation_nil. symmetry. exact HP.
Qed.

(** ** Steps *)

Ltac eqbs := repeat rewrite ?N.eqb_refl, ?andb_true_r, ?orb_true_r, ?orb_false_r.
Ltac allow := cbv beta iota delta [allowed existsb nobody negb find_reader find_query find_iter find_entry is_some is_source is_reader is_query is_iter is_entry is_string is_formatter
  reader_of iter_of_source iter_of_query timed_iter_of_query andb orb]; eqbs; try reflexivity.
Ltac mk :=
  lazymatch goal with
  | HR : ready ?rm ?c ?m |- runs ?m (fun n => mbind (make n ?c ?a) _) _ =>
      let c' := fresh "c" in let m' := fresh "m" in let HC := fresh "HC" in let HR' := fresh "HR" in let HA := fresh "HA" in let HP := fresh "HP" in
      eapply runs_bind; [apply (runs_make rm c a m HR)|intros c' m' HC (HR' & HA & HP); cbv beta; clear HR; cbn [after] in HA]
  | |- runs _ (fun n => make n _ _) _ => apply runs_tail; mk
  end.
Ltac strictly := let Hs := fresh "Hs" in intro Hs; cbn [strict] in Hs; discriminate Hs.
Ltac settle := subst; cbn [drop know is_source is_reader is_query is_iter is_entry is_string is_formatter] in *; rewrite ?N.eqb_refl in *.
Ltac mk1 := mk; [solve [allow]|solve [strictly]|].

(** ** dnstable_dump *)

Section Dump.
  Variables (rm : bool) (o : dump_opts) (f i s r : N) (iv : iter_view).
  Local Notation base := [HFormatter f; HIter i iv; HReader r (Some s); HSource s].

  Lemma dump_entry_runs e k m : ready rm (HEntry e k :: base) m ->
    runs m (fun n => dump_entry n o f e k (HEntry e k :: base)) (fun c' m' => c' = HEntry e k :: base /\ ready rm c' m').
  Proof.
    intro HR. unfold dump_entry. mk1. settle. destruct k; [|apply runs_ret; auto].
    destruct (ModelLookup.d_json o); mk1; (destruct HA as [->|(s1 & ->)]; cbn match; [apply runs_ret; auto|]; mk1; settle; apply runs_ret; auto).
  Qed.
  Lemma dump_loop_runs : forall C m k, (ch m <= C)%nat -> ready rm base m ->
    runs m (fun n => dump_loop (n - k) n o f i base) (fun c' m' => c' = base /\ ready rm c' m').
  Proof.
    induction C as [C IH] using (well_founded_induction lt_wf). intros m k HC HR. eapply (runs_more m (fun r n => dump_loop r n o f i base)); [reflexivity|]. cbn [dump_loop].
    mk1. destruct HA as [->|(e & kn & ->)]; cbn match; [apply runs_ret; auto|]. assert (Hlt : (ch m0 < ch m)%nat) by (apply HP; discriminate).
    eapply runs_bind; [apply dump_entry_runs; assumption|]. intros c' m2 HC2 (-> & HR2). cbv beta. mk1. settle.
    eapply (IH (ch _)); [|reflexivity|eassumption]. lia.
  Qed.
End Dump.

Ltac last := cbn [last_source last_reader last_query last_iter last_formatter]; match goal with |- runs _ (fun n => mbind (ret ?x) ?k) _ => change (runs _ (fun n => k x) _) | |- runs ?m (fun n => mbind (ret ?x) (fun y => @?k n y)) ?Q => change (runs m (fun n => k n x) Q); cbv beta end.
Ltac pk := lazymatch goal with HR : ready ?rm ?c ?m |- runs ?m (fun n => mbind choose _) _ =>
  let b := fresh "b" in let m' := fresh "m" in let HR' := fresh "HR" in let HC := fresh "HC" in let HT := fresh "HT" in
  eapply (runs_choose rm c m); [exact HR|]; intros b m' HR' HC HT; cbv beta; clear HR end.

Lemma dump_runs rm o choices : runs (start choices) (fun n => dump_main n o) (fun r m' => match r with
  | (Success, c) => c = [] /\ ready rm [] m' /\ chosen o = true
  | (Failure, c) => c = [] /\ ready rm [] m'
  | (Aborted, _) => chosen o = false
  | (Unasked, _) => False
  end).
Proof.
  unfold dump_main. pose proof (ready_start rm choices) as HR. destruct (_ && _); [apply runs_ret; auto|]. pk. destruct b; cbn [negb]; [|apply runs_ret; auto].
  mk1. destruct HA as (s & ->). last. mk1. destruct HA as (r & ->). last. destruct (chosen o) eqn:Eo.
  - mk1. destruct HA as (i & v & -> & Hv). last. pose proof (ready_iter _ _ _ _ _ ltac:(eassumption)) as Hi. mk1. destruct HA as (f & ->). last.
    do 3 (mk1; settle). rewrite Hi. eapply runs_bind; [apply (runs_all _ (fun k n => dump_loop k n o f i _)); eapply dump_loop_runs; [reflexivity|eassumption]|].
    intros c' m' HC' (-> & HR'). cbv beta. do 4 (mk1; settle). apply runs_ret. auto.
  - do 2 last. mk1. destruct HA as (f & ->). last. do 3 (mk1; settle). apply runs_ret. reflexivity.
Qed.

(** ** dnstable_lookup *)

Ltac asc := repeat (lazymatch goal with |- runs _ (fun n => mbind (mbind _ _) _) _ => apply runs_assoc; cbv beta end).

(** The reader, and its source if it has one. *)
Definition opened (setfile : bool) (r s : N) : client := if setfile then [HReader r None] else [HReader r (Some s); HSource s].

Section Lookup.
  Variables (rm : bool) (o : opts) (setfile : bool) (r s q : N).
  Local Notation B := (opened setfile r s).
  Definition fit (x : ending) : Prop := match x with Failure => False | _ => True end.

  Lemma lookup_entry_runs i iv v e k m : ready rm (HEntry e k :: HIter i iv :: HQuery q v :: B) m ->
    runs m (fun n => lookup_entry n o e k (HEntry e k :: HIter i iv :: HQuery q v :: B))
      (fun y m' => fit (fst y) /\ (fst y = Success -> snd y = HEntry e k :: HIter i iv :: HQuery q v :: B /\ ready rm (snd y) m')).
  Proof.
    intro HR. unfold lookup_entry. destruct (ModelLookup.o_count o); [apply runs_ret; simpl; auto|]. destruct k; cbn [negb]; [|apply runs_ret; simpl; split; [exact I|discriminate]].
    destruct (_ || _).
    - asc. mk1. destruct HA as (f & ->). asc. last. do 3 (asc; mk1; settle). asc. mk1. destruct HA as [->|(s1 & ->)]; mk1; settle; cbn match.
      + apply runs_ret. split; [exact I|discriminate].
      + do 2 (mk1; settle). apply runs_ret. simpl. auto.
    - mk1. destruct HA as [->|(s1 & ->)]; cbn match.
      + apply runs_ret. split; [exact I|discriminate].
      + do 2 (mk1; settle). apply runs_ret. simpl. auto.
  Qed.
  Lemma lookup_loop_runs i iv v : forall C m k, (ch m <= C)%nat -> ready rm (HIter i iv :: HQuery q v :: B) m ->
    runs m (fun n => lookup_loop (n - k) n o i (HIter i iv :: HQuery q v :: B))
      (fun y m' => fit (fst y) /\ (fst y = Success -> snd y = HIter i iv :: HQuery q v :: B /\ ready rm (snd y) m')).
  Proof.
    induction C as [C IH] using (well_founded_induction lt_wf). intros m k HC HR. eapply (runs_more m (fun r n => lookup_loop r n o i (HIter i iv :: HQuery q v :: B))); [reflexivity|]. cbn [lookup_loop].
    mk1. destruct HA as [->|(e & kn & ->)]; cbn match; [apply runs_ret; simpl; auto|]. assert (Hlt : (ch m0 < ch m)%nat) by (apply HP; discriminate).
    eapply runs_bind; [apply lookup_entry_runs; eassumption|]. intros [x c'] m2 HC2 (Hf & HR2). simpl fst in *. simpl snd in *. destruct x; try (apply runs_ret; split; [exact Hf|discriminate]).
    destruct (HR2 eq_refl) as [-> HR3]. mk1. settle. eapply (IH (ch _)); [|reflexivity|eassumption]. lia.
  Qed.
  Lemma counts_runs i iv v : forall k m, ready rm (HIter i iv :: HQuery q v :: B) m ->
    runs m (fun n => counts k n i (HIter i iv :: HQuery q v :: B)) (fun c' m' => c' = HIter i iv :: HQuery q v :: B /\ ready rm c' m').
  Proof. induction k as [|k IH]; intros m HR; cbn [counts]; [apply runs_ret; auto|]. mk1. settle. apply IH. assumption. Qed.
  Lemma lookup_stats_runs st i iv v m : ready rm (HIter i iv :: HQuery q v :: B) m ->
    runs m (fun n => lookup_stats n st i (HIter i iv :: HQuery q v :: B)) (fun c' m' => c' = HIter i iv :: HQuery q v :: B /\ ready rm c' m').
  Proof. intro HR. unfold lookup_stats. destruct (st =? 0); [apply runs_ret; auto|]. apply counts_runs. exact HR. Qed.

  Lemma lookup_rounds_runs i iv : forall C m k v, (ch m <= C)%nat -> ready rm (HIter i iv :: HQuery q v :: B) m ->
    runs m (fun n => lookup_rounds (n - k) n o q i (HIter i iv :: HQuery q v :: B))
      (fun y m' => fit (fst y) /\ (fst y = Success -> exists v', snd y = HIter i iv :: HQuery q v' :: B /\ ready rm (snd y) m')).
  Proof.
    induction C as [C IH] using (well_founded_induction lt_wf). intros m k v HC HR. eapply (runs_more m (fun r n => lookup_rounds r n o q i (HIter i iv :: HQuery q v :: B))); [reflexivity|]. cbn [lookup_rounds].
    eapply runs_bind; [apply (runs_all _ (fun k n => lookup_loop k n o i _)); eapply lookup_loop_runs; [reflexivity|exact HR]|]. intros [x c'] m2 HC2 (Hf & HR2). simpl fst in *. simpl snd in *.
    destruct x; try (apply runs_ret; split; [exact Hf|discriminate]). destruct (HR2 eq_refl) as [-> HR3]. clear HR.
    eapply runs_bind; [apply lookup_stats_runs; exact HR3|]. intros c' m3 HC3 (-> & HR4). cbv beta. pk. destruct b; cbn [negb]; [|apply runs_ret; simpl; eauto].
    destruct (_ =? 0)%Z; [apply runs_ret; simpl; eauto|]. pk. destruct b; [apply runs_ret; simpl; eauto|]. mk1. settle.
    specialize (HT eq_refl). eapply (IH (ch _)); [|reflexivity|eassumption]. lia.
  Qed.
End Lookup.

Definition same (v v' : query_view) : Prop :=
  v_type v' = v_type v /\ v_aggregated v' = v_aggregated v /\ v_strict_after v' = v_strict_after v /\ v_strict_before v' = v_strict_before v.
Lemma same_refl v : same v v.
Proof. repeat split. Qed.

Lemma lookup_data_runs rm a setfile r s q v m : v_type v = ModelLookup.c_type a -> ready rm (HQuery q v :: opened setfile r s) m ->
  runs m (fun n => lookup_data n a q (HQuery q v :: opened setfile r s))
    (fun y m' => exists v', snd y = HQuery q v' :: opened setfile r s /\ ready rm (snd y) m' /\ same v v' /\
      (fst y = true -> v_data v' || negb (needs_data (v_type v')) = true)).
Proof.
  intros Ht HR. unfold lookup_data. destruct (ModelLookup.c_type a) eqn:Ea.
  all: try (mk1; destruct HA as (ok & ->); settle; unfold accepted; cbn [find_query]; rewrite N.eqb_refl; cbn [v_data knows_data]; destruct ok; cbn [negb]).
  all: try (lazymatch goal with |- runs _ (fun n => if given _ then _ else _) _ => destruct (given (ModelLookup.c_rrtype a)); [mk1; settle; pk|] end).
  all: try (apply runs_ret; eexists; split; [reflexivity|split; [assumption|split; [repeat split|intro Hok; first [discriminate Hok|cbn [v_data v_type knows_data]; rewrite ?Ht, ?orb_true_r; reflexivity]]]]; fail).
  - mk1. settle. pk. destruct b; cbn [negb]; [|apply runs_ret; eexists; split; [reflexivity|split; [assumption|split; [repeat split|discriminate]]]].
    mk; [destruct setfile, (given (ModelLookup.c_bailiwick a)); solve [allow]|strictly|]. settle. pk. apply runs_ret. eexists. split; [reflexivity|split; [assumption|split; [repeat split|reflexivity]]].
  - mk1. settle. apply runs_ret. eexists. split; [reflexivity|split; [assumption|split; [repeat split|discriminate]]].
  - mk1. settle. apply runs_ret. eexists. split; [reflexivity|split; [assumption|split; [repeat split|discriminate]]].
  - mk1. settle. apply runs_ret. eexists. split; [reflexivity|split; [assumption|split; [repeat split|discriminate]]].
  - mk1. destruct HA as (ok & ->). settle. pk. apply runs_ret. eexists. split; [reflexivity|split; [assumption|split; [repeat split|]]]. intros _. cbn [v_data v_type knows_data]. rewrite Ht. apply orb_true_r.
Qed.

Definition bounded (v v' : query_view) (after before : bool) : Prop :=
  v_type v' = v_type v /\ v_data v' = v_data v /\ v_aggregated v' = v_aggregated v /\ v_strict_after v' = after /\ v_strict_before v' = before.
Lemma lookup_bound_runs rm b t setfile r s q v m : ready rm (HQuery q v :: opened setfile r s) m ->
  runs m (fun n => lookup_bound n b t q (HQuery q v :: opened setfile r s))
    (fun c m' => exists v', c = HQuery q v' :: opened setfile r s /\ ready rm c m' /\
      bounded v v' (match b with FirstAfter => v_strict_after v || negb (t =? 0) | _ => v_strict_after v end) (match b with LastBefore => v_strict_before v || negb (t =? 0) | _ => v_strict_before v end)).
Proof.
  intro HR. unfold lookup_bound. destruct (t =? 0); cbn [negb].
  - apply runs_ret. exists v. split; [reflexivity|split; [exact HR|]]. destruct b; rewrite ?orb_false_r; repeat split.
  - mk1. settle. apply runs_ret. eexists. split; [reflexivity|split; [assumption|]]. destruct b; rewrite ?orb_true_r; repeat split.
Qed.
Lemma lookup_bounds_runs rm o a setfile r s q v m : v_strict_after v = false -> v_strict_before v = false -> ready rm (HQuery q v :: opened setfile r s) m ->
  runs m (fun n => lookup_bounds n o a q (HQuery q v :: opened setfile r s))
    (fun c m' => exists v', c = HQuery q v' :: opened setfile r s /\ ready rm c m' /\
      bounded v v' (negb (ModelLookup.metadata a) && negb (ModelLookup.o_tfa (ModelLookup.strict_bounds o) =? 0)) (negb (ModelLookup.metadata a) && negb (ModelLookup.o_tlb (ModelLookup.strict_bounds o) =? 0))).
Proof.
  intros H1 H2 HR. unfold lookup_bounds. destruct (ModelLookup.metadata a); cbn [negb andb]; [apply runs_ret; exists v; split; [reflexivity|split; [exact HR|repeat split; assumption]]|].
  set (o' := ModelLookup.strict_bounds o). eapply runs_bind; [apply lookup_bound_runs; exact HR|]. intros c1 m1 _ (v1 & -> & R1 & T1 & D1 & A1 & F1 & L1).
  cbv beta. eapply runs_bind; [apply lookup_bound_runs; exact R1|]. intros c2 m2 _ (v2 & -> & R2 & T2 & D2 & A2 & F2 & L2).
  cbv beta. eapply runs_bind; [apply lookup_bound_runs; exact R2|]. intros c3 m3 _ (v3 & -> & R3 & T3 & D3 & A3 & F3 & L3).
  cbv beta. eapply runs_post; [apply lookup_bound_runs; exact R3|]. intros c4 m4 _ (v4 & -> & R4 & T4 & D4 & A4 & F4 & L4).
  exists v4. split; [reflexivity|split; [exact R4|]]. unfold bounded. rewrite T4, T3, T2, T1, D4, D3, D2, D1, A4, A3, A2, A1, F4, F3, F2, F1, L4, L3, L2, L1, H1, H2. repeat split.
Qed.
Lemma lookup_limits_runs rm o setfile r s q v m : ready rm (HQuery q v :: opened setfile r s) m ->
  runs m (fun n => lookup_limits n o q (HQuery q v :: opened setfile r s))
    (fun c m' => exists v', c = HQuery q v' :: opened setfile r s /\ ready rm c m' /\ bounded v v' (v_strict_after v) (v_strict_before v)).
Proof.
  intro HR. unfold lookup_limits.
  eapply runs_bind with (P := fun c m' => c = HQuery q v :: opened setfile r s /\ ready rm c m').
  { destruct (_ =? 0)%Z; [apply runs_ret; auto|]. mk1. settle. apply runs_ret. auto. }
  intros c1 m1 _ (-> & R1). cbv beta.
  eapply runs_bind with (P := fun c m' => exists v', c = HQuery q v' :: opened setfile r s /\ ready rm c m' /\ bounded v v' (v_strict_after v) (v_strict_before v)).
  { destruct (_ =? 0)%Z; [apply runs_ret; exists v; split; [reflexivity|split; [exact R1|repeat split]]|]. mk1. settle. apply runs_ret. eexists. split; [reflexivity|split; [assumption|repeat split]]. }
  intros c2 m2 _ (v2 & -> & R2 & T2 & D2 & A2 & F2 & L2). cbv beta. destruct (_ =? 0)%Z; [apply runs_ret; exists v2; split; [reflexivity|split; [exact R2|repeat split; assumption]]|].
  eapply runs_bind with (P := fun _ m' => ready rm (HQuery q v2 :: opened setfile r s) m').
  { destruct (_ =? 0)%Z; [apply runs_ret; exact R2|]. apply runs_tail. pk. apply runs_ret. assumption. }
  intros b m3 _ R3. cbv beta. destruct b; [|apply runs_ret; exists v2; split; [reflexivity|split; [exact R3|repeat split; assumption]]].
  clear R2. mk1. settle. apply runs_ret. eexists. split; [reflexivity|split; [assumption|repeat split; assumption]].
Qed.

(** Does the program run an aggregated query with a strict time bound over a set file? *)
Definition strictly_bounded (o : opts) (a : command) (setfile : bool) : bool :=
  setfile && ModelLookup.o_aggregate o && negb (ModelLookup.metadata a) &&
  (negb (ModelLookup.o_tfa (ModelLookup.strict_bounds o) =? 0) || negb (ModelLookup.o_tlb (ModelLookup.strict_bounds o) =? 0)).

Lemma lookup_runs rm o a setfile choices : (strictly_bounded o a setfile = true -> rm = true) ->
  runs (start choices) (fun n => lookup_main n o a setfile) (fun y m' => fst y = Success -> snd y = [] /\ ready rm [] m').
Proof.
  intro Hs. unfold lookup_main. pose proof (ready_start rm choices) as HR.
  eapply runs_bind with (P := fun _ m' => ready rm [] m').
  { destruct setfile; [apply runs_ret; exact HR|]. destruct (negb _); [apply runs_ret; exact HR|]. apply runs_tail. pk. apply runs_ret. assumption. }
  intros b m1 _ R1. clear HR. cbv beta. destruct b; cbn [negb]; [|apply runs_ret; discriminate].
  eapply runs_bind with (P := fun y m' => exists r, snd y = opened setfile r (fst y) /\ ready rm (snd y) m').
  { destruct setfile.
    - mk1. destruct HA as (r & ->). apply runs_ret. eexists. split; [reflexivity|assumption].
    - mk1. destruct HA as (s & ->). last. mk1. destruct HA as (r & ->). apply runs_ret. eexists. split; [reflexivity|assumption]. }
  intros [s c] m2 _ (r & Ec & R2). simpl fst in *. simpl snd in *. subst c. clear R1.
  eapply runs_bind with (P := fun x m' => x = r /\ ready rm (opened setfile r s) m').
  { destruct setfile; apply runs_ret; auto. }
  intros r' m3 _ (-> & R3). clear R2. cbv beta. mk1. destruct HA as (q & ->). last. mk1. settle.
  eapply runs_bind; [apply lookup_data_runs; [reflexivity|eassumption]|]. intros [ok c] m5 _ (v & Ec & R5 & (T5 & A5 & F5 & L5) & Hd). simpl fst in *. simpl snd in *. subst c.
  destruct ok; cbn [negb]; [|apply runs_ret; discriminate]. specialize (Hd eq_refl).
  eapply runs_bind; [apply lookup_bounds_runs; [exact F5|exact L5|exact R5]|]. intros c m6 _ (v6 & -> & R6 & T6 & D6 & A6 & F6 & L6). cbv beta.
  eapply runs_bind; [apply lookup_limits_runs; exact R6|]. intros c m7 _ (v7 & -> & R7 & T7 & D7 & A7 & F7 & L7). cbv beta. mk1. settle.
  mk.
  { cbn [allowed find_query]. rewrite N.eqb_refl. cbn [v_data v_type knows_aggregated]. rewrite D7, D6, T7, T6, Hd. destruct setfile; cbn [opened find_reader]; rewrite N.eqb_refl; reflexivity. }
  { cbn [strict find_query find_reader]. rewrite N.eqb_refl. destruct setfile; cbn [opened find_reader]; rewrite N.eqb_refl; [|discriminate].
    cbn [v_aggregated v_strict_after v_strict_before knows_aggregated]. rewrite F7, L7, F6, L6. intro H. apply Hs. unfold strictly_bounded. revert H.
    destruct (ModelLookup.o_aggregate o), (ModelLookup.metadata a); cbn [negb andb orb]; auto. }
  destruct HA as [->|(i & iv & -> & Hiv)].
  - last. cbn [N.eqb]. apply runs_ret. discriminate.
  - last. rewrite (ready_iter _ _ _ _ _ ltac:(eassumption)).
    eapply runs_bind; [apply (runs_all _ (fun k n => lookup_rounds k n o q i _)); eapply lookup_rounds_runs; [reflexivity|eassumption]|].
    intros [x c] m9 _ (Hf & Hx). simpl fst in *. simpl snd in *. destruct x; try (apply runs_ret; discriminate). destruct (Hx eq_refl) as (v9 & -> & R9).
    assert (HR : ready rm (HIter i iv :: HQuery q v9 :: opened setfile r s) m9) by exact R9. clear - HR Hiv.
    mk1. settle. mk; [destruct setfile; allow|strictly|]. settle. destruct setfile; cbn [opened] in *.
    + mk1. settle. last. apply runs_ret. auto.
    + mk1. settle. mk1. settle. apply runs_ret. auto.
Qed.
