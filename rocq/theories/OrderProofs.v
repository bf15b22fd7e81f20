(** The answers come in the order in which they are stored, none of them twice. *)
From Verif Require Import Base ModelEntry ModelIter SpecIter ModelQuery SpecQuery BaseFacts IterProofs SelectProofs SpecReader SpecSound HiddenProofs TermProofs TermQueries ResumeProofs ResumeNext ResumeCalls SpecOrder.

Fixpoint plain (s : source) : Prop :=
  match s with SBase _ => True | SFilter _ _ u | STimeout u | SRemove _ u => plain u | SLjoin _ _ _ => False end.

Fixpoint ahead (h : how) (t : table) (s : source) : Prop :=
  match s with
  | SBase t' => t' = t
  | SFilter _ ff u => fwd h t ff /\ ahead h t u
  | STimeout u | SRemove _ u | SLjoin _ _ u => ahead h t u
  end.
Lemma forward_ahead : forall h t s, forward h t s -> ahead h t s.
Proof. induction s; cbn; tauto. Qed.
Lemma place_open' : forall h t s, ahead h t s -> place h t s (open h s) (window h t).
Proof.
  intros h t. induction s as [t0|st ff u IH|u IH|rms u IH|mf rt u IH]; intro HF; cbn [ahead place open] in *; try (repeat split; auto; apply IH; tauto).
  - subst t0. cbn [base_open b_win b_rest]. split; [reflexivity|]. split; [reflexivity|]. exists []. reflexivity.
Qed.

Definition passed (h : how) (t : table) (s : source) (rest : table) (o : out) (it' : iter) : Prop :=
  exists mid rest', place h t s it' rest' /\ rest = mid ++ rest' /\
  match o with OOk (k, v) => exists v0 mid', mid = mid' ++ [(k, v0)] /\ (plain s -> v = v0) | _ => True end.

Lemma join_key : forall f mf rb rkv fin lk lv w o a b c w1, join_right f mf rb rkv fin lk lv w = (o, a, b, c, w1) -> forall k v, o = OOk (k, v) -> k = lk.
Proof.
  induction f as [|f IH]; intros mf rb rkv fin lk lv w o a b c w1 E k v ->; cbn [join_right] in E; [discriminate E|]. destruct fin; [congruence|].
  destruct (match rkv with Some e => (Some e, rb) | None => base_next rb end) as [[[rk rv]|] rb1]; [|congruence].
  destruct (bytes_compare rk lk); [| |congruence].
  - destruct (mf lk lv rv); congruence.
  - destruct (base_seek lk rb1 w) as [[] rb2]; [eapply IH; [exact E|reflexivity]|congruence].
Qed.

Lemma place_pass : forall h t, sorted t -> forall fuel s it w rest o it1 w1, ahead h t s -> place h t s it rest -> next fuel it w = (o, it1, w1) -> o <> OHang -> passed h t s rest o it1.
Proof.
  intros h t HSo. induction fuel as [|f IH]; intros s it w rest o it1 w1 HF HP E HO; [cbn [next] in E; injection E; congruence|].
  assert (STAY : forall o s' it', (forall e, o <> OOk e) -> place h t s' it' rest -> passed h t s' rest o it').
  { intros o' s' it' H2 H3. exists [], rest. split; [exact H3|]. split; [reflexivity|]. destruct o'; auto. exfalso. eapply H2; reflexivity. }
  destruct s as [t0|st ff u|u|rms u|mf rt u]; destruct it as [b|st' ff' i|i|h' rms' i|mf' rb rk fin i]; cbn [place] in HP; try contradiction; cbn [next] in E.
  - destruct HP as (HW & HR & pre & HP). unfold base_next in E. rewrite HR in E. destruct rest as [|[k v] rest]; injection E as <- <- <-.
    + apply STAY; try discriminate. cbn [place]. split; [exact HW|]. split; [exact HR|]. eauto.
    + exists [(k, v)], rest. split; [|split; [reflexivity|exists v, []; auto]]. cbn [place b_win b_rest].
      split; [exact HW|]. split; [reflexivity|]. exists (pre ++ [(k, v)]). rewrite HP, <- app_assoc. reflexivity.
  - destruct HP as [-> HP]. pose proof HF as HF0. cbn [ahead] in HF. destruct HF as [FW HF].
    destruct (next f i w) as [[o1 u1] w2] eqn:E1. assert (HO1 : o1 <> OHang) by (intros ->; congruence).
    destruct (IH u i w rest o1 u1 w2 HF HP E1 HO1) as (mid & rest1 & HP1 & HE & HX).
    assert (LEFT : forall o, (forall e, o <> OOk e) -> passed h t (SFilter st ff u) rest o (IFilter st' ff u1)).
    { intros o' H2. exists mid, rest1. split; [cbn [place]; auto|]. split; [exact HE|]. destruct o'; auto. exfalso. eapply H2; reflexivity. }
    destruct o1 as [[k v]| | | | |]; try (injection E as <- <- <-; apply LEFT; discriminate).
    destruct HX as (v0 & mid' & HX & HV).
    assert (AGAIN : forall u2 w3 rest2 mid2, place h t u u2 rest2 -> rest1 = mid2 ++ rest2 -> next f (IFilter st' ff u2) w3 = (o, it1, w1) -> passed h t (SFilter st ff u) rest o it1).
    { intros u2 w3 rest2 mid2 P2 E2 EN.
      assert (P3 : place h t (SFilter st ff u) (IFilter st' ff u2) rest2) by (cbn [place]; auto).
      destruct (IH (SFilter st ff u) _ w3 rest2 o it1 w1 HF0 P3 EN HO) as (m3 & r3 & B & C & D).
      exists (mid ++ mid2 ++ m3), r3. split; [exact B|]. split; [rewrite HE, E2, C, <- !app_assoc; reflexivity|].
      destruct o as [[k3 v3]| | | | |]; auto. destruct D as (v4 & m4 & -> & D). exists v4, (mid ++ mid2 ++ m4). rewrite <- !app_assoc. auto. }
    destruct (ff w2 k v) as [fr w3] eqn:EF. destruct fr as [| |k'| | |]; try (injection E as <- <- <-; apply LEFT; discriminate).
    + injection E as <- <- <-. exists mid, rest1. split; [cbn [place]; auto|]. split; [exact HE|]. eauto.
    + apply (AGAIN u1 _ rest1 [] HP1 eq_refl E).
    + destruct (place_window _ _ _ _ _ HP) as [pre HW].
      assert (HIn : In (k, v0) (window h t)).
      { rewrite HW, HE, HX. apply in_or_app. right. apply in_or_app. left. apply in_or_app. right. left. reflexivity. }
      assert (HB : blt k k' = true) by (apply (FW w2 k v v0 k' HIn); rewrite EF; reflexivity).
      pose proof (place_seek h t k' u u1 (note (EvSeek st' k') (bump st' CSeek w3)) rest1 HP1) as P2.
      destruct (seek k' u1 (note (EvSeek st' k') (bump st' CSeek w3))) as [[ok u2] w4]. cbn [fst snd] in P2.
      destruct (drop_past k v0 k' (pre ++ mid') rest1) as [mid2 E2]; [|exact HB|].
      { pose proof (window_sorted h t HSo) as X. rewrite HW, HE, HX in X. rewrite <- !app_assoc in *. exact X. }
      assert (W : window h t = (pre ++ mid') ++ (k, v0) :: rest1) by (rewrite HW, HE, HX, <- !app_assoc; reflexivity).
      assert (E3 : rest1 = mid2 ++ drop_before k' (window h t)) by (rewrite W; exact E2). clear E2. rename E3 into E2. destruct ok.
      * eapply AGAIN; [exact P2|exact E2|exact E].
      * injection E as <- <- <-. exists (mid ++ mid2), (drop_before k' (window h t)). split; [cbn [place]; auto|]. split; [|exact I].
        rewrite HE, <- app_assoc, <- E2. reflexivity.
  - cbn [ahead] in HF. destruct (gettime w) as [now wg]. destruct (ts_cmp now (w_deadline wg)).
    + injection E as <- <- <-. apply STAY; try discriminate. exact HP.
    + destruct (next f i wg) as [[o1 u1] w2] eqn:E1. injection E as <- <- <-. exact (IH u i wg rest o1 u1 w2 HF HP E1 HO).
    + injection E as <- <- <-. apply STAY; try discriminate. exact HP.
  - pose proof HF as HF0. cbn [ahead] in HF.
    destruct (next f i w) as [[o1 u1] w2] eqn:E1. assert (HO1 : o1 <> OHang) by (intros ->; congruence).
    destruct (IH u i w rest o1 u1 w2 HF HP E1 HO1) as (mid & rest1 & HP1 & HE & HX).
    destruct o1 as [[k v]| | | | |]; try (injection E as <- <- <-; exists mid, rest1; auto).
    destruct HX as (v0 & mid' & HX & HV). destruct (match_key f h' k v rms' w2) as [[[[] r'] w3]|]; [| |injection E; congruence].
    + assert (P3 : place h t (SRemove rms u) (IRemove h' r' u1) rest1) by exact HP1.
      destruct (IH (SRemove rms u) _ w3 rest1 o it1 w1 HF0 P3 E HO) as (m3 & r3 & B & C & D).
      exists (mid ++ m3), r3. split; [exact B|]. split; [rewrite HE, C, <- app_assoc; reflexivity|].
      destruct o as [[k3 v3]| | | | |]; auto. destruct D as (v4 & m4 & -> & D). exists v4, (mid ++ m4). rewrite <- !app_assoc. auto.
    + injection E as <- <- <-. exists mid, rest1. split; [exact HP1|]. split; [exact HE|]. eauto.
  - destruct HP as [-> HP]. cbn [ahead] in HF.
    destruct (next f i w) as [[o1 u1] w2] eqn:E1. assert (HO1 : o1 <> OHang) by (intros ->; congruence).
    destruct (IH u i w rest o1 u1 w2 HF HP E1 HO1) as (mid & rest1 & HP1 & HE & HX).
    destruct o1 as [[k v]| | | | |]; try (injection E as <- <- <-; exists mid, rest1; split; [cbn [place]; auto|]; auto).
    destruct HX as (v0 & mid' & HX & _).
    destruct (join_right f mf rb rk fin k v w2) as [[[[o2 rb'] rkv'] fin'] w3] eqn:EJ. injection E as <- <- <-.
    exists mid, rest1. split; [cbn [place]; auto|]. split; [exact HE|]. destruct o2 as [[k2 v2]| | | | |]; auto.
    rewrite (join_key _ _ _ _ _ _ _ _ _ _ _ _ _ EJ _ _ eq_refl). exists v0, mid'. split; [exact HX|]. intros [].
Qed.

(** ** Sequences *)
Lemma in_order_skip : forall (A : Type) (mid l a : list A), in_order a l -> in_order a (mid ++ l).
Proof. intros A mid. induction mid as [|x mid IH]; intros l a H; [exact H|]. cbn. apply ord_skip. apply IH. exact H. Qed.
Lemma in_order_filter : forall (A : Type) (f : A -> bool) l a, in_order a (filter f l) -> in_order a l.
Proof.
  intros A f l. induction l as [|x l IH]; intros a H; [exact H|]. cbn [filter] in H. destruct (f x); [|apply ord_skip; apply IH; exact H].
  inversion H; subst; [constructor|constructor; apply IH; assumption|apply ord_skip; apply IH; assumption].
Qed.

Definition fits (s : source) (p : kv) (e : entry) : Prop := exists v, entry_decode (fst p) v = Ok e /\ (plain s -> v = snd p).

(** ** The loop *)
Section Loop.
Variables (t ti : table) (s si : source) (h0 hi : how).
Hypotheses (HS : sorted t) (HSi : sorted ti).

(** What a state of the loop still may give: the entries of the lookup under way, then one
    group for each of some index entries. *)
Definition stands (k : kind) (rest resti : table) : Prop :=
  match k with
  | Direct it => ahead h0 t s /\ place h0 t s it rest /\ resti = []
  | Indirect tb idx None => (forall h, ahead h t s) /\ ahead hi ti si /\ place hi ti si idx resti /\ rest = []
  | Indirect tb idx (Some it) => (forall h, ahead h t s) /\ ahead hi ti si /\ place hi ti si idx resti /\ exists h w, ahead h t s /\ place h t s it w /\ w = rest
  end.
Definition gives_order (rest resti : table) (es : list entry) : Prop :=
  exists now idxs groups, in_order now rest /\ in_order idxs resti /\ length groups = length idxs /\ Forall (fun g => in_order g t) groups /\
  Forall2 (fits s) (now ++ concat groups) es.

Lemma gives_less : forall mid rest midi resti es, gives_order rest resti es -> gives_order (mid ++ rest) (midi ++ resti) es.
Proof. intros mid rest midi resti es (n & i & g & A & B & C & D & E). exists n, i, g. split; [apply in_order_skip; exact A|]. split; [apply in_order_skip; exact B|]. auto. Qed.
Lemma gives_next : forall h p resti es, gives_order (window h t) resti es -> gives_order [] (p :: resti) es.
Proof.
  intros h p resti es (n & i & g & A & B & C & D & E). exists [], (p :: i), (n :: g). split; [constructor|]. split; [constructor; exact B|]. split; [cbn; congruence|].
  split; [constructor; [apply in_order_filter with (f := fun e => in_window h (fst e)); exact A|exact D]|]. exact E.
Qed.
Lemma gives_end : forall rest resti es, gives_order [] resti es -> gives_order rest resti es.
Proof. intros rest resti es (n & i & g & A & B). inversion A; subst. exists [], i, g. split; [constructor|exact B]. Qed.
Lemma gives_entry : forall p rest resti e es, fits s p e -> gives_order rest resti es -> gives_order (p :: rest) resti (e :: es).
Proof. intros p rest resti e es HF (n & i & g & A & B & C & D & E). exists (p :: n), i, g. split; [constructor; exact A|]. repeat (split; [assumption|]). cbn. constructor; assumption. Qed.

Lemma kloop_order : forall q n f k w r k1 w1 rest resti, stands k rest resti -> kloop n f q s k w = (r, k1, w1) -> r <> QHang ->
  exists rest1 resti1, stands k1 rest1 resti1 /\ forall es, gives_order rest1 resti1 es -> gives_order rest resti (match r with QEntry e => e :: es | _ => es end).
Proof using HS HSi.
  intros q. induction n as [|n IH]; intros f k w r k1 w1 rest resti ST E HO; [cbn in E; injection E; congruence|]. cbn [kloop] in E.
  destruct (next f (active k) w) as [[o it1] w2] eqn:E1.
  assert (HO1 : o <> OHang) by (intros ->; destruct (react_hang q s k it1) as (k' & X); rewrite X in E; congruence).
  destruct k as [it|tb idx [it|]]; cbn [stands active react] in *.
  - destruct ST as (AH & PL & ->). destruct (place_pass h0 t HS f s it w rest o it1 w2 AH PL E1 HO1) as (mid & rest' & P' & HE & HX).
    assert (ST' : stands (Direct it1) rest' []) by (cbn; auto).
    assert (OUT : forall r', (forall e, r' <> QEntry e) -> (r', Direct it1, w2) = (r, k1, w1) -> exists rest1 resti1, stands k1 rest1 resti1 /\ forall es, gives_order rest1 resti1 es -> gives_order rest [] (match r with QEntry e => e :: es | _ => es end)).
    { intros r' H1 H2. injection H2 as <- <- <-. exists rest', []. split; [exact ST'|]. intros es G. rewrite HE. destruct r'; try (apply (gives_less mid rest' [] []); exact G). exfalso. eapply H1. reflexivity. }
    destruct o as [[k v]| | | | |]; cbn [finalq] in E; try (eapply OUT; [|exact E]; discriminate).
    destruct HX as (v0 & mid' & -> & HV). destruct (entry_decode k v) as [e| | | |] eqn:ED; try (eapply OUT; [|exact E]; discriminate).
    + injection E as <- <- <-. exists rest', []. split; [exact ST'|]. intros es G. rewrite HE, <- app_assoc. apply (gives_less mid' _ [] []). cbn [app]. apply gives_entry; [exists v; auto|exact G].
    + destruct (IH f (Direct it1) w2 r k1 w1 rest' [] ST' E HO) as (r1 & ri1 & S1 & G1). exists r1, ri1. split; [exact S1|]. intros es G. rewrite HE. apply (gives_less _ rest' [] []). apply G1. exact G.
  - destruct ST as (AH & AI & PI & h & wx & AHh & PL & ->). destruct (place_pass h t HS f s it w rest o it1 w2 AHh PL E1 HO1) as (mid & rest' & P' & HE & HX).
    assert (ST' : stands (Indirect tb idx (Some it1)) rest' resti) by (cbn [stands]; split; [exact AH|]; split; [exact AI|]; split; [exact PI|]; exists h, rest'; auto).
    assert (OUT : forall r', (forall e, r' <> QEntry e) -> (r', Indirect tb idx (Some it1), w2) = (r, k1, w1) -> exists rest1 resti1, stands k1 rest1 resti1 /\ forall es, gives_order rest1 resti1 es -> gives_order rest resti (match r with QEntry e => e :: es | _ => es end)).
    { intros r' H1 H2. injection H2 as <- <- <-. exists rest', resti. split; [exact ST'|]. intros es G. rewrite HE. destruct r'; try (apply (gives_less mid rest' [] resti); exact G). exfalso. eapply H1. reflexivity. }
    destruct o as [[k v]| | | | |]; cbn [finalq] in E; try (eapply OUT; [|exact E]; discriminate).
    + destruct HX as (v0 & mid' & -> & HV). destruct (entry_decode k v) as [e| | | |] eqn:ED; try (eapply OUT; [|exact E]; discriminate).
      * injection E as <- <- <-. exists rest', resti. split; [exact ST'|]. intros es G. rewrite HE, <- app_assoc. apply (gives_less mid' _ [] resti). cbn [app]. apply gives_entry; [exists v; auto|exact G].
      * destruct (IH f _ w2 r k1 w1 rest' resti ST' E HO) as (r1 & ri1 & S1 & G1). exists r1, ri1. split; [exact S1|]. intros es G. rewrite HE. apply (gives_less _ rest' [] resti). apply G1. exact G.
    + assert (SN : stands (Indirect tb idx None) [] resti) by (cbn; auto).
      destruct (IH f _ w2 r k1 w1 [] resti SN E HO) as (r1 & ri1 & S1 & G1). exists r1, ri1. split; [exact S1|]. intros es G. apply gives_end. apply G1. exact G.
  - destruct ST as (AH & AI & PI & ->). destruct (place_pass hi ti HSi f si idx w resti o it1 w2 AI PI E1 HO1) as (mid & rest' & P' & HE & HX).
    assert (ST' : stands (Indirect tb it1 None) [] rest') by (cbn [stands]; auto).
    assert (OUT : forall r', (forall e, r' <> QEntry e) -> (r', Indirect tb it1 None, w2) = (r, k1, w1) -> exists rest1 resti1, stands k1 rest1 resti1 /\ forall es, gives_order rest1 resti1 es -> gives_order [] resti (match r with QEntry e => e :: es | _ => es end)).
    { intros r' H1 H2. injection H2 as <- <- <-. exists [], rest'. split; [exact ST'|]. intros es G. rewrite HE. destruct r'; try (apply (gives_less [] [] mid rest'); exact G). exfalso. eapply H1. reflexivity. }
    destruct o as [[k v]| | | | |]; try (eapply OUT; [|exact E]; discriminate).
    destruct HX as (v0 & mid' & -> & _). destruct (index_lookup_key q tb k v) as [[fk|]| | | |]; try (eapply OUT; [|exact E]; discriminate).
    + assert (SN : stands (Indirect tb it1 (Some (open (HPrefix fk) s))) (window (HPrefix fk) t) rest').
      { cbn [stands]. split; [exact AH|]. split; [exact AI|]. split; [exact P'|]. exists (HPrefix fk), (window (HPrefix fk) t). split; [apply AH|]. split; [apply place_open'; apply AH|reflexivity]. }
      destruct (IH f _ w2 r k1 w1 _ rest' SN E HO) as (r1 & ri1 & S1 & G1). exists r1, ri1. split; [exact S1|]. intros es G. rewrite HE, <- app_assoc. apply (gives_less [] [] mid'). cbn [app].
      eapply gives_next. apply G1. exact G.
    + destruct (IH f _ w2 r k1 w1 [] rest' ST' E HO) as (r1 & ri1 & S1 & G1). exists r1, ri1. split; [exact S1|]. intros es G. rewrite HE. apply (gives_less [] [] _ rest'). apply G1. exact G.
Qed.

Lemma calls_order : forall fuel ts qi w rest resti, qi_source qi = s -> stands (qi_kind qi) rest resti -> ~ In QHang (timed_calls fuel ts qi w) ->
  gives_order rest resti (got (timed_calls fuel ts qi w)).
Proof using HS HSi.
  intros fuel. induction ts as [|tm ts IH]; intros qi w rest resti ES ST HH.
  { exists [], [], []. repeat (split; [constructor|]). constructor. }
  cbn [timed_calls] in *. rewrite qnext_kloop in *. cbn [set_timing qi_query qi_source qi_kind] in *. rewrite ES in *.
  match type of HH with context [kloop fuel fuel ?a ?b ?c ?d] => destruct (kloop fuel fuel a b c d) as [[r k1] w1] eqn:EK end.
  assert (HO : r <> QHang) by (intros ->; apply HH; left; reflexivity).
  destruct (kloop_order _ _ _ _ _ _ _ _ _ _ ST EK HO) as (r1 & ri1 & S1 & G1).
  match goal with |- context [timed_calls fuel ts ?x w1] => set (qi1 := x) in * end.
  assert (G : gives_order r1 ri1 (got (timed_calls fuel ts qi1 w1))) by (apply IH; [reflexivity|exact S1|intro X; apply HH; right; exact X]).
  specialize (G1 _ G). destruct r; exact G1.
Qed.
End Loop.
