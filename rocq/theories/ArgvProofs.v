(** Proofs about the command line of dnstable_dump. *)
From Verif Require Import Str BaseFacts ModelLookup ModelArgv SpecLookup SpecArgv.

Definition idx (o : dopt) : nat :=
  match o with Json => 0 | Raw => 1 | Rrset => 2 | Rdata => 4 | RrsetNames => 6 | RdataNames => 8 | TimeRange => 10 | Version => 12 | SourceInfo => 14 end%nat.
Definition deq (a b : dopt) : bool := Nat.eqb (idx a) (idx b).
Lemma deq_spec : forall a b, deq a b = true <-> a = b.
Proof. intros a b. destruct a, b; cbn; split; intro H; try discriminate H; reflexivity. Qed.
Lemma deq_refl : forall a, deq a a = true.
Proof. intro a. apply deq_spec. reflexivity. Qed.
Definition upd (f : dopt -> bool) (o : dopt) (b : bool) : dopt -> bool := fun x => if deq x o then b else f x.
Definition section (o : dopt) : bool := match o with Json | Raw => false | _ => true end.
Definition all_sections : list dopt := [Rrset; Rdata; RrsetNames; RdataNames; TimeRange; Version; SourceInfo].
Definition conflict (u : dopt -> bool) (o : dopt) : bool := section o && existsb (fun s => negb (deq s o) && u s) all_sections.

Definition FL (c : N) (name : bytes) (u v : bool) : argv_t :=
  {| ar_short := c; ar_long := Some name; ar_type := TBool; ar_used := u; ar_bool := v; ar_str := None |}.
Definition G (u v : dopt -> bool) (f : option bytes) : list argv_t :=
  [FL 106 (str "json") (u Json) (v Json); FL 82 (str "raw") (u Raw) (v Raw); FL 114 (str "rrset_full") (u Rrset) (v Rrset); bare_arg ARGV_XOR TNone;
   FL 100 (str "rdata_full") (u Rdata) (v Rdata); bare_arg ARGV_XOR TNone; FL 0 (str "rrset_names") (u RrsetNames) (v RrsetNames); bare_arg ARGV_XOR TNone;
   FL 0 (str "rdata_names") (u RdataNames) (v RdataNames); bare_arg ARGV_XOR TNone; FL 116 (str "time_range") (u TimeRange) (v TimeRange); bare_arg ARGV_XOR TNone;
   FL 118 (str "version_entries") (u Version) (v Version); bare_arg ARGV_XOR TNone; FL 115 (str "source_info_entries") (u SourceInfo) (v SourceInfo);
   {| ar_short := ARGV_MAND; ar_long := None; ar_type := TCharP; ar_used := match f with None => false | Some _ => true end; ar_bool := false; ar_str := f |};
   bare_arg ARGV_LAST TNone].
Definition ST (u v : dopt -> bool) (f : option bytes) (p : nat) (h : N) (ok : bool) (sd : bytes) : astate :=
  {| a_grid := G u v f; a_queue := repeat None p; a_head := h; a_okay := ok; a_stdin := sd |}.

Lemma check_or_G : forall u v f o, check_or (G u v f) (idx o) = Ok (conflict u o).
Proof.
  intros u v f o. unfold conflict. destruct o; try reflexivity; cbv -[str];
    destruct (u Rrset), (u Rdata), (u RrsetNames), (u RdataNames), (u TimeRange), (u Version), (u SourceInfo); reflexivity.
Qed.

Lemma upd_true : forall u o, upd u o true o = true.
Proof. intros u o. unfold upd. rewrite deq_refl. reflexivity. Qed.
Lemma conflict_upd : forall u o, conflict (upd u o true) o = conflict u o.
Proof. intros u o. unfold conflict, upd. destruct o; reflexivity. Qed.

Definition bad (m : bool) (u : dopt -> bool) (o : dopt) : bool := conflict u o || (negb m && u o).
Definition value_of (close : option bytes) : bool :=
  match close with None => true | Some (c :: _) => existsb (N.eqb c) (str "tTyY1") | Some [] => false end.

(** ** The words of a file *)

Lemma fgets_run : forall q s cur room, ~ In 10 q -> (length q < room)%nat -> fgets_pieces (q ++ s) cur room = fgets_pieces s (rev q ++ cur) (room - length q).
Proof.
  induction q as [|c q IH]; intros s cur room N L; cbn [length] in L; [cbn; f_equal; lia|].
  destruct room as [|[|room]]; [lia|lia|]. cbn [app fgets_pieces]. destruct (N.eqb_spec c 10) as [->|_]; [destruct N; left; reflexivity|].
  rewrite IH by (first [intro K; apply N; right; exact K|lia]). cbn [rev]. rewrite <- app_assoc. reflexivity.
Qed.
Lemma fgets_newline : forall s cur room, (0 < room)%nat -> fgets_pieces (10 :: s) cur room = rev (10 :: cur) :: fgets_pieces s [] line_max.
Proof. intros s cur room L. destruct room as [|[|room]]; [lia|reflexivity|reflexivity]. Qed.
Lemma fgets_full : forall c s cur, fgets_pieces (c :: s) cur 1 = rev (c :: cur) :: fgets_pieces s [] line_max.
Proof. reflexivity. Qed.
Lemma fgets_end : forall cur room, cur <> [] -> fgets_pieces [] cur room = [rev cur].
Proof. intros [|c cur] room H; [contradiction|reflexivity]. Qed.
Lemma cut_newline : forall q s, ~ In 10 q -> cut_line (q ++ 10 :: s) = cut_line q.
Proof. induction q as [|c q IH]; intros s N; [reflexivity|]. cbn [app cut_line]. rewrite IH by (intro K; apply N; right; exact K). reflexivity. Qed.
Lemma line_positive : (0 < line_max)%nat.
Proof. unfold line_max. apply Nat.lt_0_succ. Qed.
Lemma rev_nonempty : forall (A : Type) (q : list A), q <> [] -> rev q <> [].
Proof. intros A q H K. apply (f_equal (@rev A)) in K. rewrite rev_involutive in K. contradiction. Qed.

Lemma pieces_lines : forall text ps, pieces text ps -> map cut_line (fgets_pieces text [] line_max) = map cut_line ps /\ Forall (fun q => ~ In 10 q) ps.
Proof.
  intros text ps H. pose proof line_positive as LP. induction H as [|q NE N L|q text ps N L H [IH1 IH2]|q text ps N L H [IH1 IH2]].
  - split; [reflexivity|constructor].
  - split; [|constructor; [exact N|constructor]]. destruct (Nat.eq_dec (length q) line_max) as [E|E].
    + destruct (exists_last NE) as (q0 & c & ->). rewrite app_length in E. cbn [length] in E.
      rewrite fgets_run by (first [intro K; apply N, in_or_app; left; exact K|lia]). replace (line_max - length q0)%nat with 1%nat by lia. rewrite fgets_full. cbn [rev]. rewrite app_nil_r, rev_involutive. reflexivity.
    + rewrite <- (app_nil_r q) at 1. rewrite fgets_run by (first [exact N|lia]). rewrite app_nil_r, fgets_end by (apply rev_nonempty; exact NE). rewrite rev_involutive. reflexivity.
  - split; [|constructor; assumption]. rewrite fgets_run by assumption. rewrite fgets_newline by lia. cbn [rev map]. rewrite app_nil_r, rev_involutive, IH1, cut_newline by exact N. reflexivity.
  - split; [|constructor; assumption]. assert (NE : q <> []) by (intros ->; cbn [length] in L; lia). destruct (exists_last NE) as (q0 & c & ->). rewrite app_length in L. cbn [length] in L.
    rewrite <- app_assoc, fgets_run by (first [intro K; apply N, in_or_app; left; exact K|lia]). replace (line_max - length q0)%nat with 1%nat by lia. cbn [app]. rewrite fgets_full. cbn [rev map]. rewrite app_nil_r, rev_involutive, IH1. reflexivity.
Qed.
Lemma cut_before : forall q w, ~ In 10 q -> (before_nul q w <-> cut_line q = w).
Proof.
  induction q as [|c q IH]; intros w N; cbn [cut_line].
  - split; [intros [_ [->|(r & E)]]; [reflexivity|destruct w; discriminate E]|intros <-; split; [intros []|left; reflexivity]].
  - assert (N' : ~ In 10 q) by (intro K; apply N; right; exact K). assert (c <> 10) by (intros ->; apply N; left; reflexivity).
    destruct (N.eqb_spec c 10) as [K|_]; [contradiction|]. cbn [orb]. destruct (N.eqb_spec c 0) as [->|NZ].
    + split; [|intros <-; split; [intros []|right; exists q; reflexivity]]. intros [Z [<-|(r & E)]]; [destruct Z; left; reflexivity|]. destruct w as [|x w]; [reflexivity|]. inversion E. subst x. destruct Z. left. reflexivity.
    + split.
      * intros [Z E]. destruct w as [|x w]; [destruct E as [E|(r & E)]; [discriminate E|inversion E; contradiction]|].
        assert (B : before_nul q w /\ x = c). { split; [|destruct E as [E|(r & E)]; inversion E; reflexivity]. split; [intro K; apply Z; right; exact K|]. destruct E as [E|(r & E)]; inversion E; [left; reflexivity|right; exists r; reflexivity]. }
        destruct B as [B ->]. apply (IH w N') in B. rewrite B. reflexivity.
      * intros <-. pose proof (proj2 (IH (cut_line q) N') eq_refl) as [Z E]. split; [intros [K|K]; [congruence|exact (Z K)]|]. destruct E as [E|(r & E)]; [left; rewrite <- E; reflexivity|right; exists r; rewrite E at 1; reflexivity].
Qed.
Lemma lines_filter : forall ps ws, Forall (fun q => ~ In 10 q) ps -> (lines_of ps ws <-> filter (fun l : bytes => match l with [] => false | _ => true end) (map cut_line ps) = ws).
Proof.
  induction ps as [|q ps IH]; intros ws F; cbn [map filter].
  - split; [intro H; inversion H; reflexivity|intros <-; constructor].
  - inversion F as [|? ? N F']; subst. split.
    + intro H. inversion H as [|? ? ? B H'|? w ? ? NE B H']; subst.
      * apply (cut_before q [] N) in B. rewrite B. apply IH; assumption.
      * apply (cut_before q w N) in B. rewrite B. destruct w as [|x w]; [contradiction|]. f_equal. apply IH; assumption.
    + destruct (cut_line q) as [|x w] eqn:C.
      * intro E. apply lo_empty; [apply cut_before; assumption|]. apply IH; assumption.
      * intros <-. apply lo_word; [discriminate|apply cut_before; assumption|]. apply IH; [assumption|reflexivity].
Qed.
Lemma pieces_exist : forall n text, (length text <= n)%nat -> exists ps, pieces text ps.
Proof.
  pose proof line_positive as LP. induction n as [|n IH]; intros text L.
  - destruct text; [exists []; constructor|cbn [length] in L; lia].
  - assert (SP : exists q rest, text = q ++ rest /\ ~ In 10 q /\ (length q <= line_max)%nat /\ (rest = [] \/ (length q = line_max) \/ (exists r, rest = 10 :: r /\ (length q < line_max)%nat))).
    { clear IH L. generalize line_max. clear LP. intro m. revert m. induction text as [|c text IH]; intro m.
      - exists [], []. split; [reflexivity|]. split; [intros []|]. split; [cbn; lia|left; reflexivity].
      - destruct m as [|m]; [exists [], (c :: text); split; [reflexivity|]; split; [intros []|]; split; [cbn; lia|right; left; reflexivity]|].
        destruct (N.eq_dec c 10) as [->|NC]; [exists [], (10 :: text); split; [reflexivity|]; split; [intros []|]; split; [cbn; lia|right; right; exists text; split; [reflexivity|cbn; lia]]|].
        destruct (IH m) as (q & rest & -> & N & L & D). exists (c :: q), rest. split; [reflexivity|]. split; [intros [K|K]; [congruence|exact (N K)]|]. split; [cbn; lia|].
        destruct D as [D|[D|(r & D & D')]]; [left; exact D|right; left; cbn; lia|right; right; exists r; split; [exact D|cbn; lia]]. }
    destruct SP as (q & rest & -> & N & LQ & D). rewrite app_length in L. destruct D as [-> |[D|(r & -> & D)]].
    + destruct q as [|c q]; [exists []; constructor|]. exists [c :: q]. rewrite app_nil_r. apply pc_last; [discriminate|assumption|assumption].
    + destruct (IH rest) as (ps & P); [lia|]. exists (q :: ps). apply pc_long; assumption.
    + cbn [length] in L. destruct (IH r) as (ps & P); [lia|]. exists (q :: ps). apply pc_line; assumption.
Qed.
Lemma text_lines : forall text ws, text_words text ws <-> file_lines text = ws.
Proof.
  intros text ws. unfold file_lines. change 1023%nat with line_max. split.
  - intros (ps & P & L). destruct (pieces_lines _ _ P) as [E F]. rewrite E. apply lines_filter; assumption.
  - intro H. destruct (pieces_exist _ text (Nat.le_refl _)) as (ps & P). exists ps. split; [exact P|]. destruct (pieces_lines _ _ P) as [E F]. rewrite E in H. apply lines_filter; assumption.
Qed.

(** ** The options, under settings of the library *)

Section Settings.
Variable cfg : settings.
Variable yw : ways.
Hypothesis YC : values yw = s_close cfg.
Hypothesis YT : resumes yw = s_toggle cfg.
Notation multi := (s_multi cfg).

Lemma do_arg_ST : forall cap o close u v f p h ok sd,
  do_arg cfg cap (idx o) close (ST u v f p h ok sd) = Ok (ST (upd u o true) (upd v o (value_of close)) f p h (ok && negb (bad multi u o)) sd).
Proof.
  intros cap o close u v f p h ok sd.
  assert (E1 : exists a, entry_at (G u v f) (idx o) = Ok a /\ ar_type a = TBool /\ ar_used a = u o) by (destruct o; eexists; (split; [|split]); reflexivity).
  destruct E1 as (a & E1 & T1 & U1).
  assert (E2 : update (G u v f) (idx o) mark_used = G (upd u o true) v f) by (destruct o; reflexivity).
  assert (E3 : forall b, update (G (upd u o true) v f) (idx o) (put_bool b) = G (upd u o true) (upd v o b) f) by (intro b; destruct o; reflexivity).
  assert (E4 : exists a, entry_at (G (upd u o true) v f) (idx o) = Ok a /\ ar_type a = TBool) by (destruct o; eexists; split; reflexivity).
  destruct E4 as (a' & E4 & T4).
  unfold do_arg. cbn [a_grid ST]. rewrite E1. cbn [bind]. rewrite U1.
  assert (F1 : (if negb multi && u o then not_okay (ST u v f p h ok sd) else ST u v f p h ok sd) = ST u v f p h (ok && negb (negb multi && u o)) sd).
  { destruct (negb multi && u o); cbn [negb]; rewrite ?andb_true_r, ?andb_false_r; reflexivity. }
  rewrite F1. set (ok1 := ok && negb (negb multi && u o)). cbn [a_grid ST]. rewrite E2. change (set_grid (ST u v f p h ok1 sd) (G (upd u o true) v f)) with (ST (upd u o true) v f p h ok1 sd).
  cbn [a_grid ST]. rewrite check_or_G, conflict_upd. cbn [bind]. rewrite T1. cbn [has_arg negb].
  assert (F2 : (if conflict u o then not_okay (ST (upd u o true) v f p h ok1 sd) else ST (upd u o true) v f p h ok1 sd) = ST (upd u o true) v f p h (ok && negb (bad multi u o)) sd).
  { unfold bad, ok1. destruct (conflict u o), ok, (negb multi && u o); reflexivity. }
  rewrite F2. assert (V : forall x ok2, string_to_value x (idx o) (ST (upd u o true) v f p h ok2 sd) = Ok (ST (upd u o true) (upd v o (value_of x)) f p h ok2 sd)).
  { intros x ok2. unfold string_to_value. cbn [a_grid ST]. rewrite E4. cbn [bind]. rewrite T4. unfold set_grid. cbn [a_grid a_queue a_head a_okay a_stdin ST]. rewrite E3. reflexivity. }
  destruct close; apply V.
Qed.

(** ** Names and letters *)

Fixpoint positions (g : list argv_t) (name : bytes) (i : nat) : list nat :=
  match g with
  | [] => []
  | a :: r =>
      if ar_short a =? ARGV_LAST then []
      else match ar_long a with Some l => if is_prefix name l then i :: positions r name (S i) else positions r name (S i) | None => positions r name (S i) end
  end.
Lemma find_long_positions : forall g name i found,
  find_long g name i found = match (match found with Some j => [j] | None => [] end) ++ positions g name i with [] => NoMatch | [j] => OneMatch j | _ => TwoMatches end.
Proof.
  induction g as [|a r IH]; intros name i found; [destruct found; reflexivity|]. cbn [find_long positions]. destruct (ar_short a =? ARGV_LAST); [destruct found; reflexivity|].
  destruct (ar_long a) as [l|]; [|apply IH]. destruct (is_prefix name l); [|apply IH]. destruct found as [j|]; [reflexivity|]. rewrite IH. reflexivity.
Qed.
Definition candidates (name : bytes) : list (dopt * bytes) := filter (fun p => is_prefix name (snd p)) option_names.
Lemma positions_name : forall a r name i l, ar_short a =? ARGV_LAST = false -> ar_long a = Some l ->
  positions (a :: r) name i = (if is_prefix name l then [i] else []) ++ positions r name (S i).
Proof. intros a r name i l H L. cbn [positions]. rewrite H, L. destruct (is_prefix name l); reflexivity. Qed.
Lemma positions_bare : forall a r name i, ar_short a =? ARGV_LAST = false -> ar_long a = None -> positions (a :: r) name i = positions r name (S i).
Proof. intros a r name i H L. cbn [positions]. rewrite H, L. reflexivity. Qed.
Lemma filter_step : forall name (o : dopt) l r, map (fun p => idx (fst p)) (filter (fun p => is_prefix name (snd p)) ((o, l) :: r)) =
  (if is_prefix name l then [idx o] else []) ++ map (fun p => idx (fst p)) (filter (fun p => is_prefix name (snd p)) r).
Proof. intros name o l r. cbn [filter snd]. destruct (is_prefix name l); reflexivity. Qed.
Lemma positions_G : forall u v f name, positions (G u v f) name 0 = map (fun p => idx (fst p)) (candidates name).
Proof.
  intros u v f name. unfold candidates, option_names, G.
  repeat (first [rewrite positions_bare by reflexivity|erewrite positions_name by reflexivity; rewrite filter_step; apply (f_equal2 (@app nat)); [reflexivity|]]).
  reflexivity.
Qed.

Lemma begins_prefix : forall name w, begins name w <-> is_prefix w name = true.
Proof. intros name w. symmetry. apply is_prefix_spec. Qed.
Lemma in_candidates : forall name o n, In (o, n) (candidates name) <-> In (o, n) option_names /\ begins n name.
Proof. intros name o n. unfold candidates. rewrite filter_In, begins_prefix. reflexivity. Qed.
Lemma names_unique : NoDup (map fst option_names).
Proof. cbn. repeat (constructor; [cbn; intuition discriminate|]). constructor. Qed.
Lemma filter_nodup : forall (f : dopt * bytes -> bool) l, NoDup (map fst l) -> NoDup (map fst (filter f l)).
Proof.
  intros f l. induction l as [|x l IH]; intro H; [constructor|]. inversion H as [|? ? N H']; subst. cbn [filter]. destruct (f x); [|apply IH, H'].
  cbn [map]. constructor; [|apply IH, H']. intro K. apply N. apply in_map_iff in K. destruct K as (y & E & I). apply filter_In in I. apply in_map_iff. exists y. tauto.
Qed.
Lemma find_long_G : forall u v f name, name <> [] -> 
  match find_long (G u v f) name 0 None with
  | OneMatch i => exists o, i = idx o /\ abbreviates name o
  | _ => forall o, ~ abbreviates name o
  end.
Proof.
  intros u v f name NE. rewrite find_long_positions, positions_G. cbn [app]. destruct (candidates name) as [|[o n] [|[o' n'] r]] eqn:C; cbn [map].
  - intros o (_ & (n & I & B) & _). assert (K : In (o, n) (candidates name)) by (apply in_candidates; split; assumption). rewrite C in K. destruct K.
  - exists o. split; [reflexivity|]. assert (K : In (o, n) (candidates name)) by (rewrite C; left; reflexivity). apply in_candidates in K. split; [exact NE|]. split; [exists n; exact K|].
    intros o' n' I B. assert (K' : In (o', n') (candidates name)) by (apply in_candidates; split; assumption). rewrite C in K'. destruct K' as [K'|[]]. inversion K'. reflexivity.
  - intros x (_ & _ & U). pose proof (filter_nodup (fun p => is_prefix name (snd p)) option_names names_unique) as ND. fold (candidates name) in ND. rewrite C in ND.
    assert (o = x) by (assert (K : In (o, n) option_names /\ begins n name) by ( apply in_candidates; rewrite C; left; reflexivity); exact (U o n (proj1 K) (proj2 K))).
    assert (o' = x) by (assert (K : In (o', n') option_names /\ begins n' name) by (apply in_candidates; rewrite C; right; left; reflexivity); exact (U o' n' (proj1 K) (proj2 K))).
    subst. inversion ND as [|? ? N _]. apply N. left. reflexivity.
Qed.
Lemma abbreviates_fun : forall name o o', abbreviates name o -> abbreviates name o' -> o' = o.
Proof. intros name o o' (_ & _ & U) (_ & (n & I & B) & _). exact (U o' n I B). Qed.
Lemma find_long_abbr : forall u v f name o, abbreviates name o -> find_long (G u v f) name 0 None = OneMatch (idx o).
Proof.
  intros u v f name o A. pose proof (find_long_G u v f name (proj1 A)) as H. destruct (find_long (G u v f) name 0 None).
  - destruct (H o A). - destruct H as (o' & -> & A'). rewrite (abbreviates_fun _ _ _ A A'). reflexivity. - destruct (H o A).
Qed.

Lemma letter_G : forall u v f o c, In (o, c) option_letters -> find_short (G u v f) c 0 = Some (idx o).
Proof. intros u v f o c H. cbn in H. repeat (destruct H as [H|H]; [inversion H; subst; reflexivity|]). destruct H. Qed.
Lemma find_short_step : forall a r c i, ar_short a =? ARGV_LAST = false -> find_short (a :: r) c i = if ar_short a =? c then Some i else find_short r c (S i).
Proof. intros a r c i H. cbn [find_short]. rewrite H. reflexivity. Qed.
Lemma find_short_G : forall u v f c, 0 < c -> c < 251 ->
  match find_short (G u v f) c 0 with
  | Some i => exists o, i = idx o /\ In (o, c) option_letters
  | None => forall o, ~ In (o, c) option_letters
  end.
Proof.
  intros u v f c L1 L2. destruct (find_short (G u v f) c 0) as [i|] eqn:E.
  - unfold G in E.
    assert (HIT : forall o, Some (idx o) = Some i -> In (o, c) option_letters -> exists o, i = idx o /\ In (o, c) option_letters)
      by (intros o X I; inversion X; subst i; exists o; split; [reflexivity|exact I]).
    repeat (rewrite find_short_step in E by reflexivity; cbn [ar_short FL bare_arg] in E;
      match type of E with (if ?k =? c then _ else _) = _ => destruct (N.eqb_spec k c) as [X|X];
        [subst c; try (exfalso; unfold ARGV_XOR, ARGV_MAND in *; lia);
         first [refine (HIT Json E _); cbn; tauto|refine (HIT Raw E _); cbn; tauto|refine (HIT Rrset E _); cbn; tauto|refine (HIT Rdata E _); cbn; tauto
           |refine (HIT TimeRange E _); cbn; tauto|refine (HIT Version E _); cbn; tauto|refine (HIT SourceInfo E _); cbn; tauto]|clear X] end).
    discriminate E.
  - intros o I. rewrite (letter_G u v f o c I) in E. discriminate E.
Qed.

(** ** Sequences of options *)

Fixpoint uses (u : dopt -> bool) (l : list (dopt * bool)) : dopt -> bool := match l with [] => u | (o, _) :: r => uses (upd u o true) r end.
Fixpoint sets (v : dopt -> bool) (l : list (dopt * bool)) : dopt -> bool := match l with [] => v | (o, b) :: r => sets (upd v o b) r end.
Fixpoint fits (u : dopt -> bool) (l : list (dopt * bool)) : bool := match l with [] => true | (o, _) :: r => negb (bad multi u o) && fits (upd u o true) r end.
Fixpoint names (f : option bytes) (a : list bytes) : option bytes := match a with [] => f | w :: r => names (match f with None => Some w | Some x => Some x end) r end.
Definition room (f : option bytes) (a : list bytes) : bool := match f, a with _, [] => true | None, [_] => true | _, _ => false end.

Lemma uses_app : forall l u r, uses u (l ++ r) = uses (uses u l) r.
Proof. induction l as [|[o b] l IH]; intros u r; [reflexivity|]. cbn. apply IH. Qed.
Lemma sets_app : forall l v r, sets v (l ++ r) = sets (sets v l) r.
Proof. induction l as [|[o b] l IH]; intros u r; [reflexivity|]. cbn. apply IH. Qed.
Lemma fits_app : forall l u r, fits u (l ++ r) = fits u l && fits (uses u l) r.
Proof. induction l as [|[o b] l IH]; intros u r; [reflexivity|]. cbn. rewrite IH, andb_assoc. reflexivity. Qed.
Lemma names_app : forall a f b, names f (a ++ b) = names (names f a) b.
Proof. induction a as [|w a IH]; intros f b; [reflexivity|]. cbn. apply IH. Qed.
Lemma names_some : forall a x, names (Some x) a = Some x.
Proof. induction a; intro x; [reflexivity|]. cbn. apply IHa. Qed.
Lemma room_app : forall a f b, room f (a ++ b) = room f a && room (names f a) b.
Proof. intros [|w [|w' a]] f b; destruct f; try (destruct b as [|? [|? ?]]); try reflexivity; cbn; rewrite ?names_some; reflexivity. Qed.

(** ** Words *)

Lemma split_none : forall w, ~ In 61 w -> split_equals w = (w, None).
Proof. induction w as [|c w IH]; intro H; [reflexivity|]. cbn [split_equals]. destruct (N.eqb_spec c 61) as [->|_]; [destruct H; left; reflexivity|]. rewrite IH by (intro K; apply H; right; exact K). reflexivity. Qed.
Lemma split_some : forall w v, ~ In 61 w -> split_equals (w ++ 61 :: v) = (w, Some v).
Proof. induction w as [|c w IH]; intros v H; [reflexivity|]. cbn [split_equals app]. destruct (N.eqb_spec c 61) as [->|_]; [destruct H; left; reflexivity|]. rewrite IH by (intro K; apply H; right; exact K). reflexivity. Qed.
Lemma split_inv : forall w a v, split_equals w = (a, v) -> ~ In 61 a /\ w = a ++ match v with Some x => 61 :: x | None => [] end.
Proof.
  induction w as [|c w IH]; intros a v H; cbn [split_equals] in H; [inversion H; split; [intros []|reflexivity]|].
  destruct (N.eqb_spec c 61) as [->|N]; [inversion H; subst; split; [intros []|reflexivity]|]. destruct (split_equals w) as [a' v'] eqn:E. inversion H; subst.
  destruct (IH a' v eq_refl) as [NI ->]. split; [intros [K|K]; [exact (N K)|exact (NI K)]|reflexivity].
Qed.
Lemma name_no_equals : forall name o, abbreviates name o -> ~ In 61 name.
Proof.
  intros name o (_ & (n & I & (r & B)) & _) K. assert (J : In 61 n) by (rewrite B; apply in_or_app; left; exact K). clear B K.
  cbn in I. repeat (destruct I as [I|I]; [inversion I; subst; cbn in J; intuition discriminate|]). destruct I.
Qed.
Lemma letters_no_equals : forall os letters, Forall2 (fun o c => In (o, c) option_letters) os letters -> ~ In 61 letters /\ ~ In 45 letters.
Proof.
  intros os letters H. induction H as [|o c os letters I H IH]; [split; intros []|].
  split; intros [K|K]; try tauto; subst c; cbn in I; intuition discriminate.
Qed.

Lemma switches_value : forall v b, switches v b <-> b = value_of (Some v).
Proof.
  intros v b. unfold switches, value_of. destruct v as [|c r].
  - split; [intro H; destruct b; [|reflexivity]; destruct (proj1 H eq_refl) as (? & ? & E & _); discriminate E|intros ->; split; [discriminate|intros (? & ? & E & _); discriminate E]].
  - assert (X : existsb (N.eqb c) (str "tTyY1") = true <-> exists c' r', c :: r = c' :: r' /\ In c' (str "tTyY1")).
    { rewrite existsb_exists. split; [intros (x & I & E); apply N.eqb_eq in E; subst x; exists c, r; auto|intros (c' & r' & E & I); inversion E; subst; exists c'; split; [exact I|apply N.eqb_refl]]. }
    rewrite <- X. destruct b, (existsb (N.eqb c) (str "tTyY1")); intuition congruence.
Qed.

Lemma do_letters_good : forall cap w os letters close, Forall2 (fun o c => In (o, c) option_letters) os letters -> forall first u v f p h ok sd,
  do_letters cfg cap w first letters close (ST u v f p h ok sd) =
  Ok (Go (ST (uses u (map (fun o => (o, value_of close)) os)) (sets v (map (fun o => (o, value_of close)) os)) f p h (ok && fits u (map (fun o => (o, value_of close)) os)) sd)).
Proof.
  intros cap w os letters close H. induction H as [|o c os letters I H IH]; intros first u v f p h ok sd; cbn [do_letters map uses sets fits].
  - rewrite andb_true_r. reflexivity.
  - cbn [a_grid ST]. rewrite (letter_G u v f o c I), do_arg_ST. cbn [bind]. rewrite IH, andb_assoc. reflexivity.
Qed.
Lemma do_letters_any : forall cap w close letters, Forall (fun c => 0 < c /\ c < 251) letters -> forall first u v f p h ok sd,
  (first = true -> is_number w = true -> p = O) ->
  do_letters cfg cap w first letters close (ST u v f p h ok sd) = Ok (Exit 0) \/
  exists u' v' ok', do_letters cfg cap w first letters close (ST u v f p h ok sd) = Ok (Go (ST u' v' f p h ok' sd)) /\
    (ok' = true -> ok = true /\ exists os, Forall2 (fun o c => In (o, c) option_letters) os letters).
Proof.
  intros cap w close letters H. induction H as [|c letters [L1 L2] H IH]; intros first u v f p h ok sd NU; cbn [do_letters].
  - right. exists u, v, ok. split; [reflexivity|]. intro K. split; [exact K|]. exists []. constructor.
  - cbn [a_grid ST]. pose proof (find_short_G u v f c L1 L2) as FS. destruct (find_short (G u v f) c 0) as [i|].
    + destruct FS as (o & -> & I). rewrite do_arg_ST. cbn [bind]. destruct (IH false (upd u o true) (upd v o (value_of close)) f p h (ok && negb (bad multi u o)) sd) as [E|(u' & v' & ok' & E & K)]; [discriminate| |]; rewrite E; [left; reflexivity|].
      right. exists u', v', ok'. split; [reflexivity|]. intro T. destruct (K T) as [K1 (os & K2)]. split; [destruct ok; [reflexivity|discriminate K1]|]. exists (o :: os). constructor; assumption.
    + destruct (c =? 63); [left; reflexivity|]. change (not_okay (ST u v f p h ok sd)) with (ST u v f p h false sd). cbn [a_queue ST].
      assert (GO : (if first && is_number w then match repeat (@None nat) p with None :: _ => UB | _ => do_letters cfg cap w false letters close (ST u v f p h false sd) end
        else do_letters cfg cap w false letters close (ST u v f p h false sd)) = do_letters cfg cap w false letters close (ST u v f p h false sd)).
      { destruct first; [|reflexivity]. destruct (is_number w); [|reflexivity]. rewrite (NU eq_refl eq_refl). reflexivity. }
      rewrite GO. destruct (IH false u v f p h false sd) as [E|(u' & v' & ok' & E & K)]; [discriminate|left; exact E|].
      right. exists u', v', ok'. split; [exact E|]. intro T. destruct (K T) as [K1 _]. discriminate K1.
Qed.

Lemma beq_false : forall a b : bytes, a <> b -> beq a b = false.
Proof. intros a b H. destruct (beq a b) eqn:E; [apply beq_true in E; contradiction|reflexivity]. Qed.
Lemma find_mand : forall u v f, find_unused (G u v f) ARGV_MAND 0 = match f with None => Some 15%nat | Some _ => None end.
Proof. intros u v [x|]; reflexivity. Qed.
Lemma find_maybe : forall u v f, find_unused (G u v f) ARGV_MAYBE 0 = None.
Proof. intros u v f. reflexivity. Qed.
Lemma absorb_ST : forall u v p h ok sd w, absorb 15 w (ST u v None p h ok sd) = Ok (ST u v (Some w) p h ok sd).
Proof. intros. reflexivity. Qed.

Lemma no_dash : forall c r s, c <> code "-" -> is_prefix (45 :: s) (c :: r) = false.
Proof. intros c r s N. cbn [is_prefix]. destruct (N.eqb_spec 45 c) as [K|K]; [subst c; destruct N; reflexivity|reflexivity]. Qed.
Lemma plain_word : forall cap file w last s, is_argument yw last w ->
  do_word cfg cap file w last s =
    match a_queue s with
    | x :: q =>
        let s := {| a_grid := a_grid s; a_queue := q; a_head := a_head s; a_okay := a_okay s; a_stdin := a_stdin s |} in
        match x with
        | None => go_on last (file w s)
        | Some i => let* s := string_to_value (Some w) i s in Ok (Go (last, s))
        end
    | [] =>
        match find_unused (a_grid s) ARGV_MAND 0 with
        | Some i => let* s := absorb i w s in Ok (Go (last, s))
        | None =>
            match find_unused (a_grid s) ARGV_MAYBE 0 with
            | Some i => let* s := absorb i w s in Ok (Go (last, s))
            | None => Ok (Go (last, not_okay s))
            end
        end
    end.
Proof.
  intros cap file w last s H. unfold do_word.
  assert (AW : argument_word w -> w <> str "--") by (intro A; destruct A as [->|[->|(c & r & N & ->)]]; try discriminate; intro K; inversion K; subst c; apply N; reflexivity).
  assert (E1 : beq w (str "--") && negb last = false).
  { destruct H as [H|[-> _]]; [|apply andb_false_r]. rewrite (beq_false _ _ (AW H)). reflexivity. }
  assert (E0 : beq w (str "--") && s_toggle cfg = false).
  { destruct H as [H|[_ H]]; [rewrite (beq_false _ _ (AW H)); reflexivity|]. rewrite <- YT. destruct (resumes yw); [|apply andb_false_r]. rewrite (beq_false _ _ (H eq_refl)). reflexivity. }
  assert (E2 : negb last && is_prefix (str "--") w = false).
  { destruct H as [H|[-> _]]; [|reflexivity]. apply andb_false_iff. right. destruct H as [->|[->|(c & r & N & ->)]]; try reflexivity. exact (no_dash c r [45] N). }
  assert (E3 : negb last && is_prefix (str "-") w && negb (beq w (str "-")) = false).
  { destruct H as [H|[-> _]]; [|reflexivity]. rewrite <- andb_assoc. apply andb_false_iff. right. destruct H as [->|[->|(c & r & N & ->)]]; try reflexivity. change (str "-") with [45]. rewrite (no_dash c r [] N). reflexivity. }
  rewrite E1, E0, E2, E3. reflexivity.
Qed.
Lemma word_arg : forall cap file w last u v f h ok sd, is_argument yw last w ->
  do_word cfg cap file w last (ST u v f 0 h ok sd) = Ok (Go (last, ST u v (names f [w]) 0 h (ok && room f [w]) sd)).
Proof.
  intros cap file w last u v f h ok sd H. rewrite plain_word by exact H. cbn [a_queue a_grid ST repeat]. rewrite find_mand. destruct f as [x|].
  - rewrite find_maybe. cbn [names room]. rewrite andb_false_r. reflexivity.
  - change {| a_grid := G u v None; a_queue := []; a_head := h; a_okay := ok; a_stdin := sd |} with (ST u v None 0 h ok sd). rewrite absorb_ST. cbn [bind names room]. rewrite andb_true_r. reflexivity.
Qed.
Lemma word_asked : forall cap file w last u v f p h ok sd, is_argument yw last w ->
  do_word cfg cap file w last (ST u v f (S p) h ok sd) = go_on last (file w (ST u v f p h ok sd)).
Proof. intros cap file w last u v f p h ok sd H. rewrite plain_word by exact H. reflexivity. Qed.

Lemma word_resume : forall cap file u v f p h ok sd, resumes yw = true -> do_word cfg cap file (str "--") true (ST u v f p h ok sd) = Ok (Go (false, ST u v f p h ok sd)).
Proof. intros. unfold do_word. rewrite <- YT, H. reflexivity. Qed.
Lemma word_end : forall cap file u v f p h ok sd, do_word cfg cap file (str "--") false (ST u v f p h ok sd) = Ok (Go (true, ST u v f p h ok sd)).
Proof. reflexivity. Qed.

(** A word with options: what do_word does, once it is split. *)
Lemma long_word : forall cap file name close u v f p h ok sd w, w = str "--" ++ name ++ match close with Some x => 61 :: x | None => [] end -> (close <> None -> values yw = true) -> ~ (values yw = true /\ In 61 name) -> w <> str "--" ->
  do_word cfg cap file w false (ST u v f p h ok sd) =
  match name with
  | [] => Ok (Go (false, ST u v f p h false sd))
  | _ =>
      match find_long (G u v f) name 0 None with
      | TwoMatches => Ok (Go (false, ST u v f p h false sd))
      | OneMatch i => let* s := do_arg cfg cap i close (ST u v f p h ok sd) in Ok (Go (false, s))
      | NoMatch =>
          if is_prefix name (str "argv-file") then
            match close with
            | Some path => go_on false (file path (ST u v f p h ok sd))
            | None => let* s := enqueue cap None (ST u v f p h ok sd) in Ok (Go (false, s))
            end
          else if existsb (is_prefix name) [str "usage"; str "help"; str "usage-short"; str "usage-long"; str "usage-all"; str "version"; str "argv-display"]
          then Ok (Exit 0)
          else Ok (Go (false, ST u v f p h false sd))
      end
  end.
Proof.
  intros cap file name close u v f p h ok sd w E CL N D. unfold do_word. rewrite (beq_false w (str "--") D). cbn [andb negb].
  assert (P : is_prefix (str "--") w = true) by (subst w; apply is_prefix_app). rewrite P.
  assert (C : close_value cfg w = (str "--" ++ name, close)).
  { unfold close_value. rewrite <- YC. subst w. destruct (values yw); [|destruct close as [x|]; [discriminate CL; discriminate|rewrite app_nil_r; reflexivity]].
    assert (NI : ~ In 61 (str "--" ++ name)) by (intros [K|[K|K]]; try discriminate K; apply N; auto).
    destruct close as [x|]; [rewrite app_assoc; apply split_some; exact NI|rewrite app_nil_r; apply split_none; exact NI]. }
  rewrite C. change (skipn 2 (str "--" ++ name)) with name. reflexivity.
Qed.
Lemma short_word : forall cap file letters close u v f p h ok sd w, w = str "-" ++ letters ++ match close with Some x => 61 :: x | None => [] end -> (close <> None -> values yw = true) -> ~ (values yw = true /\ In 61 letters) ->
  w <> str "-" -> (forall r, letters <> 45 :: r) ->
  do_word cfg cap file w false (ST u v f p h ok sd) =
  match letters with
  | [] => Ok (Go (false, ST u v f p h false sd))
  | _ => go_on false (do_letters cfg cap (str "-" ++ letters) true letters close (ST u v f p h ok sd))
  end.
Proof.
  intros cap file letters close u v f p h ok sd w E CL N D H. unfold do_word.
  assert (P0 : is_prefix (str "--") w = false).
  { destruct (is_prefix (str "--") w) eqn:K; [|reflexivity]. apply is_prefix_spec in K. destruct K as (s & K). rewrite E in K. inversion K as [K']. destruct letters as [|c r].
    - destruct close; discriminate K'. - inversion K'. subst c. destruct (H r eq_refl). }
  assert (B : beq w (str "--") = false) by (apply beq_false; intros ->; discriminate P0). rewrite B. cbn [andb negb]. rewrite P0.
  assert (P : is_prefix (str "-") w = true) by (subst w; apply is_prefix_app). rewrite P, (beq_false w (str "-") D). cbn [andb negb].
  assert (C : close_value cfg w = (str "-" ++ letters, close)).
  { unfold close_value. rewrite <- YC. subst w. destruct (values yw); [|destruct close as [x|]; [discriminate CL; discriminate|rewrite app_nil_r; reflexivity]].
    assert (NI : ~ In 61 (str "-" ++ letters)) by (intros [K|K]; try discriminate K; apply N; auto).
    destruct close as [x|]; [rewrite app_assoc; apply split_some; exact NI|rewrite app_nil_r; apply split_none; exact NI]. }
  rewrite C. change (skipn 1 (str "-" ++ letters)) with letters. destruct letters; reflexivity.
Qed.

Lemma word_option : forall cap file w x u v f p h ok sd, option_word yw w x ->
  do_word cfg cap file w false (ST u v f p h ok sd) = Ok (Go (false, ST (uses u x) (sets v x) f p h (ok && fits u x) sd)).
Proof.
  intros cap file w x u v f p h ok sd H.
  assert (LW : forall os letters close, (close <> None -> values yw = true) -> os <> [] -> Forall2 (fun o c => In (o, c) option_letters) os letters -> forall w, w = str "-" ++ letters ++ match close with Some x => 61 :: x | None => [] end ->
    do_word cfg cap file w false (ST u v f p h ok sd) =
    Ok (Go (false, ST (uses u (map (fun o => (o, value_of close)) os)) (sets v (map (fun o => (o, value_of close)) os)) f p h (ok && fits u (map (fun o => (o, value_of close)) os)) sd))).
  { intros os letters close CL NE F w0 E. destruct (letters_no_equals _ _ F) as [N1 N2]. destruct letters as [|c r]; [inversion F; subst; contradiction|].
    rewrite (short_word cap file (c :: r) close u v f p h ok sd w0 E CL (fun K => N1 (proj2 K))).
    - rewrite (do_letters_good cap _ os (c :: r) close F). reflexivity.
    - rewrite E. discriminate.
    - intros r' K. inversion K. subst c. apply N2. left. reflexivity. }
  assert (NW : forall o name close, (close <> None -> values yw = true) -> abbreviates name o -> forall w, w = str "--" ++ name ++ match close with Some x => 61 :: x | None => [] end ->
    do_word cfg cap file w false (ST u v f p h ok sd) = Ok (Go (false, ST (upd u o true) (upd v o (value_of close)) f p h (ok && (negb (bad multi u o) && true)) sd))).
  { intros o name close CL A w0 E. destruct name as [|c r]; [destruct A as [A _]; contradiction|].
    rewrite (long_word cap file (c :: r) close u v f p h ok sd w0 E CL (fun K => name_no_equals _ _ A (proj2 K))) by (rewrite E; discriminate).
    rewrite (find_long_abbr u v f _ o A), do_arg_ST, andb_true_r. reflexivity. }
  destruct H as [os letters NE F|os letters value b VV NE F SW|o name A|o name value b VV A SW].
  - apply (LW os letters None (fun K => False_ind _ (K eq_refl)) NE F). rewrite app_nil_r. reflexivity.
  - apply switches_value in SW. subst b. apply (LW os letters (Some value) (fun _ => VV) NE F). reflexivity.
  - apply (NW o name None (fun K => False_ind _ (K eq_refl)) A). rewrite app_nil_r. reflexivity.
  - apply switches_value in SW. subst b. apply (NW o name (Some value) (fun _ => VV) A). reflexivity.
Qed.

Lemma file_name_find : forall u v f name, file_name name -> ~ In 61 name /\ name <> [] /\ find_long (G u v f) name 0 None = NoMatch /\ is_prefix name (str "argv-file") = true.
Proof.
  intros u v f name [NE B]. assert (P : is_prefix name (str "argv-file") = true) by (apply begins_prefix; exact B). destruct B as (rest & B).
  split; [|split; [exact NE|split; [|exact P]]].
  - intro K. assert (J : In 61 (str "argv-file")) by (rewrite B; apply in_or_app; left; exact K). cbn in J. intuition discriminate.
  - destruct name as [|c r]; [contradiction|]. inversion B. subst c. reflexivity.
Qed.
Lemma word_file : forall cap file name path u v f p h ok sd, values yw = true -> file_name name ->
  do_word cfg cap file (str "--" ++ name ++ str "=" ++ path) false (ST u v f p h ok sd) = go_on false (file path (ST u v f p h ok sd)).
Proof.
  intros cap file name path u v f p h ok sd VV F. destruct (file_name_find u v f name F) as (N1 & N2 & N3 & N4).
  rewrite (long_word cap file name (Some path) u v f p h ok sd (str "--" ++ name ++ str "=" ++ path) eq_refl (fun _ => VV) (fun K => N1 (proj2 K))) by (destruct name; [contradiction|discriminate]). destruct name; [contradiction|]. rewrite N3, N4. reflexivity.
Qed.
Lemma word_ask : forall cap file name u v f p h ok sd, file_name name -> h < cap ->
  do_word cfg cap file (str "--" ++ name) false (ST u v f p h ok sd) = Ok (Go (false, ST u v f (S p) (h + 1) ok sd)).
Proof.
  intros cap file name u v f p h ok sd F L. destruct (file_name_find u v f name F) as (N1 & N2 & N3 & N4).
  rewrite (long_word cap file name None u v f p h ok sd) by (first [rewrite app_nil_r; reflexivity|intro K; destruct (K eq_refl)|intros [_ K]; exact (N1 K)|destruct name; [contradiction|discriminate]]). destruct name; [contradiction|]. rewrite N3, N4.
  unfold enqueue. cbn [a_head ST]. assert (E : h <? cap = true) by lia. rewrite E. cbn [bind]. unfold ST. cbn [a_grid a_queue a_okay a_stdin].
  replace (repeat None p ++ [@None nat]) with (repeat (@None nat) (S p)); [reflexivity|]. cbn [repeat]. apply repeat_cons.
Qed.

Lemma close_split : forall r, exists name close, r = name ++ match close with Some x => 61 :: x | None => [] end /\ (close <> None -> values yw = true) /\ ~ (values yw = true /\ In 61 name).
Proof.
  intro r. destruct (values yw); [|exists r, None; rewrite app_nil_r; split; [reflexivity|]; split; [intro K; destruct (K eq_refl)|intros [K _]; discriminate K]].
  destruct (split_equals r) as [name close] eqn:SE. destruct (split_inv _ _ _ SE) as [NI ER]. exists name, close. split; [exact ER|]. split; [reflexivity|intros [_ K]; exact (NI K)].
Qed.
Lemma word_any : forall cap file w u v f p h ok sd, ordinary w -> p = O \/ ~ number_word w ->
  do_word cfg cap file w false (ST u v f p h ok sd) = Ok (Exit 0) \/ w = str "--" \/ argument_word w \/
  (exists name path, values yw = true /\ file_name name /\ w = str "--" ++ name ++ str "=" ++ path) \/ asks_file w \/
  exists u' v' ok', do_word cfg cap file w false (ST u v f p h ok sd) = Ok (Go (false, ST u' v' f p h ok' sd)) /\ (ok' = true -> ok = true /\ exists x, option_word yw w x).
Proof.
  intros cap file w u v f p h ok sd [(c & r & N & ->)|B] NW; [right; right; left; right; right; exists c, r; auto|].
  destruct w as [|c r]; [right; right; left; left; reflexivity|]. destruct (N.eq_dec c 45) as [->|N]; [|right; right; left; right; right; exists c, r; auto].
  destruct r as [|c r]; [right; right; left; right; left; reflexivity|]. destruct (N.eq_dec c 45) as [->|N].
  - destruct r as [|c' r'] eqn:R; [right; left; reflexivity|]. rewrite <- R in *. assert (NR : r <> []) by (rewrite R; discriminate). clear c' r' R.
    destruct (close_split r) as (name & close & ER & CL & NI).
    assert (EW : 45 :: 45 :: r = str "--" ++ name ++ match close with Some x => 61 :: x | None => [] end) by (rewrite <- ER; reflexivity).
    assert (DW : 45 :: 45 :: r <> str "--") by (intro K; inversion K; contradiction).
    pose proof (long_word cap file name close u v f p h ok sd _ EW CL NI DW) as L. rewrite L. clear L. destruct name as [|n0 name'] eqn:EN.
    + do 5 right. exists u, v, false. split; [reflexivity|discriminate].
    + rewrite <- EN in *. assert (NN : name <> []) by (rewrite EN; discriminate).
      pose proof (find_long_G u v f name NN) as FL. destruct (find_long (G u v f) name 0 None) as [|i|].
      * destruct (is_prefix name (str "argv-file")) eqn:PF.
        { apply begins_prefix in PF. right. right. right. destruct close as [path|]; [left; exists name, path; split; [apply CL; discriminate|]|right; left; exists name]; (split; [split; assumption|]); rewrite EW; [|rewrite app_nil_r]; reflexivity. }
        destruct (existsb (is_prefix name) _); [left; reflexivity|]. do 5 right. exists u, v, false. split; [reflexivity|discriminate].
      * destruct FL as (o & -> & AB). rewrite do_arg_ST. do 5 right. eexists _, _, _. split; [reflexivity|]. intro K. split; [destruct ok; [reflexivity|discriminate K]|].
        rewrite EW. destruct close as [x|]; [exists [(o, value_of (Some x))]; apply ow_name_value; [apply CL; discriminate|exact AB|apply switches_value; reflexivity]|].
        exists [(o, true)]. rewrite app_nil_r. apply ow_name. exact AB.
      * do 5 right. exists u, v, false. split; [reflexivity|discriminate].
  - destruct (close_split (c :: r)) as (letters & close & ER & CL & NI).
    assert (EW : 45 :: c :: r = str "-" ++ letters ++ match close with Some x => 61 :: x | None => [] end) by (rewrite <- ER; reflexivity).
    assert (H1 : 45 :: c :: r <> str "-") by discriminate. assert (H2 : forall r', letters <> 45 :: r') by (intros r' K; rewrite K in ER; inversion ER; contradiction).
    pose proof (short_word cap file letters close u v f p h ok sd _ EW CL NI H1 H2) as L. rewrite L. clear L. destruct letters as [|l0 letters'] eqn:EL.
    + do 5 right. exists u, v, false. split; [reflexivity|discriminate].
    + rewrite <- EL in *. assert (FB : Forall (fun c => 0 < c /\ c < 251) letters).
      { rewrite ER in B. inversion B as [|? ? _ B']. apply Forall_app in B'. apply B'. }
      assert (NU : true = true -> is_number (str "-" ++ letters) = true -> p = O).
      { intros _ IN. destruct NW as [Z|NW]; [exact Z|]. exfalso. apply NW. exists l0, letters', (match close with Some x => 61 :: x | None => [] end). rewrite EW, EL. split; [reflexivity|].
        unfold is_number in IN. cbn [app] in IN. change (str "-" ++ letters) with (45 :: letters) in IN. cbn [forallb] in IN. apply andb_true_iff in IN. destruct IN as [_ IN]. rewrite EL in IN. cbn [forallb] in IN. apply andb_true_iff in IN. destruct IN as [I1 I2].
        assert (M : forall c, existsb (N.eqb c) (str "0123456789+-.") = true -> In c (str "0123456789+.-")).
        { intros x X. apply existsb_exists in X. destruct X as (y & Y1 & Y2). apply N.eqb_eq in Y2. subst y. cbn in Y1 |- *. tauto. }
        split; [|split].
        - apply M in I1. cbn in I1. assert (l0 <> 45) by (intros ->; exact (H2 letters' EL)). cbn. intuition congruence.
        - apply Forall_forall. intros x X. rewrite forallb_forall in I2. apply M, I2, X.
        - destruct close as [x|]; [right; exists x; reflexivity|left; reflexivity]. }
      destruct (do_letters_any cap (str "-" ++ letters) close letters FB true u v f p h ok sd NU) as [E|(u' & v' & ok' & E & K)]; rewrite E; [left; reflexivity|].
      do 5 right. exists u', v', ok'. split; [reflexivity|]. intro T. destruct (K T) as [K1 (os & F)]. split; [exact K1|].
      assert (NE : os <> []) by (intros ->; rewrite EL in F; inversion F).
      rewrite EW. destruct close as [x|].
      * exists (map (fun o => (o, value_of (Some x))) os). apply ow_letters_value; [apply CL; discriminate|exact NE|exact F|apply switches_value; reflexivity].
      * exists (map (fun o => (o, true)) os). rewrite app_nil_r. apply ow_letters; assumption.
Qed.

(** ** Lists of words *)

Definition FA (cap : N) (files : bytes -> option bytes) (d : nat) := file_args cfg cap files d.
Lemma file_opened : forall cap files d path u v f p h ok sd text sd1, contents files sd path text sd1 ->
  FA cap files (S d) path (ST u v f p h ok sd) = do_words cfg cap (FA cap files d) (file_lines text) false (ST u v f p h ok sd1).
Proof.
  intros cap files d path u v f p h ok sd text sd1 C. unfold FA at 1. cbn [file_args]. destruct C as [(-> & -> & ->)|(N & E & ->)].
  - reflexivity. - rewrite (beq_false _ _ N), E. reflexivity.
Qed.
Lemma file_refused : forall cap files d path s, (d = O \/ (path <> str "-" /\ files path = None)) -> FA cap files d path s = Ok (Exit 1).
Proof. intros cap files d path s [->|[N E]]; [reflexivity|]. unfold FA. destruct d; [reflexivity|]. cbn [file_args]. rewrite (beq_false _ _ N), E. reflexivity. Qed.

Lemma words_good : forall cap files d e p sd ws o a p' sd' k, reads yw files d e p sd ws o a p' sd' k -> forall u v f h ok, h + k <= cap ->
  do_words cfg cap (FA cap files d) ws e (ST u v f p h ok sd) = Ok (Go (ST (uses u o) (sets v o) (names f a) p' (h + k) (ok && fits u o && room f a) sd')).
Proof.
  intros cap files d e p sd ws o a p' sd' k H.
  induction H as [d e p sd|d p sd ws o a p' sd' k H IH|d p sd ws o a p' sd' k RS H IH|d e sd w ws o a p' sd' k A H IH|d p sd w x ws o a p' sd' k X H IH
    |d p sd name path text sd1 lines o1 a1 p1 sd2 k1 ws o2 a2 p2 sd3 k2 VV F C T H1 IH1 H2 IH2|d p sd name ws o a p' sd' k F H IH
    |d e p sd path text sd1 lines o1 a1 p1 sd2 k1 ws o2 a2 p2 sd3 k2 A C T H1 IH1 H2 IH2]; intros u v f h ok LE; cbn [do_words].
  - cbn. rewrite N.add_0_r. destruct f; rewrite !andb_true_r; reflexivity.
  - rewrite word_end. cbn [bind]. apply IH. exact LE.
  - rewrite word_resume by exact RS. cbn [bind]. apply IH. exact LE.
  - rewrite word_arg by exact A. cbn [bind]. rewrite IH by exact LE. change (w :: a) with ([w] ++ a). rewrite room_app, names_app. do 3 f_equal.
    destruct ok, (room f [w]), (fits u o); reflexivity.
  - rewrite (word_option _ _ _ _ _ _ _ _ _ _ _ X). cbn [bind]. rewrite IH, uses_app, sets_app, fits_app by exact LE. do 3 f_equal. rewrite andb_assoc. reflexivity.
  - rewrite (word_file _ _ _ _ _ _ _ _ _ _ _ VV F), (file_opened _ _ _ _ _ _ _ _ _ _ _ _ _ C). apply text_lines in T. rewrite T, IH1 by lia. cbn [go_on bind]. rewrite IH2 by lia.
    rewrite uses_app, sets_app, fits_app, names_app, room_app, N.add_assoc. do 3 f_equal.
    destruct ok, (fits u o1), (room f a1), (fits (uses u o1) o2), (room (names f a1) a2); reflexivity.
  - rewrite word_ask by (first [exact F|lia]). cbn [bind]. rewrite IH by lia. rewrite N.add_assoc. reflexivity.
  - rewrite word_asked by exact A. rewrite (file_opened _ _ _ _ _ _ _ _ _ _ _ _ _ C). apply text_lines in T. rewrite T, IH1 by lia. cbn [go_on bind]. rewrite IH2 by lia.
    rewrite uses_app, sets_app, fits_app, names_app, room_app, N.add_assoc. do 3 f_equal.
    destruct ok, (fits u o1), (room f a1), (fits (uses u o1) o2), (room (names f a1) a2); reflexivity.
Qed.

(** Words that may be anything ordinary.  [num]: words like "-5" are among them, and then
    nothing asks for a file. *)
Definition good_word (num : bool) (w : bytes) : Prop := ordinary w /\ (if num then ~ asks_file w else ~ number_word w).
Definition good_line (num : bool) (w : bytes) : Prop := good_word num w /\ ~ asks_file w.
Definition good_text (num : bool) (text : bytes) : Prop := Forall (good_line num) (file_lines text).

Lemma contents_or : forall files sd path, (exists text sd1, contents files sd path text sd1 /\ (text = sd /\ sd1 = [] \/ (files path = Some text /\ sd1 = sd))) \/ (path <> str "-" /\ files path = None).
Proof.
  intros files sd path. destruct (beq path (str "-")) eqn:B.
  - apply beq_true in B. left. exists sd, []. split; [left; auto|left; auto].
  - assert (N : path <> str "-") by (intros ->; discriminate B). destruct (files path) as [text|] eqn:E; [|right; auto]. left. exists text, sd. split; [right; auto|right; auto].
Qed.

(** How a list of words can end. *)
Definition ends (num : bool) (files : bytes -> option bytes) (d : nat) (e : bool) (p : nat) (sd : bytes) (ws : list bytes) (h : N) (ok : bool) (n : N) (r : res (progress astate)) : Prop :=
  r = Ok (Exit 0) \/ r = Ok (Exit 1) \/
  exists u v f p' h' ok' sd', r = Ok (Go (ST u v f p' h' ok' sd')) /\ good_text num sd' /\ (num = true -> p' = O) /\ h' <= h + n /\
    (ok' = true -> ok = true /\ exists o a k, reads yw files d e p sd ws o a p' sd' k /\ h' = h + k).

Lemma words_any : forall num cap files, (forall path text, files path = Some text -> good_text num text) -> forall d ws e p sd u v f h ok (n : N),
  good_text num sd -> (num = true -> p = O) -> h + n <= cap ->
  (Forall (good_line num) ws \/ (Forall (good_word num) ws /\ N.of_nat (length ws) <= n)) ->
  ends num files d e p sd ws h ok n (do_words cfg cap (FA cap files d) ws e (ST u v f p h ok sd)).
Proof.
  intros num cap files GF d. induction d as [d IHd] using (well_founded_induction Wf_nat.lt_wf).
  assert (OPEN : forall path p sd u v f h ok (n : N), good_text num sd -> (num = true -> p = O) -> h + n <= cap ->
    FA cap files d path (ST u v f p h ok sd) = Ok (Exit 0) \/ FA cap files d path (ST u v f p h ok sd) = Ok (Exit 1) \/
    exists u' v' f' p' h' ok' sd', FA cap files d path (ST u v f p h ok sd) = Ok (Go (ST u' v' f' p' h' ok' sd')) /\ good_text num sd' /\ (num = true -> p' = O) /\ h' <= h /\
      (ok' = true -> ok = true /\ exists d' text sd1 lines o a k, d = S d' /\ contents files sd path text sd1 /\ text_words text lines /\ reads yw files d' false p sd1 lines o a p' sd' k /\ h' = h + k)).
  { intros path p sd u v f h ok n GT PZ LE. destruct d as [|d]; [right; left; apply file_refused; left; reflexivity|].
    destruct (contents_or files sd path) as [(text & sd1 & C & D)|[N E]]; [|right; left; apply file_refused; right; auto].
    assert (G1 : good_text num text /\ good_text num sd1) by (destruct D as [[-> ->]|[E ->]]; [split; [exact GT|constructor]|split; [exact (GF _ _ E)|exact GT]]). destruct G1 as [G1 G2].
    rewrite (file_opened _ _ _ _ _ _ _ _ _ _ _ _ _ C).
    destruct (IHd d (Nat.lt_succ_diag_r d) (file_lines text) false p sd1 u v f h ok 0 G2 PZ) as [E|[E|(u' & v' & f' & p' & h' & ok' & sd' & E & E1 & E2 & E3 & E4)]]; [lia|left; exact G1|left; exact E|right; left; exact E|].
    right. right. exists u', v', f', p', h', ok', sd'. split; [exact E|]. split; [exact E1|]. split; [exact E2|]. split; [lia|]. intro T. destruct (E4 T) as [K (o & a & k & R & Hk)].
    split; [exact K|]. exists d, text, sd1, (file_lines text), o, a, k. split; [reflexivity|]. split; [exact C|]. split; [apply text_lines; reflexivity|]. split; assumption. }
  induction ws as [|w ws IH]; intros e p sd u v f h ok n GT PZ LE GW; cbn [do_words].
  - right. right. exists u, v, f, p, h, ok, sd. split; [reflexivity|]. split; [exact GT|]. split; [exact PZ|]. split; [lia|]. intro T. split; [exact T|]. exists [], [], 0. split; [constructor|lia].
  - assert (GW' : Forall (good_line num) ws \/ (Forall (good_word num) ws /\ N.of_nat (length ws) <= n)).
    { destruct GW as [GW|[GW L]]; [left; inversion GW; assumption|right; inversion GW; split; [assumption|cbn [length] in L; lia]]. }
    assert (GO : good_word num w) by (destruct GW as [GW|[GW _]]; inversion GW as [|? ? G1 G2]; [exact (proj1 G1)|exact G1]).
    assert (ARG : is_argument yw e w -> ends num files d e p sd (w :: ws) h ok n
      (let* p0 := do_word cfg cap (FA cap files d) w e (ST u v f p h ok sd) in match p0 with Exit c => Ok (Exit c) | Go (last, s) => do_words cfg cap (FA cap files d) ws last s end)).
    { intro A. destruct p as [|p].
      - rewrite word_arg by exact A. cbn [bind]. destruct (IH e O sd u v (names f [w]) h (ok && room f [w]) n GT PZ LE GW') as [E|[E|(u' & v' & f' & p' & h' & ok' & sd' & E & E1 & E2 & E3 & E4)]]; rewrite E; [left; reflexivity|right; left; reflexivity|].
        right. right. exists u', v', f', p', h', ok', sd'. split; [reflexivity|]. split; [exact E1|]. split; [exact E2|]. split; [exact E3|]. intro T. destruct (E4 T) as [K (o & a & k & R & Hk)].
        split; [destruct ok; [reflexivity|discriminate K]|]. exists o, (w :: a), k. split; [apply rd_arg; assumption|exact Hk].
      - rewrite word_asked by exact A. assert (PZ' : num = true -> p = O) by (intro Z; specialize (PZ Z); discriminate PZ).
        destruct (OPEN w p sd u v f h ok n GT PZ' LE) as [E|[E|(u' & v' & f' & p' & h' & ok' & sd' & E & E1 & E2 & E3 & E4)]]; rewrite E; [left; reflexivity|right; left; reflexivity|].
        cbn [go_on bind]. assert (LE' : h' + n <= cap) by lia. destruct (IH e p' sd' u' v' f' h' ok' n E1 E2 LE' GW') as [X|[X|(u2 & v2 & f2 & p2 & h2 & ok2 & sd2 & X & X1 & X2 & X3 & X4)]]; rewrite X; [left; reflexivity|right; left; reflexivity|].
        right. right. exists u2, v2, f2, p2, h2, ok2, sd2. split; [reflexivity|]. split; [exact X1|]. split; [exact X2|]. split; [lia|]. intro T. destruct (X4 T) as [K (o2 & a2 & k2 & R2 & Hk2)].
        destruct (E4 K) as [K' (d' & text & sd1 & lines & o1 & a1 & k1 & -> & C & TW & R1 & Hk1)]. split; [exact K'|]. exists (o1 ++ o2), (a1 ++ a2), (k1 + k2).
        split; [eapply rd_asked; eassumption|lia]. }
    assert (DASH : forall e1 e2, do_word cfg cap (FA cap files d) (str "--") e1 (ST u v f p h ok sd) = Ok (Go (e2, ST u v f p h ok sd)) ->
      (forall o a p' sd' k, reads yw files d e2 p sd ws o a p' sd' k -> reads yw files d e1 p sd (str "--" :: ws) o a p' sd' k) -> ends num files d e1 p sd (str "--" :: ws) h ok n
      (let* p0 := do_word cfg cap (FA cap files d) (str "--") e1 (ST u v f p h ok sd) in match p0 with Exit c => Ok (Exit c) | Go (last, s) => do_words cfg cap (FA cap files d) ws last s end)).
    { intros e1 e2 W RD. rewrite W. cbn [bind]. destruct (IH e2 p sd u v f h ok n GT PZ LE GW') as [E|[E|(u' & v' & f' & p' & h' & ok' & sd' & E & E1 & E2 & E3 & E4)]]; rewrite E; [left; reflexivity|right; left; reflexivity|].
      right. right. exists u', v', f', p', h', ok', sd'. split; [reflexivity|]. split; [exact E1|]. split; [exact E2|]. split; [exact E3|]. intro T. destruct (E4 T) as [K (o & a & k & R & Hk)].
      split; [exact K|]. exists o, a, k. split; [apply RD; exact R|exact Hk]. }
    destruct e.
    { assert (RY : resumes yw = true \/ resumes yw = false) by (destruct (resumes yw); auto). destruct RY as [RY|RY]; [|apply ARG; right; split; [reflexivity|intro K; congruence]]. destruct (beq w (str "--")) eqn:BW.
      - apply beq_true in BW. subst w. apply (DASH true false); [apply word_resume; exact RY|]. intros. apply rd_resume; assumption.
      - apply ARG. right. split; [reflexivity|]. intros _ ->. discriminate BW. }
    assert (PN : p = O \/ ~ number_word w). { destruct GO as [_ GO]. destruct num; [left; apply PZ; reflexivity|right; exact GO]. }
    destruct (word_any cap (FA cap files d) w u v f p h ok sd (proj1 GO) PN) as [E|[->|[A|[(name & path & VV & F & ->)|[(name & F & ->)|(u' & v' & ok' & E & K)]]]]].
    + rewrite E. left. reflexivity.
    + apply (DASH false true); [reflexivity|]. intros. apply rd_end; assumption.
    + apply ARG. left. exact A.
    + rewrite (word_file _ _ _ _ _ _ _ _ _ _ _ VV F). destruct (OPEN path p sd u v f h ok n GT PZ LE) as [E|[E|(u' & v' & f' & p' & h' & ok' & sd' & E & E1 & E2 & E3 & E4)]]; rewrite E; [left; reflexivity|right; left; reflexivity|].
      cbn [go_on bind]. assert (LE' : h' + n <= cap) by lia. destruct (IH false p' sd' u' v' f' h' ok' n E1 E2 LE' GW') as [X|[X|(u2 & v2 & f2 & p2 & h2 & ok2 & sd2 & X & X1 & X2 & X3 & X4)]]; rewrite X; [left; reflexivity|right; left; reflexivity|].
      right. right. exists u2, v2, f2, p2, h2, ok2, sd2. split; [reflexivity|]. split; [exact X1|]. split; [exact X2|]. split; [lia|]. intro T. destruct (X4 T) as [K (o2 & a2 & k2 & R2 & Hk2)].
      destruct (E4 K) as [K' (d' & text & sd1 & lines & o1 & a1 & k1 & -> & C & TW & R1 & Hk1)]. split; [exact K'|]. exists (o1 ++ o2), (a1 ++ a2), (k1 + k2).
      split; [eapply rd_file; eassumption|lia].
    + assert (AF : asks_file (str "--" ++ name)) by (exists name; split; [exact F|reflexivity]).
      assert (NB : num = false) by (destruct num; [destruct GO as [_ GO]; contradiction|reflexivity]).
      destruct GW as [GW|[GW L]]; [inversion GW as [|? ? [_ G1] _]; contradiction|]. cbn [length] in L.
      rewrite word_ask by (first [exact F|lia]). cbn [bind].
      assert (LE' : (h + 1) + (n - 1) <= cap) by lia. assert (GW2 : Forall (good_line num) ws \/ (Forall (good_word num) ws /\ N.of_nat (length ws) <= n - 1)) by (right; inversion GW; split; [assumption|lia]).
      assert (PZ' : num = true -> S p = O) by (rewrite NB; discriminate).
      destruct (IH false (S p) sd u v f (h + 1) ok (n - 1) GT PZ' LE' GW2) as [E|[E|(u' & v' & f' & p' & h' & ok' & sd' & E & E1 & E2 & E3 & E4)]]; rewrite E; [left; reflexivity|right; left; reflexivity|].
      right. right. exists u', v', f', p', h', ok', sd'. split; [reflexivity|]. split; [exact E1|]. split; [exact E2|]. split; [lia|]. intro T. destruct (E4 T) as [K (o & a & k & R & Hk)].
      split; [exact K|]. exists o, a, (1 + k). split; [apply rd_ask; assumption|lia].
    + rewrite E. cbn [bind]. destruct (IH false p sd u' v' f h ok' n GT PZ LE GW') as [E'|[E'|(u2 & v2 & f2 & p2 & h2 & ok2 & sd2 & E' & X1 & X2 & X3 & X4)]]; rewrite E'; [left; reflexivity|right; left; reflexivity|].
      right. right. exists u2, v2, f2, p2, h2, ok2, sd2. split; [reflexivity|]. split; [exact X1|]. split; [exact X2|]. split; [exact X3|]. intro T. destruct (X4 T) as [K1 (o & a & k & R & Hk)]. destruct (K K1) as [K2 (x & X)].
      split; [exact K2|]. exists (x ++ o), a, k. split; [apply rd_option; assumption|exact Hk].
Qed.

(** ** The final checks *)

Lemma check_xor_G : forall u v f, check_xor (S (length (G u v f))) (G u v f) 0 = Ok (negb (existsb u all_sections)).
Proof.
  intros u v f. cbv -[str]. destruct (u Rrset), (u Rdata), (u RrsetNames), (u RdataNames), (u TimeRange), (u Version), (u SourceInfo); reflexivity.
Qed.
Lemma check_mand_G : forall u v f, check_mand (G u v f) = match f with None => true | Some _ => false end.
Proof. intros u v [x|]; reflexivity. Qed.

(** ** What the options mean *)

Lemma uses_used : forall l u o, uses u l o = true <-> u o = true \/ used o l.
Proof.
  induction l as [|[o' b] l IH]; intros u o; cbn [uses].
  - split; [tauto|intros [H|(b & [])]; exact H].
  - rewrite IH. unfold upd. destruct (deq o o') eqn:D.
    + apply deq_spec in D. subst o'. split; [intros _; right; exists b; left; reflexivity|intros _; left; reflexivity].
    + assert (o <> o') by (intros ->; rewrite deq_refl in D; discriminate D). unfold used. split.
      * intros [H'|(b' & I)]; [left; exact H'|right; exists b'; right; exact I].
      * intros [H'|(b' & [E|I])]; [left; exact H'|inversion E; subst; contradiction|right; exists b'; exact I].
Qed.
Lemma sets_setting : forall l v o, (exists before after, l = before ++ (o, sets v l o) :: after /\ ~ used o after) \/ (~ used o l /\ sets v l o = v o).
Proof.
  induction l as [|[o' b] l IH]; intros v o; cbn [sets].
  - right. split; [intros (b & [])|reflexivity].
  - destruct (IH (upd v o' b) o) as [(x & y & E & N)|[N E]].
    + left. exists ((o', b) :: x), y. split; [rewrite E at 1; reflexivity|exact N].
    + rewrite E. unfold upd. destruct (deq o o') eqn:D.
      * apply deq_spec in D. subst o'. left. exists [], l. split; [reflexivity|exact N].
      * right. split; [|reflexivity]. intros (b' & [K|K]); [inversion K; subst; rewrite deq_refl in D; discriminate D|apply N; exists b'; exact K].
Qed.
Lemma setting_fun : forall l o b b', setting o l b -> setting o l b' -> b' = b.
Proof.
  intros l o b b' [(x & y & E & N)|[N ->]] [(x' & y' & E' & N')|[N' ->]].
  - subst l. revert x' E'. induction x as [|z x IH]; intros [|z' x'] E'; cbn [app] in E'; inversion E'; subst.
    + reflexivity.
    + exfalso. apply N. exists b'. apply in_or_app. right. left. reflexivity.
    + exfalso. apply N'. exists b. apply in_or_app. right. left. reflexivity.
    + apply (IH x' H1).
  - exfalso. apply N'. exists b. subst l. apply in_or_app. right. left. reflexivity.
  - exfalso. apply N. exists b'. subst l. apply in_or_app. right. left. reflexivity.
  - reflexivity.
Qed.
Lemma setting_sets : forall l o, setting o l (sets (fun _ => false) l o).
Proof. intros l o. destruct (sets_setting l (fun _ => false) o) as [H|[N ->]]; [left; exact H|right; split; [exact N|reflexivity]]. Qed.

Lemma section_spec : forall o, section o = true <-> is_section o.
Proof. intro o. unfold is_section. destruct o; cbn; split; intro H; try discriminate; try reflexivity; try (split; discriminate); destruct H; contradiction. Qed.
Lemma in_sections : forall o, In o all_sections <-> is_section o.
Proof. intro o. rewrite <- section_spec. destruct o; cbn; intuition discriminate. Qed.
Definition at_most_one (u : dopt -> bool) : Prop := forall s s', is_section s -> is_section s' -> u s = true -> u s' = true -> s' = s.
Lemma conflict_spec : forall u o, conflict u o = true <-> is_section o /\ exists s, is_section s /\ s <> o /\ u s = true.
Proof.
  intros u o. unfold conflict. rewrite andb_true_iff, section_spec, existsb_exists. split; intros [H (s & K)]; (split; [exact H|]); exists s; rewrite in_sections in *.
  - destruct K as [K1 K2]. apply andb_true_iff in K2. destruct K2 as [K2 K3]. split; [exact K1|]. split; [|exact K3]. intros ->. rewrite deq_refl in K2. discriminate K2.
  - destruct K as (K1 & K2 & K3). split; [exact K1|]. rewrite K3, andb_true_r. destruct (deq s o) eqn:D; [apply deq_spec in D; contradiction|reflexivity].
Qed.
Fixpoint fits0 (u : dopt -> bool) (l : list (dopt * bool)) : bool := match l with [] => true | (o, _) :: r => negb (conflict u o) && fits0 (upd u o true) r end.
Fixpoint norep (u : dopt -> bool) (l : list (dopt * bool)) : bool := match l with [] => true | (o, _) :: r => negb (u o) && norep (upd u o true) r end.
Lemma fits_split : forall l u, fits u l = fits0 u l && (multi || norep u l).
Proof.
  induction l as [|[o b] l IH]; intro u; cbn [fits fits0 norep]; [rewrite orb_true_r; reflexivity|]. rewrite IH. unfold bad.
  destruct (conflict u o), multi, (u o), (fits0 (upd u o true) l), (norep (upd u o true) l); reflexivity.
Qed.
Lemma norep_spec : forall l u, norep u l = true <-> (NoDup (map fst l) /\ forall o, used o l -> u o = false).
Proof.
  induction l as [|[o b] l IH]; intro u; cbn [norep map fst].
  - split; [intros _; split; [constructor|intros o (b & [])]|reflexivity].
  - rewrite andb_true_iff, negb_true_iff, IH. split.
    + intros [U [ND F]]. split.
      * constructor; [|exact ND]. intro K. apply in_map_iff in K. destruct K as ([o' b'] & E & I). cbn [fst] in E. subst o'. specialize (F o (ex_intro _ b' I)). rewrite upd_true in F. discriminate F.
      * intros o' (b' & [K|K]); [inversion K; subst; exact U|]. specialize (F o' (ex_intro _ b' K)). unfold upd in F. destruct (deq o' o); [discriminate F|exact F].
    + intros [ND F]. inversion ND as [|? ? NI ND']; subst. split; [apply F; exists b; left; reflexivity|]. split; [exact ND'|].
      intros o' (b' & K). unfold upd. destruct (deq o' o) eqn:D; [exfalso; apply deq_spec in D; subst o'; apply NI, in_map_iff; exists (o, b'); split; [reflexivity|exact K]|]. apply F. exists b'. right. exact K.
Qed.
Lemma fits0_spec : forall l u, at_most_one u -> (fits0 u l = true <-> at_most_one (uses u l)).
Proof.
  induction l as [|[o b] l IH]; intros u H; cbn [fits0 uses]; [split; [intros _; exact H|reflexivity]|].
  destruct (conflict u o) eqn:C; cbn [negb andb].
  - split; [discriminate|]. intro K. exfalso. apply conflict_spec in C. destruct C as (S1 & s & S2 & D & U). apply D. symmetry. apply (K s o S2 S1); apply uses_used; left; [|apply upd_true].
    unfold upd. destruct (deq s o); [reflexivity|exact U].
  - apply IH. intros s s' S1 S2 U1 U2. unfold upd in U1, U2. destruct (deq s o) eqn:D1, (deq s' o) eqn:D2.
    + apply deq_spec in D1, D2. congruence.
    + apply deq_spec in D1. subst s. destruct (deq s' o) eqn:D; [discriminate D2|]. exfalso. assert (X : conflict u o = true); [|congruence]. apply conflict_spec. split; [exact S1|]. exists s'. split; [exact S2|]. split; [intros ->; rewrite deq_refl in D; discriminate D|exact U2].
    + apply deq_spec in D2. subst s'. exfalso. assert (X : conflict u o = true); [|congruence]. apply conflict_spec. split; [exact S2|]. exists s. split; [exact S1|]. split; [intros ->; rewrite deq_refl in D1; discriminate D1|exact U1].
    + exact (H s s' S1 S2 U1 U2).
Qed.
Lemma one_section_spec : forall l, (one_section l /\ (multi = false -> NoDup (map fst l))) <-> (fits (fun _ => false) l = true /\ existsb (uses (fun _ => false) l) all_sections = true).
Proof.
  intro l. assert (U : forall o, uses (fun _ => false) l o = true <-> used o l) by (intro o; rewrite uses_used; split; [intros [K|K]; [discriminate K|exact K]|tauto]).
  assert (NR : multi || norep (fun _ => false) l = true <-> (multi = false -> NoDup (map fst l))).
  { destruct multi; cbn [orb]; [split; [discriminate|reflexivity]|]. rewrite norep_spec. split; [intros [K _] _; exact K|intro K; split; [exact (K eq_refl)|reflexivity]]. }
  rewrite fits_split, andb_true_iff, NR, fits0_spec by (intros s s' _ _ K; discriminate K). rewrite existsb_exists. split.
  - intros [(s & S1 & S2 & S3) ND]. split; [split; [|exact ND]|exists s; split; [apply in_sections; exact S1|apply U; exact S2]]. intros x z X Z UX UZ. rewrite (S3 x X (proj1 (U x) UX)), (S3 z Z (proj1 (U z) UZ)). reflexivity.
  - intros [[A ND] (s & S1 & S2)]. split; [|exact ND]. exists s. apply in_sections in S1. split; [exact S1|]. split; [apply U; exact S2|]. intros s' S3 S4. apply (A s s' S1 S3 S2). apply U. exact S4.
Qed.
End Settings.

(** ** The environment variables *)

Section Separators.
Variable sep : N -> Prop.
Variable seps : bytes.
Hypothesis sep_spec : forall c, existsb (N.eqb c) seps = true <-> sep c.
Lemma sep_not : forall c, existsb (N.eqb c) seps = false <-> ~ sep c.
Proof. intro c. rewrite <- sep_spec. destruct (existsb (N.eqb c) seps); intuition congruence. Qed.
Lemma strsep_word : forall w s cur, Forall (fun c => ~ sep c) w -> strsep_all seps (w ++ s) cur = strsep_all seps s (rev w ++ cur).
Proof.
  induction w as [|c w IH]; intros s cur H; [reflexivity|]. inversion H as [|? ? H1 H2]; subst. cbn [app strsep_all]. apply sep_not in H1. rewrite H1, IH by exact H2. cbn [rev]. rewrite <- app_assoc. reflexivity.
Qed.
Lemma strsep_separated : forall s ws, separated sep s ws -> strsep_all seps s [] = ws.
Proof.
  intros s ws H. induction H as [|c s ws B H IH|w NE F|w c s ws NE F B H IH].
  - reflexivity.
  - cbn [strsep_all]. apply sep_spec in B. rewrite B. exact IH.
  - rewrite <- (app_nil_r w) at 1. rewrite strsep_word by exact F. rewrite app_nil_r. cbn [strsep_all]. destruct (rev w) eqn:R; [apply (f_equal (@rev N)) in R; rewrite rev_involutive in R; contradiction|]. rewrite <- R, rev_involutive. reflexivity.
  - rewrite strsep_word by exact F. rewrite app_nil_r. cbn [strsep_all]. apply sep_spec in B. rewrite B. destruct (rev w) eqn:R; [apply (f_equal (@rev N)) in R; rewrite rev_involutive in R; contradiction|]. rewrite <- R, rev_involutive, IH. reflexivity.
Qed.
Lemma separated_exists : forall s cur, Forall (fun c => ~ sep c) cur -> separated sep (rev cur ++ s) (strsep_all seps s cur).
Proof.
  induction s as [|c s IH]; intros cur F; cbn [strsep_all].
  - rewrite app_nil_r. destruct cur as [|x cur']; [constructor|]. apply se_last; [cbn [rev]; intro K; apply app_eq_nil in K; destruct K; discriminate|apply Forall_rev; exact F].
  - destruct (existsb (N.eqb c) seps) eqn:B.
    + apply sep_spec in B. pose proof (IH [] (Forall_nil _)) as K. cbn [rev app] in K. destruct cur as [|x cur']; [apply se_skip; assumption|].
      cbn [app]. apply se_word; [cbn [rev]; intro Q; apply app_eq_nil in Q; destruct Q; discriminate|apply Forall_rev; exact F|exact B|exact K].
    + apply sep_not in B. assert (F' : Forall (fun c => ~ sep c) (c :: cur)) by (constructor; assumption). pose proof (IH (c :: cur) F') as K. cbn [rev] in K. rewrite <- app_assoc in K. exact K.
Qed.
End Separators.

Definition blanks : bytes := str " " ++ [9].
Lemma blanks_spec : forall c, existsb (N.eqb c) blanks = true <-> blank c.
Proof. intro c. unfold blank. rewrite existsb_exists. split; [intros (x & I & E); apply N.eqb_eq in E; subst x; cbn in I; intuition congruence|intros [->| ->]; [exists 32|exists 9]; cbn; auto]. Qed.
Lemma environment_strsep : forall v, environment_words v (match v with None => [] | Some s => strsep_all blanks s [] end).
Proof. intros [s|]; [|reflexivity]. exact (separated_exists blank blanks blanks_spec s [] (Forall_nil _)). Qed.
Lemma environment_fun : forall v ws, environment_words v ws -> (match v with None => [] | Some s => strsep_all blanks s [] end) = ws.
Proof. intros [s|] ws H; cbn in H; [apply (strsep_separated blank blanks blanks_spec); exact H|symmetry; exact H]. Qed.

(** GLOBAL_ARGV. *)
Definition gseps : bytes := str " ,:" ++ [9].
Lemma gseps_spec : forall c, existsb (N.eqb c) gseps = true <-> (blank c \/ c = code "," \/ c = code ":").
Proof.
  intro c. unfold blank. rewrite existsb_exists. change (code ",") with 44. change (code ":") with 58. split; [intros (x & I & E); apply N.eqb_eq in E; subst x; cbn in I; intuition congruence|].
  intros [[->| ->]|[->| ->]]; [exists 32|exists 9|exists 44|exists 58]; cbn; auto 6.
Qed.
Definition way (cfg : settings) : ways :=
  {| values := s_close cfg; resumes := s_toggle cfg; repeats := s_multi cfg; environment := if s_env cfg then (if s_after cfg then After else Before) else Never |}.

Lemma last_snoc : forall A (ch : list (bytes * A)) d ws w x, 
  last_choice ch d (ws ++ [w]) x <-> (In (w, x) ch \/ (~ (exists x, In (w, x) ch) /\ last_choice ch d ws x)).
Proof.
  intros A ch d ws w x. unfold last_choice. split.
  - intros [(b & t & a & E & I & F)|[F ->]].
    + destruct a as [|a0 a1] eqn:EA.
      * apply app_inj_tail in E. destruct E as [-> ->]. left. exact I.
      * right. assert (NE : a <> []) by (rewrite EA; discriminate). rewrite <- EA in *. destruct (exists_last NE) as (a' & z & ->). rewrite app_comm_cons, app_assoc in E. apply app_inj_tail in E. destruct E as [-> ->].
        apply Forall_app in F. destruct F as [F1 F2]. inversion F2; subst. split; [assumption|]. left. exists b, t, a'. auto.
    + apply Forall_app in F. destruct F as [F1 F2]. inversion F2; subst. right. split; [assumption|]. right. auto.
  - intros [I|[N [(b & t & a & -> & I & F)|[F ->]]]].
    + left. exists ws, w, []. auto.
    + left. exists b, t, (a ++ [w]). split; [rewrite <- app_assoc; reflexivity|]. split; [exact I|]. apply Forall_app. split; [exact F|]. constructor; [exact N|constructor].
    + right. split; [|reflexivity]. apply Forall_app. split; [exact F|]. constructor; [exact N|constructor].
Qed.
Lemma in_switch : forall name w b, In (w, b) (switch name) <-> exists t, w = name ++ t /\ In t (if b then on_words else off_words).
Proof.
  intros name w b. unfold switch. rewrite in_app_iff, !in_map_iff. split.
  - intros [(t & E & I)|(t & E & I)]; inversion E; subst; exists t; auto.
  - intros (t & -> & I). destruct b; [right|left]; exists t; auto.
Qed.
Lemma is_off_spec : forall t, is_off t = true <-> In t off_words.
Proof. intro t. unfold is_off. rewrite existsb_exists. split; [intros (x & I & E); apply beq_true in E; subst; exact I|intro I; exists t; split; [exact I|apply beq_true; reflexivity]]. Qed.
Lemma is_on_spec : forall t, is_on t = true <-> In t on_words.
Proof. intro t. unfold is_on. rewrite existsb_exists. split; [intros (x & I & E); apply beq_true in E; subst; exact I|intro I; exists t; split; [exact I|apply beq_true; reflexivity]]. Qed.
Lemma off_not_on : forall t, In t off_words -> ~ In t on_words.
Proof. intros t I K. cbn in I, K. repeat (destruct I as [<-|I]; [intuition discriminate|]). destruct I. Qed.

Definition close_choices := switch (str "close=").
Definition toggle_choices := switch (str "lasttog=").
Definition multi_choices : list (bytes * bool) := [(str "multi=reject", false); (str "multi=accept", true)].
Definition env_choices : list (bytes * when) := [(str "env=none", Never); (str "env=before", Before); (str "env=after", After)].
Definition step {A} (ch : list (bytes * A)) (w : bytes) (before after : A) : Prop := In (w, after) ch \/ (~ (exists x, In (w, x) ch) /\ after = before).

Lemma chosen_prefix : forall w, ((exists x, In (w, x) close_choices) -> exists t, w = str "close=" ++ t) /\ ((exists x, In (w, x) toggle_choices) -> exists t, w = str "lasttog=" ++ t) /\
  ((exists x, In (w, x) multi_choices) -> exists t, w = str "multi=" ++ t) /\ ((exists x, In (w, x) env_choices) -> exists t, w = str "env=" ++ t).
Proof.
  intro w. split; [|split; [|split]].
  - intros (x & I). apply in_switch in I. destruct I as (t & E & _). exists t. exact E.
  - intros (x & I). apply in_switch in I. destruct I as (t & E & _). exists t. exact E.
  - intros (x & I). cbn in I. destruct I as [I|[I|[]]]; inversion I; [exists (str "reject")|exists (str "accept")]; reflexivity.
  - intros (x & I). cbn in I. destruct I as [I|[I|[I|[]]]]; inversion I; [exists (str "none")|exists (str "before")|exists (str "after")]; reflexivity.
Qed.
Lemma prefix_cases : forall p w, (exists t, w = p ++ t /\ is_prefix p w = true) \/ (is_prefix p w = false /\ forall t, w <> p ++ t).
Proof.
  intros p w. destruct (is_prefix p w) eqn:E; [left|right; split; [reflexivity|intros t ->; rewrite is_prefix_app in E; discriminate E]].
  apply is_prefix_spec in E. destruct E as (t & ->). exists t. split; reflexivity.
Qed.
Lemma switch_step : forall name t b, step (switch name) (name ++ t) b (if is_off t then false else if is_on t then true else b).
Proof.
  intros name t b. unfold step. destruct (is_off t) eqn:O1; [left; apply in_switch; exists t; split; [reflexivity|apply is_off_spec; exact O1]|].
  destruct (is_on t) eqn:O2; [left; apply in_switch; exists t; split; [reflexivity|apply is_on_spec; exact O2]|]. right. split; [|reflexivity].
  intros (x & I). apply in_switch in I. destruct I as (t' & E & I). apply app_inv_head in E. subst t'. destruct x; [apply is_on_spec in I|apply is_off_spec in I]; congruence.
Qed.
Lemma token_steps : forall s w, step close_choices w (values (way s)) (values (way (env_token s w))) /\ step toggle_choices w (resumes (way s)) (resumes (way (env_token s w))) /\
  step multi_choices w (repeats (way s)) (repeats (way (env_token s w))) /\ step env_choices w (environment (way s)) (environment (way (env_token s w))).
Proof.
  intros s w. destruct (chosen_prefix w) as (C1 & C2 & C3 & C4).
  assert (OTHER1 : (forall t, w <> str "close=" ++ t) -> forall b, step close_choices w b b) by (intros N b; right; split; [intro K; destruct (C1 K) as (t & E); exact (N t E)|reflexivity]).
  assert (OTHER2 : (forall t, w <> str "lasttog=" ++ t) -> forall b, step toggle_choices w b b) by (intros N b; right; split; [intro K; destruct (C2 K) as (t & E); exact (N t E)|reflexivity]).
  assert (OTHER3 : (forall t, w <> str "multi=" ++ t) -> forall b, step multi_choices w b b) by (intros N b; right; split; [intro K; destruct (C3 K) as (t & E); exact (N t E)|reflexivity]).
  assert (OTHER4 : (forall t, w <> str "env=" ++ t) -> forall b, step env_choices w b b) by (intros N b; right; split; [intro K; destruct (C4 K) as (t & E); exact (N t E)|reflexivity]).
  unfold env_token.
  destruct (prefix_cases (str "close=") w) as [(t & E & P)|[P N1]].
  { rewrite P. subst w. change (skipn 6 (str "close=" ++ t)) with t. split; [|split; [|split]].
    - pose proof (switch_step (str "close=") t (s_close s)) as K. cbn [values way]. destruct (is_off t); [exact K|]. destruct (is_on t); exact K.
    - assert (Z : forall b, step toggle_choices (str "close=" ++ t) b b) by (apply OTHER2; intros t' K; discriminate K). destruct (is_off t), (is_on t); apply Z.
    - assert (Z : forall b, step multi_choices (str "close=" ++ t) b b) by (apply OTHER3; intros t' K; discriminate K). destruct (is_off t), (is_on t); apply Z.
    - assert (Z : forall b, step env_choices (str "close=" ++ t) b b) by (apply OTHER4; intros t' K; discriminate K). destruct (is_off t), (is_on t); apply Z. }
  rewrite P. destruct (prefix_cases (str "lasttog=") w) as [(t & E & P2)|[P2 N2]].
  { rewrite P2. subst w. change (skipn 8 (str "lasttog=" ++ t)) with t. split; [|split; [|split]].
    - assert (Z : forall b, step close_choices (str "lasttog=" ++ t) b b) by (apply OTHER1; intros t' K; discriminate K). destruct (is_off t), (is_on t); apply Z.
    - pose proof (switch_step (str "lasttog=") t (s_toggle s)) as K. cbn [resumes way]. destruct (is_off t); [exact K|]. destruct (is_on t); exact K.
    - assert (Z : forall b, step multi_choices (str "lasttog=" ++ t) b b) by (apply OTHER3; intros t' K; discriminate K). destruct (is_off t), (is_on t); apply Z.
    - assert (Z : forall b, step env_choices (str "lasttog=" ++ t) b b) by (apply OTHER4; intros t' K; discriminate K). destruct (is_off t), (is_on t); apply Z. }
  rewrite P2. destruct (prefix_cases (str "env=") w) as [(t & E & P3)|[P3 N3]].
  { rewrite P3. subst w. change (skipn 4 (str "env=" ++ t)) with t.
    assert (Z1 : forall b, step close_choices (str "env=" ++ t) b b) by (apply OTHER1; intros t' K; discriminate K).
    assert (Z2 : forall b, step toggle_choices (str "env=" ++ t) b b) by (apply OTHER2; intros t' K; discriminate K).
    assert (Z3 : forall b, step multi_choices (str "env=" ++ t) b b) by (apply OTHER3; intros t' K; discriminate K).
    destruct (beq t (str "none")) eqn:B1; [apply beq_true in B1; subst t; split; [apply Z1|split; [apply Z2|split; [apply Z3|left; cbn; tauto]]]|].
    destruct (beq t (str "before")) eqn:B2; [apply beq_true in B2; subst t; split; [apply Z1|split; [apply Z2|split; [apply Z3|left; cbn; tauto]]]|].
    destruct (beq t (str "after")) eqn:B3; [apply beq_true in B3; subst t; split; [apply Z1|split; [apply Z2|split; [apply Z3|left; cbn; tauto]]]|].
    split; [apply Z1|split; [apply Z2|split; [apply Z3|]]]. right. split; [|reflexivity]. intros (x & I).
    assert (D : t = str "none" \/ t = str "before" \/ t = str "after").
    { cbn in I. destruct I as [I|[I|[I|[]]]]; injection I as I _; [left|right; left|right; right]; symmetry; exact I. }
    destruct D as [->|[->| ->]]; discriminate. }
  rewrite P3. destruct (prefix_cases (str "multi=") w) as [(t & E & P4)|[P4 N4]].
  { rewrite P4. subst w. change (skipn 6 (str "multi=" ++ t)) with t.
    assert (Z1 : forall b, step close_choices (str "multi=" ++ t) b b) by (apply OTHER1; intros t' K; discriminate K).
    assert (Z2 : forall b, step toggle_choices (str "multi=" ++ t) b b) by (apply OTHER2; intros t' K; discriminate K).
    assert (Z3 : forall b, step env_choices (str "multi=" ++ t) b b) by (apply OTHER4; intros t' K; discriminate K).
    destruct (beq t (str "reject")) eqn:B1; [apply beq_true in B1; subst t; split; [apply Z1|split; [apply Z2|split; [left; cbn; tauto|apply Z3]]]|].
    destruct (beq t (str "accept")) eqn:B2; [apply beq_true in B2; subst t; split; [apply Z1|split; [apply Z2|split; [left; cbn; tauto|apply Z3]]]|].
    split; [apply Z1|split; [apply Z2|split; [|apply Z3]]]. right. split; [|reflexivity]. intros (x & I).
    assert (D : t = str "reject" \/ t = str "accept").
    { cbn in I. destruct I as [I|[I|[]]]; injection I as I _; [left|right]; symmetry; exact I. }
    destruct D as [->| ->]; discriminate. }
  rewrite P4. split; [apply OTHER1; exact N1|split; [apply OTHER2; exact N2|split; [apply OTHER3; exact N4|apply OTHER4; exact N3]]].
Qed.
Lemma step_last : forall A (ch : list (bytes * A)) d ws w a b, step ch w a b -> last_choice ch d ws a -> last_choice ch d (ws ++ [w]) b.
Proof. intros A ch d ws w a b [I|[N ->]] L; apply last_snoc; [left; exact I|right; split; assumption]. Qed.
Lemma tokens_ways : forall ws, let y := way (fold_left env_token ws default_settings) in
  last_choice close_choices true ws (values y) /\ last_choice toggle_choices false ws (resumes y) /\ last_choice multi_choices true ws (repeats y) /\ last_choice env_choices Before ws (environment y).
Proof.
  intro ws. induction ws as [|w ws IH] using rev_ind; cbv zeta.
  - cbn [fold_left]. split; [|split; [|split]]; right; (split; [constructor|reflexivity]).
  - rewrite fold_left_app. cbn [fold_left]. destruct IH as (I1 & I2 & I3 & I4). destruct (token_steps (fold_left env_token ws default_settings) w) as (T1 & T2 & T3 & T4).
    split; [|split; [|split]]; (eapply step_last; [eassumption|assumption]).
Qed.
Lemma key_fun : forall A (ch : list (bytes * A)), NoDup (map fst ch) -> forall w x x', In (w, x) ch -> In (w, x') ch -> x' = x.
Proof.
  intros A ch. induction ch as [|[w0 x0] ch IH]; intros ND w x x' I I'; [destruct I|]. cbn [map fst] in ND. inversion ND as [|? ? NI ND']; subst.
  destruct I as [I|I], I' as [I'|I'].
  - congruence. - inversion I; subst. destruct NI. apply in_map_iff. exists (w, x'). auto. - inversion I'; subst. destruct NI. apply in_map_iff. exists (w, x). auto. - exact (IH ND' w x x' I I').
Qed.
Lemma last_fun : forall A (ch : list (bytes * A)) d, NoDup (map fst ch) -> forall ws x x', last_choice ch d ws x -> last_choice ch d ws x' -> x' = x.
Proof.
  intros A ch d ND ws. induction ws as [|w ws IH] using rev_ind; intros x x' L L'.
  - assert (X : forall z, last_choice ch d [] z -> z = d) by (intros z [(b & t & a & E & _)|[_ E]]; [destruct b; discriminate E|exact E]). rewrite (X x L), (X x' L'). reflexivity.
  - apply last_snoc in L, L'. destruct L as [I|[N L]], L' as [I'|[N' L']].
    + exact (key_fun _ _ ND _ _ _ I I'). + destruct N'. exists x. exact I. + destruct N. exists x'. exact I'. + exact (IH x x' L L').
Qed.
Lemma choices_nodup : NoDup (map fst close_choices) /\ NoDup (map fst toggle_choices) /\ NoDup (map fst multi_choices) /\ NoDup (map fst env_choices).
Proof. split; [|split; [|split]]; cbn; repeat (constructor; [cbn; intuition discriminate|]); constructor. Qed.
Lemma global_spec : forall v y, global_ways v y <-> y = way (process_env v).
Proof.
  intros v y.
  assert (T : forall ws, (match v with None => ws = [] | Some s => separated (fun c => blank c \/ c = code "," \/ c = code ":") s ws end) -> process_env v = fold_left env_token ws default_settings).
  { intros ws H. destruct v as [s|]; [|subst ws; reflexivity]. cbn [process_env]. fold gseps. rewrite (strsep_separated _ gseps gseps_spec _ _ H). reflexivity. }
  split.
  - intros (ws & H & L1 & L2 & L3 & L4). rewrite (T ws H). destruct (tokens_ways ws) as (M1 & M2 & M3 & M4). destruct choices_nodup as (D1 & D2 & D3 & D4).
    pose proof (last_fun _ _ _ D1 _ _ _ M1 L1) as E1. pose proof (last_fun _ _ _ D2 _ _ _ M2 L2) as E2. pose proof (last_fun _ _ _ D3 _ _ _ M3 L3) as E3. pose proof (last_fun _ _ _ D4 _ _ _ M4 L4) as E4.
    destruct y as [a b c d]. cbn [values resumes repeats environment] in E1, E2, E3, E4. subst a b c d. reflexivity.
  - intros ->. assert (W : exists ws, match v with None => ws = [] | Some s => separated (fun c => blank c \/ c = code "," \/ c = code ":") s ws end).
    { destruct v as [s|]; [exists (strsep_all gseps s []); exact (separated_exists _ gseps gseps_spec s [] (Forall_nil _))|exists []; reflexivity]. }
    destruct W as (ws & W). exists ws. split; [exact W|]. rewrite (T ws W). exact (tokens_ways ws).
Qed.
