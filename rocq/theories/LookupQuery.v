(** Proofs about dnstable_lookup: options and the query made of them. *)
From Verif Require Import Str BaseFacts SettingsProofs ModelEntry ModelIter ModelQuery SpecIter SpecMerge SpecName SpecEntry SpecQuery SpecReader ModelSetters ModelWdns ModelFormat ModelFileset ModelLookup SpecLookup.

(** ** Time bounds *)

Lemma bound_tfa : forall v q, set_bound 1 v q = if v =? 0 then q else with_bounds None (Some (Some v)) None None q.
Proof. reflexivity. Qed.
Lemma bound_tfb : forall v q, set_bound 0 v q = if v =? 0 then q else with_bounds (Some (Some v)) None None None q.
Proof. reflexivity. Qed.
Lemma bound_tlb : forall v q, set_bound 2 v q = if v =? 0 then q else with_bounds None None (Some (Some v)) None q.
Proof. reflexivity. Qed.
Lemma bound_tla : forall v q, set_bound 3 v q = if v =? 0 then q else with_bounds None None None (Some (Some v)) q.
Proof. reflexivity. Qed.

Lemma query_bounds_within : forall o c q ob, no_bounds q -> metadata c = false ->
  (in_fence (query_bounds o c q) ob <-> within (strict_bounds o) (o_first ob) (o_last ob)).
Proof.
  intros o c q ob (A & B & C & D) HM. unfold query_bounds. rewrite HM. set (o' := strict_bounds o). clearbody o'.
  rewrite bound_tlb, bound_tla, bound_tfb, bound_tfa. unfold in_fence, within, at_least, at_most.
  destruct (N.eqb_spec (o_tfa o') 0), (N.eqb_spec (o_tfb o') 0), (N.eqb_spec (o_tla o') 0), (N.eqb_spec (o_tlb o') 0);
    cbn [with_bounds is_some val_or q_do_tfa q_do_tfb q_do_tla q_do_tlb q_tfa q_tfb q_tla q_tlb]; rewrite ?A, ?B, ?C, ?D;
    (split; [intros (H1 & H2 & H3 & H4); repeat split; try (left; assumption); right; auto |
             intros (H1 & H2 & H3 & H4); repeat split; intro; try discriminate; intuition congruence]).
Qed.

Lemma strict_within : forall o first last, first <= last ->
  (within (strict_bounds o) first last <-> if o_strict o then completely_within o first last else within o first last).
Proof.
  intros o first last HL. unfold strict_bounds. destruct (o_strict o); [|tauto]. unfold within, completely_within, at_least, at_most.
  destruct (N.ltb_spec (o_tfa o) (o_tla o)); cbn [with_o_tla with_o_tfa with_o_tfb with_o_tlb o_tfa o_tfb o_tla o_tlb];
    destruct (N.ltb_spec 0 (o_tfb o)), (N.eqb_spec (o_tlb o) 0), (N.ltb_spec (o_tfb o) (o_tlb o));
    cbn [andb orb with_o_tla with_o_tfa with_o_tfb with_o_tlb o_tfa o_tfb o_tla o_tlb]; lia.
Qed.

(** ** The command line *)

Lemma take_snoc : forall l now x o, take_options now (l ++ [x]) o =
  let* o := take_options now l o in take_option (now (length l)) (fst x) (snd x) o.
Proof.
  induction l as [|[ch arg] l IH]; intros now [ch' arg'] o.
  - cbn. destruct (take_option _ _ _ _); reflexivity.
  - cbn [app take_options length]. destruct (take_option (now O) ch arg o); try reflexivity. cbn. apply IH.
Qed.

Lemma given_snoc : forall c l x, given c (l ++ [x]) <-> given c l \/ fst x = code c.
Proof.
  intros c l [a b]. unfold given. split.
  - intros (arg & H). apply in_app_or in H. destruct H as [H|[H|[]]]; [left; eauto|]. injection H as -> ->. right. reflexivity.
  - intros [(arg & H)|H]; [exists arg|exists b]; apply in_or_app; auto. right. cbn in *. left. congruence.
Qed.

Lemma nth_snoc : forall (l : list (N * bytes)) x j y, nth_error (l ++ [x]) j = Some y -> nth_error l j = Some y \/ (j = length l /\ y = x).
Proof.
  intros l x j y H. destruct (Nat.lt_ge_cases j (length l)) as [L|L].
  - rewrite nth_error_app1 in H by lia. auto.
  - rewrite nth_error_app2 in H by lia. destruct (j - length l)%nat as [|m] eqn:E.
    + cbn in H. injection H as <-. right. split; [lia|reflexivity].
    + destruct m; discriminate H.
Qed.
Lemma nth_snoc_last : forall (l : list (N * bytes)) x, nth_error (l ++ [x]) (length l) = Some x.
Proof. intros. rewrite nth_error_app2, Nat.sub_diag by lia. reflexivity. Qed.
Lemma nth_snoc_old : forall (l : list (N * bytes)) x j y, nth_error l j = Some y -> nth_error (l ++ [x]) j = Some y.
Proof. intros l x j y H. rewrite nth_error_app1; [exact H|]. apply nth_error_Some. congruence. Qed.

Lemma last_given_other : forall c l x i arg, fst x <> code c -> (last_given c (l ++ [x]) i arg <-> last_given c l i arg).
Proof.
  intros c l x i arg HX. unfold last_given. split; intros (A & B).
  - apply nth_snoc in A. destruct A as [A|(_ & A)]; [|rewrite <- A in HX; contradiction HX; reflexivity]. split; [exact A|].
    intros j y H. eapply B. apply nth_snoc_old. exact H.
  - split; [apply nth_snoc_old; exact A|]. intros j y H. apply nth_snoc in H. destruct H as [H|(_ & H)]; [eapply B; exact H|].
    rewrite <- H in HX. contradiction HX. reflexivity.
Qed.
Lemma last_given_same : forall c l x i arg, fst x = code c -> last_given c (l ++ [x]) i arg -> i = length l /\ arg = snd x.
Proof.
  intros c l [ch a] i arg HX (A & B). cbn in HX. subst ch. specialize (B (length l) a (nth_snoc_last _ _)).
  apply nth_snoc in A. destruct A as [A|(-> & A)]; [|injection A as ->; auto].
  apply (f_equal (fun x => match x with Some _ => true | None => false end)) in A. 
  assert (L : (i < length l)%nat) by (apply nth_error_Some; destruct (nth_error l i); [discriminate|discriminate A]). lia.
Qed.

Lemma time_option_other : forall now l x c v, fst x <> code c -> time_option now l c v -> time_option now (l ++ [x]) c v.
Proof.
  intros now l x c v HX (A & B & C). split; [|split].
  - intros i arg H. apply nth_snoc in H. destruct H as [H|(_ & H)]; [eauto|]. rewrite <- H in HX. contradiction HX. reflexivity.
  - intro H. apply B. intro G. apply H. apply given_snoc. auto.
  - intros i arg H. apply last_given_other in H; auto.
Qed.
Lemma time_option_same : forall now l x c v t, fst x = code c -> time_option now l c v -> parse_time (now (length l)) (snd x) = Ok t -> t <> 0 ->
  time_option now (l ++ [x]) c t.
Proof.
  intros now l x c v t HX (A & B & C) HP HT. split; [|split].
  - intros i arg H. apply nth_snoc in H. destruct H as [H|(-> & H)]; [eauto|]. rewrite <- H in HP. eauto.
  - intro H. exfalso. apply H. apply given_snoc. auto.
  - intros i arg H. apply last_given_same in H; [|exact HX]. destruct H as (-> & ->). exact HP.
Qed.
Lemma number_option_other : forall l x c v, fst x <> code c -> number_option l c v -> number_option (l ++ [x]) c v.
Proof.
  intros l x c v HX (A & B & C). split; [|split].
  - intros i arg H. apply nth_snoc in H. destruct H as [H|(_ & H)]; [eauto|]. rewrite <- H in HX. contradiction HX. reflexivity.
  - intro H. apply B. intro G. apply H. apply given_snoc. auto.
  - intros i arg H. apply last_given_other in H; auto. eauto.
Qed.
Lemma number_option_same : forall l x c v, fst x = code c -> number_option l c v -> (0 < atoi (snd x))%Z ->
  number_option (l ++ [x]) c (atoi (snd x)).
Proof.
  intros l x c v HX (A & B & C) HP. split; [|split].
  - intros i arg H. apply nth_snoc in H. destruct H as [H|(-> & H)]; [eauto|]. rewrite <- H in HP. exact HP.
  - intro H. exfalso. apply H. apply given_snoc. auto.
  - intros i arg H. apply last_given_same in H; [|exact HX]. destruct H as (-> & ->). reflexivity.
Qed.
Lemma flag_other : forall c l x (b : bool) (v : bool), fst x <> code c -> (b = v <-> given c l) -> (b = v <-> given c (l ++ [x])).
Proof. intros c l x b v HX H. rewrite H, given_snoc. tauto. Qed.
Lemma flag_same : forall c l x (v : bool), fst x = code c -> (v = v <-> given c (l ++ [x])).
Proof. intros c l x v HX. rewrite given_snoc. tauto. Qed.

Lemma options_snoc : forall now l x o o', options_mean now l o -> take_option (now (length l)) (fst x) (snd x) o = Ok o' -> options_mean now (l ++ [x]) o'.
Proof.
  intros now l x o o' [K a A b B c C i j J n R s t u O] H. unfold take_option in H.
  repeat (match type of H with (if fst x =? ?k then _ else _) = _ => destruct (N.eqb_spec (fst x) k) as [E|_] end); [..|discriminate H].
  all: unfold valid_time, positive in H; try (destruct (parse_time (now (length l)) (snd x)) as [tm| | | |] eqn:EP; try discriminate H; cbn in H;
         destruct (N.eqb_spec tm 0) as [_|NZ]; try discriminate H; cbn in H);
       try (destruct (Z.leb_spec (atoi (snd x)) 0) as [_|PO]; try discriminate H; cbn in H);
       injection H as <-; split;
       cbn [o_tfa o_tla o_tlb o_tfb o_strict o_case o_interval o_timeout o_json o_Json o_count o_raw o_stats o_aggregate o_offset
            with_o_tfa with_o_tla with_o_tlb with_o_tfb with_o_strict with_o_case with_o_interval with_o_timeout with_o_json with_o_Json
            with_o_count with_o_raw with_o_stats with_o_aggregate with_o_offset];
       try (apply Forall_app; split; [assumption|constructor; [rewrite E; vm_compute; tauto|constructor]]);
       try (apply time_option_other; [rewrite E; discriminate|assumption]);
       try (apply number_option_other; [rewrite E; discriminate|assumption]);
       try (apply flag_other; [rewrite E; discriminate|assumption]);
       try (eapply time_option_same; [exact E|eassumption|assumption|assumption]);
       try (eapply number_option_same; [exact E|eassumption|assumption]);
       try (apply flag_same; exact E);
       rewrite filter_app, app_length, s; cbn [filter]; rewrite E; cbn; lia.
Qed.

Lemma no_options : forall now, options_mean now [] opts0.
Proof.
  intro now. assert (NG : forall c, ~ given c []) by (intros c (a & [])).
  assert (TO : forall c, time_option now [] c 0).
  { intro c. split; [|split]; [intros [|i] arg H; discriminate H|reflexivity|intros [|i] arg (H & _); discriminate H]. }
  assert (NO : forall c, number_option [] c 0%Z).
  { intro c. split; [|split]; [intros [|i] arg H; discriminate H|reflexivity|intros [|i] arg (H & _); discriminate H]. }
  split; try (constructor; fail); try apply TO; try apply NO; try (cbn; split; [discriminate|intro H; contradiction (NG _ H)]).
Qed.

Lemma options_sound : forall now l o, take_options now l opts0 = Ok o -> options_mean now l o.
Proof.
  intros now l. induction l as [|x l IH] using rev_ind; intros o H.
  - injection H as <-. apply no_options.
  - rewrite take_snoc in H. destruct (take_options now l opts0) as [o1| | | |]; try discriminate H. cbn in H.
    eapply options_snoc; [apply IH; reflexivity|exact H].
Qed.

Definition option_fine (now : nat -> Z) (l : list (N * bytes)) : Prop :=
  Forall (fun p => In (fst p) (str "aAbBcCijJnRstuO")) l /\
  (forall c, In c ["a"; "A"; "b"; "B"]%string -> forall i arg, nth_error l i = Some (code c, arg) -> exists t, parse_time (now i) arg = Ok t /\ t <> 0) /\
  (forall c, In c ["i"; "t"; "O"]%string -> forall i arg, nth_error l i = Some (code c, arg) -> (0 < atoi arg)%Z).

Lemma options_fine : forall now l, option_fine now l -> forall o, exists o', take_options now l o = Ok o'.
Proof.
  intros now l. revert now. induction l as [|[ch arg] l IH]; intros now (K & T & Nn) o; [eexists; reflexivity|].
  assert (F : option_fine (fun i => now (S i)) l).
  { split; [inversion K; assumption|]. split; [intros c Hc i a H; apply (T c Hc (S i)); exact H|intros c Hc i a H; apply (Nn c Hc (S i) a); exact H]. }
  assert (ST : exists o1, take_option (now O) ch arg o = Ok o1).
  { apply Forall_inv in K. cbn [fst] in K.
    assert (TT : forall c, In c ["a"; "A"; "b"; "B"]%string -> ch = code c -> exists t, valid_time (now O) arg = Ok t).
    { intros c Hc ->. destruct (T c Hc O arg eq_refl) as (t & HP & HN). exists t. unfold valid_time. rewrite HP. cbn.
      destruct (N.eqb_spec t 0); [contradiction|reflexivity]. }
    assert (NN : forall c, In c ["i"; "t"; "O"]%string -> ch = code c -> exists t, positive arg = Ok t).
    { intros c Hc ->. specialize (Nn c Hc O arg eq_refl). exists (atoi arg). unfold positive. destruct (Z.leb_spec (atoi arg) 0); [lia|reflexivity]. }
    cbn in K. unfold take_option.
    repeat (destruct K as [<-|K]); [..|destruct K];
      cbn [N.eqb Pos.eqb];
      first [ destruct (TT "a"%string) as (t & ->); [cbn; tauto|reflexivity|]
            | destruct (TT "A"%string) as (t & ->); [cbn; tauto|reflexivity|]
            | destruct (TT "b"%string) as (t & ->); [cbn; tauto|reflexivity|]
            | destruct (TT "B"%string) as (t & ->); [cbn; tauto|reflexivity|]
            | destruct (NN "i"%string) as (t & ->); [cbn; tauto|reflexivity|]
            | destruct (NN "t"%string) as (t & ->); [cbn; tauto|reflexivity|]
            | destruct (NN "O"%string) as (t & ->); [cbn; tauto|reflexivity|]
            | idtac ]; eexists; reflexivity. }
  destruct ST as (o1 & E1). cbn [take_options]. rewrite E1. cbn. apply IH. exact F.
Qed.

Lemma last_exists : forall c l, given c l -> exists i arg, last_given c l i arg.
Proof.
  intros c l. induction l as [|x l IH] using rev_ind; intros H; [destruct H as (? & [])|].
  destruct (N.eq_dec (fst x) (code c)) as [E|E].
  - exists (length l), (snd x). split; [rewrite nth_snoc_last, <- E; destruct x; reflexivity|].
    intros j y Hj. assert (j < length (l ++ [x]))%nat by (apply nth_error_Some; congruence). rewrite app_length in H0. cbn in H0. lia.
  - apply given_snoc in H. destruct H as [H|H]; [|contradiction]. destruct (IH H) as (i & arg & L). exists i, arg. apply last_given_other; assumption.
Qed.
Lemma given_dec : forall c l, given c l \/ ~ given c l.
Proof.
  intros c l. induction l as [|x l IH] using rev_ind; [right; intros (? & [])|]. rewrite given_snoc.
  destruct (N.eq_dec (fst x) (code c)); tauto.
Qed.

Lemma time_unique : forall now l c v v', time_option now l c v -> time_option now l c v' -> v = v'.
Proof.
  intros now l c v v' (_ & A & B) (_ & A' & B'). destruct (given_dec c l) as [G|G].
  - destruct (last_exists c l G) as (i & arg & L). specialize (B _ _ L). specialize (B' _ _ L). congruence.
  - rewrite (A G), (A' G). reflexivity.
Qed.
Lemma number_unique : forall l c v v', number_option l c v -> number_option l c v' -> v = v'.
Proof.
  intros l c v v' (_ & A & B) (_ & A' & B'). destruct (given_dec c l) as [G|G].
  - destruct (last_exists c l G) as (i & arg & L). specialize (B _ _ L). specialize (B' _ _ L). congruence.
  - rewrite (A G), (A' G). reflexivity.
Qed.
Lemma flag_unique : forall (b b' v : bool) P, (b = v <-> P) -> (b' = v <-> P) -> b = b'.
Proof. intros [] [] [] P; intuition congruence. Qed.

Lemma options_unique : forall now l o o', options_mean now l o -> options_mean now l o' -> o = o'.
Proof.
  intros now l o o' [K a A b B c C i j J n R s t u O] [K' a' A' b' B' c' C' i' j' J' n' R' s' t' u' O'].
  pose proof (time_unique _ _ _ _ _ a a') as Xa. pose proof (time_unique _ _ _ _ _ A A') as XA.
  pose proof (time_unique _ _ _ _ _ b b') as Xb. pose proof (time_unique _ _ _ _ _ B B') as XB.
  pose proof (number_unique _ _ _ _ i i') as Xi. pose proof (number_unique _ _ _ _ t t') as Xt. pose proof (number_unique _ _ _ _ O O') as XO.
  pose proof (flag_unique _ _ _ _ c c') as Xc. pose proof (flag_unique _ _ _ _ C C') as XC. pose proof (flag_unique _ _ _ _ j j') as Xj.
  pose proof (flag_unique _ _ _ _ J J') as XJ. pose proof (flag_unique _ _ _ _ n n') as Xn. pose proof (flag_unique _ _ _ _ R R') as XR.
  pose proof (flag_unique _ _ _ _ u u') as Xu. rewrite <- s in s'. clear - Xa XA Xb XB Xi Xt XO Xc XC Xj XJ Xn XR Xu s'.
  destruct o, o'. cbn in *. subst. reflexivity.
Qed.

Theorem options_iff : forall now l o, take_options now l opts0 = Ok o <-> options_mean now l o.
Proof.
  intros now l o. split; [apply options_sound|]. intro H.
  destruct (options_fine now l) with (o := opts0) as (o' & E).
  - split; [apply H|]. split.
    + intros c Hc. destruct Hc as [<-|[<-|[<-|[<-|[]]]]]; [apply (om_a _ _ _ H)|apply (om_A _ _ _ H)|apply (om_b _ _ _ H)|apply (om_B _ _ _ H)].
    + intros c Hc. destruct Hc as [<-|[<-|[<-|[]]]]; [apply (om_i _ _ _ H)|apply (om_t _ _ _ H)|apply (om_O _ _ _ H)].
  - rewrite E. f_equal. eapply options_unique; [apply options_sound; exact E|exact H].
Qed.

Lemma has_char_iff : forall d s, has_char d s = true <-> In d s.
Proof.
  intros d s. unfold has_char. rewrite existsb_exists. split; [intros (x & H & E); apply N.eqb_eq in E; congruence|intro H; exists d; split; [exact H|apply N.eqb_refl]].
Qed.
Lemma has_char_false : forall d s, has_char d s = false <-> ~ In d s.
Proof. intros d s. rewrite <- has_char_iff. destruct (has_char d s); intuition congruence. Qed.

Theorem command_iff : forall args c, take_command args = Ok c <-> command_means args c.
Proof.
  intros args c. split.
  - intro H. destruct args as [|a rest]; [discriminate H|]. cbn [take_command] in H.
    destruct (beq a (str "rrset")) eqn:E1.
    { apply beq_iff in E1. subst a. destruct rest as [|ow more]; [discriminate H|].
      destruct more as [|t [|b [|? ?]]]; try discriminate H; destruct (has_char 47 ow) eqn:EH; try discriminate H;
        apply has_char_false in EH; injection H as <-; constructor; exact EH. }
    destruct (beq a (str "rdata")) eqn:E2.
    { apply beq_iff in E2. subst a. destruct rest as [|k [|d [|t [|? ?]]]]; try discriminate H.
      - destruct (beq k (str "ip")) eqn:K1; [apply beq_iff in K1; subst k; injection H as <-; constructor|].
        destruct (beq k (str "raw")) eqn:K2; [apply beq_iff in K2; subst k; injection H as <-; constructor|].
        destruct (beq k (str "name")) eqn:K3; [apply beq_iff in K3; subst k; injection H as <-; constructor|discriminate H].
      - destruct (beq k (str "raw")) eqn:K2; [apply beq_iff in K2; subst k; injection H as <-; constructor|].
        destruct (beq k (str "name")) eqn:K3; [apply beq_iff in K3; subst k; injection H as <-; constructor|discriminate H]. }
    destruct (beq a (str "version")) eqn:E3.
    { apply beq_iff in E3. subst a. destruct rest as [|t [|? ?]]; try discriminate H; injection H as <-; constructor. }
    destruct (beq a (str "time_range")) eqn:E4; [|discriminate H].
    apply beq_iff in E4. subst a. destruct rest as [|? ?]; [|discriminate H]. injection H as <-. constructor.
  - intro H. destruct H; try reflexivity; cbn [take_command nth_error];
      change (beq (str "rrset") (str "rrset")) with true; cbn iota; rewrite (proj2 (has_char_false 47 owner) H); reflexivity.
Qed.

Theorem allowed_iff : forall o c, check_options o c = Ok tt <-> allowed o c.
Proof.
  intros o c. unfold check_options, metadata. split.
  - intro H. split.
    + intros [E|E]; rewrite E in H; destruct (Z.eqb_spec (o_offset o) 0); destruct (o_raw o); cbn in H; try discriminate H; auto.
    + intro E. rewrite E in H. destruct (match c_type c with QVersion | QTimeRange => true | _ => false end && _); [discriminate H|].
      destruct (o_Json o), (o_json o), (o_raw o); try discriminate H; auto.
    + destruct (match c_type c with QVersion | QTimeRange => true | _ => false end && _); [discriminate H|].
      destruct (o_Json o), (o_json o); auto. destruct (o_count o); discriminate H.
    + intro E. rewrite E in H. destruct (match c_type c with QVersion | QTimeRange => true | _ => false end && _); [discriminate H|].
      destruct (o_Json o), (o_json o), (o_count o); auto; discriminate H.
  - intros [A B C D]. assert ((match c_type c with QVersion | QTimeRange => true | _ => false end && (negb (o_offset o =? 0)%Z || o_raw o)) = false) as ->.
    { destruct (c_type c); try reflexivity; destruct A as (-> & ->); auto. }
    destruct (o_count o); [destruct B as (-> & -> & ->); reflexivity|]. cbn [andb].
    destruct C as [C|C]; rewrite C in *; destruct (o_raw o); try (destruct D as [D|D]; [reflexivity|discriminate D || (rewrite D in *; cbn)..]); cbn; rewrite ?andb_false_r; try reflexivity.
    all: destruct (o_json o), (o_Json o); try reflexivity; intuition discriminate.
Qed.
