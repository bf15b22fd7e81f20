(** Theorems about dnstable_lookup. *)
From Verif Require Import Str BaseFacts ModelEntry ModelIter ModelQuery SpecIter SpecMerge SpecName SpecEntry SpecQuery SpecReader ModelSetters ModelWdns ModelFormat ModelFileset.
From Coq Require Import Permutation.
From Verif Require Import PropsQuery SpecFileset FilesetProofs FilesetQueries FilesetDirect FilesetGrouped PropsFileset SelectProofs PropsReader SpecDeadline DeadlineProofs SpecSettings SettingsProofs PropsSettings PropsFormat ModelLookup SpecLookup LookupProofs LookupQuery LookupBuild LookupFinds SpecJson SpecOutput OutputProofs.

Lemma output_prints : forall lib o e s, entry_output lib o e s -> prints lib o e s.
Proof.
  intros lib o e s H. unfold prints, print_entry, entry_output in *. destruct (o_count o); [subst s; reflexivity|].
  destruct (o_Json o || o_json o) eqn:EJ.
  - destruct H as (t & E & NE & ->). 
    change (set_raw_rdata (set_date_format (set_output_format dnstable_formatter_init OutJson) (if o_json o then DateUnix else DateRfc3339)) (o_raw o))
      with (json_formatter (if o_json o then DateUnix else DateRfc3339) false (o_raw o)). rewrite E. cbn [bind]. destruct t; [contradiction|]. reflexivity.
  - destruct H as (t & E & NE & ->). rewrite E. cbn [bind]. destruct t; [contradiction|]. reflexivity.
Qed.

Lemma opened_iff : forall v o d, open_database v o = Ok d <-> opened v o d.
Proof.
  intros v o d. unfold open_database. split.
  - destruct (v_fname v) as [f|] eqn:EF, (v_setfile v) as [s|] eqn:ES; try discriminate.
    + destruct (o_aggregate o) eqn:EA; [|discriminate]. destruct f as [t|]; [|discriminate]. intro H. injection H as <-. apply op_file; assumption.
    + intro H. injection H as <-. apply op_set; assumption.
  - intros [t -> -> ->|files -> ->]; reflexivity.
Qed.

Lemma number_range : forall l c v, number_option l c v -> (0 <= v < 2147483648)%Z.
Proof.
  intros l c v (A & B & C). destruct (given_dec c l) as [G|G].
  - destruct (last_exists c l G) as (i & arg & L). pose proof (A i arg (proj1 L)) as P. rewrite <- (C i arg L). split; [lia|].
    unfold atoi. pose proof (Z.mod_pos_bound (fst (strtoll arg) + 2147483648) 4294967296). lia.
  - rewrite (B G). lia.
Qed.

Lemma lookup_steps : forall rounds fuel lib ev ml v options args now clk w o c d gd gi clk' q,
  options_mean now options o -> command_means args c -> allowed o c -> opened v o d -> build_query ev o c clk = Ok (gd, gi, clk', q) ->
  dnstable_lookup rounds fuel lib ev ml v options args now clk w =
    let* it := dnstable_reader_query ml d q in do_dump rounds fuel lib o gd gi it (load_offset q w) clk'.
Proof.
  intros rounds fuel lib ev ml v options args now clk w o c d gd gi clk' q HO HC HA HD HB. unfold dnstable_lookup.
  rewrite (proj2 (options_iff _ _ _) HO), (proj2 (command_iff _ _) HC). cbn [bind]. rewrite (proj2 (allowed_iff _ _) HA). cbn [bind].
  rewrite (proj2 (opened_iff _ _ _) HD). cbn [bind]. rewrite HB. reflexivity.
Qed.

Lemma beyond_past : forall o clk i, clock_ok clk -> (0 <= o_timeout o)%Z -> (beyond (deadline_at o clk) (clk i) = true <-> past_total o clk i).
Proof.
  intros o clk i HK HT. unfold beyond, deadline_at, past_total. destruct (Z.eqb_spec (o_timeout o) 0) as [E|E].
  - cbn. split; [discriminate|intros [C _]; contradiction].
  - cbn [tv_sec]. destruct (HK O) as (N0 & P0). destruct (Z.eqb_spec (tv_sec (clk O) + o_timeout o) 0); [lia|]. cbn [negb andb].
    assert (NG : normal {| tv_sec := (tv_sec (clk O) + o_timeout o)%Z; tv_nsec := tv_nsec (clk O) |}) by exact N0.
    rewrite (ts_cmp_ok _ _ (proj1 (HK i)) NG). unfold seconds. 
    replace (nanos {| tv_sec := (tv_sec (clk O) + o_timeout o)%Z; tv_nsec := tv_nsec (clk O) |}) with (nanos (clk O) + o_timeout o * 1000000000)%Z
      by (unfold nanos; cbn [tv_sec tv_nsec]; lia).
    destruct (Z.compare_spec (nanos (clk i)) (nanos (clk O) + o_timeout o * 1000000000)); split; try discriminate; try reflexivity; try lia; intros [_ C]; lia.
Qed.

(** * C60, C57: what dnstable_lookup prints *)

(** For every command line that can be carried out the program makes a query that asks
    what the command and the options say.  Whatever this query lists, in whatever order
    of events, clock readings and time-outs, the program prints every entry once, in the
    query's order, without as many of the first as -O says, as [delivers] explains. *)
Theorem lookup_prints : forall lib ev ml now options args v o c d clk w, env_ok ev -> clock_ok clk ->
  understood ev now options args v o c d ->
  exists q, question ev o c clk q /\
  forall es texts, lists q (dnstable_reader_query ml d q) es ->
  Forall2 (entry_output lib o) (skipn (Z.to_nat (o_offset o)) es) texts ->
  delivers lib o clk (fun rounds fuel => dnstable_lookup rounds fuel lib ev ml v options args now clk w) texts.
Proof.
  intros lib ev ml now options args v o c d clk w HE HK [HO HC HA HX HD].
  destruct (build_accepted ev o args c clk HE HC HX) as ([[[gd gi] clk'] q] & HB).
  pose proof (number_range _ _ _ (om_t _ _ _ HO)) as RT. pose proof (number_range _ _ _ (om_i _ _ _ HO)) as RI. pose proof (number_range _ _ _ (om_O _ _ _ HO)) as RO.
  assert (HQ : question ev o c clk q) by (eapply build_question; eauto; lia).
  exists q. split; [exact HQ|]. intros es texts HL HF. set (run := fun rounds fuel : nat => dnstable_lookup rounds fuel lib ev ml v options args now clk w).
  destruct (build_does _ _ _ _ _ _ _ _ HB) as (_ & _ & _ & EG & EI & EC).
  set (stats := if (o_interval o =? 0)%Z then o_stats o else if o_stats o =? 0 then 1 else o_stats o).
  pose proof HL as (qi & EQ & _).
  assert (RUN : forall rounds fuel, run rounds fuel = dump_rounds rounds fuel lib o stats gd gi (clk' O) qi (load_offset q w) (later 1 clk') 0 [] []).
  { intros rounds fuel. unfold run. rewrite (lookup_steps _ _ _ _ _ _ _ _ _ _ _ _ _ _ _ _ _ _ HO HC HA HD HB), EQ. reflexivity. }
  assert (OFF : w_offset (load_offset q w) = q_offset q) by reflexivity.
  rewrite EQ in HL. pose proof (lists_drains q qi es (load_offset q w) HL ltac:(rewrite OFF; lia)) as DR. rewrite OFF in DR.
  assert (EO : N.to_nat (q_offset q) = Z.to_nat (o_offset o)) by (rewrite <- (qs_offset _ _ _ _ _ HQ); lia). rewrite EO in DR.
  assert (HP : Forall2 (prints lib o) (skipn (Z.to_nat (o_offset o)) es) texts).
  { clear - HF. induction HF; constructor; [apply output_prints; assumption|assumption]. }
  assert (LEN : length (skipn (Z.to_nat (o_offset o)) es) = length texts) by (clear - HF; induction HF; cbn; congruence).
  assert (GI0 : tv_sec gi = 0%Z <-> o_interval o = 0%Z).
  { rewrite EI. destruct (Z.eqb_spec (o_interval o) 0); cbn; tauto. }
  assert (ST0 : o_stats o = 0 -> o_interval o = 0%Z -> stats = 0) by (intros A B; unfold stats; rewrite A, B; reflexivity).
  assert (CL : forall i, exists j, (i <= j)%nat /\ later 1 clk' i = clk j).
  { intro i. rewrite later_at, EC. unfold clock_after. destruct (o_interval o =? 0)%Z, (o_timeout o =? 0)%Z; rewrite ?later_at; eexists; (split; [|reflexivity]); lia. }
  assert (R : forall rounds,
    (exists k timed, prints_first lib o run texts k timed rounds /\ (k <= length texts)%nat /\ (timed = false -> k = length texts) /\
       (timed = true -> o_interval o = 0%Z \/ exists i, past_total o clk i) /\ (steady qi (load_offset q w) -> timed = false)) \/
    ((rounds = 0%nat \/ (o_interval o <> 0%Z /\ ~ steady qi (load_offset q w) /\ exists j, (rounds <= S j)%nat /\ ~ past_total o clk j)) /\
     eventually (fun fuel => run rounds fuel = Hang))).
  { intro rounds. destruct (dump_rounds_ok lib o stats gd gi (clk' O) rounds _ texts HP qi (load_offset q w) TKeep DR (later 1 clk')) as
      [(k & timed & K1 & K2 & K3 & K4 & EV)|(HG & EV)].
    - left. exists k, timed. rewrite LEN in *. split; [|split; [exact K1|split; [exact K2|split]]].
      + destruct EV as (F & EV). exists F. intros f Hf. destruct (EV f Hf 0 [] [] eq_refl) as (err2 & S0 & E). exists err2.
        split; [auto|]. rewrite RUN. rewrite set_timing_keep in E. exact E.
      + intro HT. destruct (K3 HT) as [G|(i & B)]; [left; apply GI0; exact G|]. right. destruct (CL i) as (j & _ & Ej). exists j.
        apply beyond_past; [exact HK|lia|]. rewrite <- Ej, <- EG. exact B.
      + intro SD. apply K4; auto.
    - right. split.
      + destruct HG as [->|(G1 & G2 & j & Hj & B)]; [left; reflexivity|]. right. split; [intro E; apply G1, GI0, E|]. split; [intro SD; apply G2; auto|].
        destruct (CL j) as (j' & L & Ej). exists j'. split; [lia|]. intro P. apply beyond_past in P; [|exact HK|lia]. rewrite <- Ej, <- EG in P. congruence.
      + destruct EV as (F & EV). exists F. intros f Hf. specialize (EV f Hf 0 [] [] eq_refl). rewrite set_timing_keep in EV. rewrite RUN. exact EV. }
  assert (STEADY : o_timeout o = 0%Z -> o_interval o = 0%Z -> steady qi (load_offset q w)).
  { intros T0 I0. pose proof (qs_deadline _ _ _ _ _ HQ) as QD. unfold first_stop in QD. rewrite T0, I0 in QD. cbn in QD.
    pose proof (qs_timeout _ _ _ _ _ HQ) as QT. unfold timeout_of, deadline_of, opt in *.
    eapply lists_steady; [exact HL|rewrite OFF; lia|destruct (q_do_timeout q); [discriminate QT|reflexivity]|destruct (q_do_deadline q); [discriminate QD|reflexivity]]. }
  split.
  - intros T0 I0 rounds. specialize (STEADY T0 I0). destruct (R (S rounds)) as [(k & timed & P & K1 & K2 & _ & K4)|(HG & _)].
    + specialize (K4 STEADY). subst timed. rewrite (K2 eq_refl) in P. exact P.
    + destruct HG as [C|(C & _)]; [discriminate C|contradiction].
  - intro rounds. destruct (R rounds) as [(k & timed & P & K1 & K2 & K3 & K4)|(_ & H)]; [|right; exact H]. left. exists k, timed.
    split; [exact P|]. split; [exact K1|]. split; [exact K2|]. intro HT. destruct (K3 HT) as [I0|X]; [|right; exact X].
    destruct (Z.eq_dec (o_timeout o) 0) as [T0|T0]; [|left; auto]. rewrite (K4 (STEADY T0 I0)) in HT. discriminate HT.
  - intros T0 I0 rounds. destruct (R (S rounds)) as [(k & timed & P & _)|(HG & _)]; [exists k, timed; exact P|].
    destruct HG as [C|(C & _)]; [discriminate C|contradiction].
  - intros n HN. exists (S (S n)). destruct (R (S (S n))) as [(k & timed & P & _)|(HG & _)]; [exists k, timed; exact P|].
    destruct HG as [C|(_ & _ & j & Lj & NP)]; [discriminate C|]. contradiction NP. apply HN. lia.
Qed.
Print Assumptions lookup_prints.

(** * C60: the records dnstable_lookup prints *)

(** Entries that show records are printed as these are. *)
Lemma delivers_records : forall lib o clk run out es, c_strings lib -> Forall2 shows out es -> Forall (showable lib o) out ->
  (forall texts, Forall2 (entry_output lib o) (skipn (Z.to_nat (o_offset o)) es) texts -> delivers lib o clk run texts) ->
  exists texts, Forall2 (record_output lib o) (skipn (Z.to_nat (o_offset o)) out) texts /\ delivers lib o clk run texts.
Proof.
  intros lib o clk run out es HC HS HO HD.
  destruct (outputs_of lib o _ _ HC (Forall2_skipn _ _ _ (Z.to_nat (o_offset o)) _ _ HS) (Forall_skipn _ _ (Z.to_nat (o_offset o)) _ HO)) as (texts & A & B).
  exists texts. split; [exact B|apply HD; exact A].
Qed.
Lemma showable_out : forall lib o P recs sel out, Forall (showable lib o) recs -> selects P recs sel -> Permutation out sel -> Forall (showable lib o) out.
Proof.
  intros lib o P recs sel out H S HP. apply Forall_forall. intros r Hr. rewrite Forall_forall in H. apply H.
  apply (Permutation_in _ HP) in Hr. apply (SelectProofs.selects_in _ _ _ _ S r Hr).
Qed.

(** A command on one database file (DNSTABLE_FNAME): the program prints exactly the
    records that the command and the options ask for, in the order of the file; with a
    wildcard possibly in another order. *)
Theorem lookup_file : forall lib ev ml now options args v o c t clk w recs, env_ok ev -> clock_ok clk ->
  understood ev now options args v o c (dnstable_reader_init t) -> c_type c <> QVersion -> c_type c <> QTimeRange ->
  database recs t -> strict t -> findable ev o c recs -> Forall (timely o) recs -> c_strings lib -> Forall (showable lib o) recs ->
  exists sel out, selects (wanted ev o c) recs sel /\ Permutation out sel /\ (out = sel \/ wildcard ev o c) /\ exists texts, Forall2 (record_output lib o) (skipn (Z.to_nat (o_offset o)) out) texts /\
  delivers lib o clk (fun rounds fuel => dnstable_lookup rounds fuel lib ev ml v options args now clk w) texts.
Proof.
  intros lib ev ml now options args v o c t clk w recs HE HK HU NV NT DB SB HF HT HC HSH.
  destruct (lookup_prints lib ev ml now options args v o c _ clk w HE HK HU) as (q & HQ & HP).
  destruct (asked _ _ _ _ _ _ _ HE (un_command _ _ _ _ _ _ _ _ HU) HQ NV NT (un_accepted _ _ _ _ _ _ _ _ HU) HF) as (M & HM & HA).
  rewrite Forall_forall in HT.
  assert (EXT : forall l, selects M recs l -> selects (wanted ev o c) recs l) by (intros l; apply selects_ext; intros r Hr; apply HM, HT, Hr).
  destruct HA as [HA|(WC & _ & I & B & HA)].
  - destruct (query_returns q t recs M DB HA) as (out & es & S & SH & L). exists out, out.
    split; [apply EXT; exact S|]. split; [apply Permutation_refl|]. split; [left; reflexivity|].
    apply (delivers_records _ _ _ _ _ es HC SH); [exact (showable_out _ _ _ _ _ _ HSH S (Permutation_refl _))|]. intros texts. apply HP. exact L.
  - destruct (query_returns_grouped q t recs _ _ _ DB SB HA) as (heads & outs & es & all & _ & _ & SA & PA & SH & L).
    exists all, (concat outs). split; [apply EXT; exact SA|]. split; [exact PA|]. split; [right; exact WC|].
    apply (delivers_records _ _ _ _ _ es HC SH); [exact (showable_out _ _ _ _ _ _ HSH SA PA)|]. intros texts. apply HP. exact L.
Qed.
Print Assumptions lookup_file.

(** In merged files observations have first <= last. *)
Lemma merged_timely : forall lib files recs o, merges lib files -> Forall file_ok files -> database recs (lib_merged lib files) ->
  Forall (timely o) recs.
Proof.
  intros lib files recs o HL HO (HF & _). pose proof (HL (fun _ => True) files (FilesetDirect.selects_all _ files)) as HM.
  apply Forall_forall. intros r Hr _. rewrite Forall_forall in HO.
  destruct (encodes_in _ _ _ HF Hr) as ([k vv] & Hin & He).
  assert (G : forall ob, timed_key k -> seen_as vv ob -> o_first ob <= o_last ob).
  { intros ob HK HS. assert (OB : observed k files).
    { intros f v Hf Hv. destruct (HO f Hf) as (_ & rg & _ & H). destruct (H k v Hv HK) as (o' & A & B & _). exists o'. split; assumption. }
    destruct (merged_obs k files _ vv HK OB HM Hin) as (o2 & S2 & (f & v' & o' & Hf & Hv & Hs & E1) & _ & LE).
    rewrite (seen_fun _ _ _ HS S2). destruct (LE f v' o' Hf Hv Hs) as (L1 & L2).
    destruct (HO f Hf) as (_ & rg & _ & H). destruct (H k v' Hv HK) as (o3 & A & B & C & _). rewrite (seen_fun _ _ _ Hs (conj A B)) in *. lia. }
  pose proof (proj2 (timed_record _ _ _ He)) as TK. destruct He as (_ & He). destruct r; try exact I; (apply G; [apply TK; exact I|]).
  - destruct He as (_ & _ & _ & A & _ & B). split; assumption.
  - destruct He as (_ & _ & A & _ & _ & B). split; assumption.
Qed.
Lemma files_timely : forall files recss o, Forall file_ok files -> Forall2 database recss files -> Forall (timely o) (concat recss).
Proof.
  intros files recss o HO HD. apply Forall_forall. intros r Hr _. apply in_concat in Hr. destruct Hr as (recs & Hrs & Hr).
  assert (F : exists f, database recs f /\ file_ok f).
  { clear - HO HD Hrs. induction HD as [|x f recss files D HD IH]; [destruct Hrs|]. inversion HO; subst. destruct Hrs as [->|Hrs]; [eauto|auto]. }
  destruct F as (f & (HF & _) & _ & rg & _ & H). destruct (encodes_in _ _ _ HF Hr) as ([k vv] & Hin & He).
  assert (G : forall ob, timed_key k -> seen_as vv ob -> o_first ob <= o_last ob).
  { intros ob HK HS. destruct (H k vv Hin HK) as (o3 & A & B & C & _). rewrite (seen_fun _ _ _ HS (conj A B)). exact C. }
  pose proof (proj2 (timed_record _ _ _ He)) as TK. destruct He as (_ & He). destruct r; try exact I; (apply G; [apply TK; exact I|]).
  - destruct He as (_ & _ & _ & A & _ & B). split; assumption.
  - destruct He as (_ & _ & A & _ & _ & B). split; assumption.
Qed.

(** For commands with a wildcard: the files' indexes are as documented, and looking up the
    type in them avoids the defect of [index_test_boundary]. *)
Definition set_indexed (ev : env) (ml : libmtbl) (c : command) (files : list table) (recss : list (list record)) : Prop :=
  Forall indexed recss /\ forall s P part k m, c_rrtype c = Some s -> selects P files part -> In (k, m) (lib_merged ml part) ->
    hd 0 k = 1 \/ hd 0 k = 3 -> index_safe m (str_to_rrtype ev s).

(** A command on a set of files (DNSTABLE_SETFILE): it prints the records asked for among
    the files' records merged. *)
Theorem lookup_set : forall lib ev ml now options args v o c files recss clk w, env_ok ev -> clock_ok clk ->
  understood ev now options args v o c (dnstable_reader_init_setfile files) -> c_type c <> QVersion -> c_type c <> QTimeRange ->
  o_aggregate o = true -> merges ml files -> Forall file_ok files -> Forall2 database recss files -> findable ev o c (concat recss) ->
  (wildcard ev o c -> set_indexed ev ml c files recss) ->
  c_strings lib -> (forall recs, database recs (lib_merged ml files) -> Forall (showable lib o) recs) ->
  exists recs sel out, database recs (lib_merged ml files) /\ selects (wanted ev o c) recs sel /\ Permutation out sel /\
  (out = sel \/ wildcard ev o c) /\ exists texts, Forall2 (record_output lib o) (skipn (Z.to_nat (o_offset o)) out) texts /\
  delivers lib o clk (fun rounds fuel => dnstable_lookup rounds fuel lib ev ml v options args now clk w) texts.
Proof.
  intros lib ev ml now options args v o c files recss clk w HE HK HU NV NT AG HM HO HD HF HX HC HSH.
  destruct (lookup_prints lib ev ml now options args v o c _ clk w HE HK HU) as (q & HQ & HP).
  destruct (asked _ _ _ _ _ _ _ HE (un_command _ _ _ _ _ _ _ _ HU) HQ NV NT (un_accepted _ _ _ _ _ _ _ _ HU) HF) as (M & HMW & HA).
  assert (QA : q_aggregated q = true) by (rewrite (qs_aggregated _ _ _ _ _ HQ); exact AG).
  assert (EXT : forall recs l, database recs (lib_merged ml files) -> selects M recs l -> selects (wanted ev o c) recs l).
  { intros recs l DB. apply selects_ext. intros r Hr. apply HMW. pose proof (merged_timely ml files recs o HM HO DB) as T. rewrite Forall_forall in T. auto. }
  destruct HA as [HA|(WC & QT & I & B & HA)].
  - destruct (fileset_query ml q files recss M HM HO HD QA HA) as (recs & out & es & DB & S & SH & L & _). exists recs, out, out.
    split; [exact DB|]. split; [apply EXT; assumption|]. split; [apply Permutation_refl|]. split; [left; reflexivity|].
    apply (delivers_records _ _ _ _ _ es HC SH); [exact (showable_out _ _ _ _ _ _ (HSH recs DB) S (Permutation_refl _))|]. intros texts. apply HP. exact L.
  - destruct (HX WC) as (IX & SAFE). assert (PS : parts_index_safe ml q files).
    { intros D P part HS k m Hin Hk. destruct (QT D) as (s & Es & ->). eapply SAFE; eauto. }
    destruct (fileset_query_grouped ml q files recss I B M HM HO HD QA IX PS HA) as (recs & heads & outs & all & es & DB & _ & _ & SA & PA & SH & L & _).
    exists recs, all, (concat outs). split; [exact DB|]. split; [apply EXT; assumption|]. split; [exact PA|]. split; [right; exact WC|].
    apply (delivers_records _ _ _ _ _ es HC SH); [exact (showable_out _ _ _ _ _ _ (HSH recs DB) SA PA)|]. intros texts. apply HP. exact L.
Qed.
Print Assumptions lookup_set.

(** With -u it prints the records asked for of all the files, each as it is stored; those
    with the same key one after the other by their times. *)
Theorem lookup_set_unaggregated : forall lib ev ml now options args v o c files recss clk w, env_ok ev -> clock_ok clk ->
  understood ev now options args v o c (dnstable_reader_init_setfile files) -> c_type c <> QVersion -> c_type c <> QTimeRange ->
  o_aggregate o = false -> merges ml files -> lists_duplicates ml files -> Forall file_ok files -> Forall2 database recss files ->
  findable ev o c (concat recss) -> (wildcard ev o c -> set_indexed ev ml c files recss) ->
  c_strings lib -> Forall (showable lib o) (concat recss) ->
  exists sel out, selects (wanted ev o c) (concat recss) sel /\ Permutation out sel /\
  ((exists kvs, Forall2 encodes out kvs /\ StronglySorted earlier (combine out kvs)) \/ wildcard ev o c) /\ exists texts, Forall2 (record_output lib o) (skipn (Z.to_nat (o_offset o)) out) texts /\
  delivers lib o clk (fun rounds fuel => dnstable_lookup rounds fuel lib ev ml v options args now clk w) texts.
Proof.
  intros lib ev ml now options args v o c files recss clk w HE HK HU NV NT AG HM HL HO HD HF HX HC HSH.
  destruct (lookup_prints lib ev ml now options args v o c _ clk w HE HK HU) as (q & HQ & HP).
  destruct (asked _ _ _ _ _ _ _ HE (un_command _ _ _ _ _ _ _ _ HU) HQ NV NT (un_accepted _ _ _ _ _ _ _ _ HU) HF) as (M & HMW & HA).
  assert (QA : q_aggregated q = false) by (rewrite (qs_aggregated _ _ _ _ _ HQ); exact AG).
  assert (EXT : forall l, selects M (concat recss) l -> selects (wanted ev o c) (concat recss) l).
  { intro l. apply selects_ext. intros r Hr. apply HMW. pose proof (files_timely files recss o HO HD) as T. rewrite Forall_forall in T. auto. }
  destruct HA as [HA|(WC & QT & I & B & HA)].
  - destruct (fileset_query_unaggregated ml q files recss M HL HO HD QA HA) as (sel & out & kvs & es & S & P & EN & SO & SH & L). exists sel, out.
    split; [apply EXT; exact S|]. split; [apply Permutation_sym; exact P|]. split; [left; eauto|].
    apply (delivers_records _ _ _ _ _ es HC SH); [exact (showable_out _ _ _ _ _ _ HSH S (Permutation_sym P))|]. intros texts. apply HP. exact L.
  - destruct (HX WC) as (IX & SAFE). assert (PS : parts_index_safe ml q files).
    { intros D P part HS k m Hin Hk. destruct (QT D) as (s & Es & ->). eapply SAFE; eauto. }
    destruct (fileset_query_unaggregated_grouped ml q files recss I B M HM HL HO HD QA IX PS HA) as (heads & hkvs & outs & kvss & sel & es & _ & _ & _ & _ & S & P & _ & _ & SH & L).
    exists sel, (concat outs). split; [apply EXT; exact S|]. split; [apply Permutation_sym; exact P|]. split; [right; exact WC|].
    apply (delivers_records _ _ _ _ _ es HC SH); [exact (showable_out _ _ _ _ _ _ HSH S (Permutation_sym P))|]. intros texts. apply HP. exact L.
Qed.
Print Assumptions lookup_set_unaggregated.

(** time_range and version, whatever bounds are given. *)
Definition metadata_keys (c : command) : bytes :=
  match c_type c, c_data c with
  | QTimeRange, _ => [254]
  | _, None => [255]
  | _, Some d => [255; if beq d (str "rrset") then 0 else if beq d (str "rrset_name") then 1 else if beq d (str "rdata") then 2 else 3]
  end.
Theorem lookup_metadata : forall lib ev ml now options args v o c t clk w l, env_ok ev -> clock_ok clk ->
  understood ev now options args v o c (dnstable_reader_init t) -> c_type c = QVersion \/ c_type c = QTimeRange ->
  sorted t -> selects (key_starts (metadata_keys c)) t l -> Forall stored_metadata l ->
  exists es, Forall2 PropsReader.metadata l es /\
  forall texts, Forall2 (entry_output lib o) es texts ->
  delivers lib o clk (fun rounds fuel => dnstable_lookup rounds fuel lib ev ml v options args now clk w) texts.
Proof.
  intros lib ev ml now options args v o c t clk w l HE HK HU HT HS HL HM.
  destruct (lookup_prints lib ev ml now options args v o c _ clk w HE HK HU) as (q & HQ & HP).
  assert (AM : asks_metadata q (key_starts (metadata_keys c))).
  { pose proof (qs_type _ _ _ _ _ HQ) as QT. pose proof (qs_data _ _ _ _ _ HQ) as QD. unfold metadata_keys. destruct HT as [T|T]; rewrite T in *.
    - destruct (c_data c) as [d|].
      + destruct QD as (ty & Hin & H1 & H2). assert (E : [255; if beq d (str "rrset") then 0 else if beq d (str "rrset_name") then 1 else if beq d (str "rdata") then 2 else 3] = [255; q_v_type q]).
        { rewrite H2. destruct Hin as [X|[X|[X|[X|[]]]]]; injection X as <- <-; reflexivity. }
        rewrite E. apply am_version; assumption.
      + apply am_versions; assumption.
    - apply am_time_range; assumption. }
  destruct (metadata_queries q _ t l HS AM (qs_metadata _ _ _ _ _ HQ HT) HL HM) as (es & ME & LE). exists es. split; [exact ME|].
  intros texts HF. apply (HP es texts); [exact LE|]. rewrite (proj1 (al_metadata _ _ (un_allowed _ _ _ _ _ _ _ _ HU) HT)). exact HF.
Qed.
Print Assumptions lookup_metadata.
