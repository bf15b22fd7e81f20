(** Theorems about the statistics of dnstable_lookup. *)
From Verif Require Import Str BaseFacts ModelIter ModelQuery ModelReader ModelSetters ModelFormat ModelFileset ModelLookup SpecReader.
From Verif Require Import SpecDeadline SpecFormat SpecSettings PropsSettings SpecLookup LookupProofs LookupQuery LookupBuild PropsLookup SpecStats StatsProofs PropsTools.

(** * C65: -s and -i *)

(** Whenever the program succeeds, the last lines on stderr are the summary.  Without -s
    and -i there is nothing before it.  Otherwise there is a report for every time the
    iterator of the query stopped (for the only time, without -i): the numbers
    dnstable_iter_get_count gives at this point, in total for each category or, with
    more than one -s, all of them; the number of entries so far; and the time since the
    start. *)
Theorem lookup_statistics : forall rounds fuel lib ev ml v options args now clk w out err,
  env_ok ev -> clock_ok clk -> (forall i j, (i <= j)%nat -> nanos (clk i) <= nanos (clk j))%Z ->
  dnstable_lookup rounds fuel lib ev ml v options args now clk w = Ok (out, err) ->
  exists o c d q qi i n timed, options_mean now options o /\ command_means args c /\ opened v o d /\ question ev o c clk q /\
    dnstable_reader_query ml d q = Ok qi /\
    (level o = 0 -> err = summary lib o timed (N.of_nat n mod u64)) /\
    (level o <> 0 -> exists ts, reports fuel (level o) (clk i) clk (S i) (qi, load_offset q w) 0 ts n /\ (o_interval o = 0%Z -> length ts = 1%nat) /\
       err = concat ts ++ summary lib o timed (N.of_nat n mod u64)).
Proof.
  intros rounds fuel lib ev ml v options args now clk w out err HE HK HM H. unfold dnstable_lookup in H.
  apply bind_ok in H. destruct H as (o & EO & H). apply bind_ok in H. destruct H as (c & EC & H). apply bind_ok in H. destruct H as ([] & EK & H).
  apply bind_ok in H. destruct H as (d & ED & H). apply bind_ok in H. destruct H as ([[[gd gi] clk'] q] & EB & H). apply bind_ok in H. destruct H as (qi & EQ & H).
  apply options_iff in EO. apply command_iff in EC. apply opened_iff in ED.
  pose proof (number_range _ _ _ (om_t _ _ _ EO)) as RT. pose proof (number_range _ _ _ (om_i _ _ _ EO)) as RI. pose proof (number_range _ _ _ (om_O _ _ _ EO)) as RO.
  assert (HQ : question ev o c clk q) by (eapply build_question; eauto; lia).
  destruct (build_does _ _ _ _ _ _ _ _ EB) as (_ & _ & _ & _ & EI & ECl).
  assert (EL : (if (o_interval o =? 0)%Z then o_stats o else if o_stats o =? 0 then 1 else o_stats o) = level o).
  { unfold level. destruct (o_interval o =? 0)%Z; [reflexivity|]. destruct (N.eqb_spec (o_stats o) 0); lia. }
  unfold do_dump in H. rewrite EL in H. clear EL.
  set (i := ((if (o_interval o =? 0)%Z then 0 else 1) + (if (o_timeout o =? 0)%Z then 0 else 1))%nat).
  assert (CI : forall j, clk' j = clk (i + j)%nat).
  { intro j. rewrite ECl. unfold clock_after, i. destruct (o_interval o =? 0)%Z, (o_timeout o =? 0)%Z; unfold later; f_equal; lia. }
  destruct (N.eq_dec (level o) 0) as [L0|L0].
  - rewrite L0 in H. destruct (rounds_silent fuel lib o gd gi (clk' O) rounds qi (load_offset q w) (later 1 clk') 0 [] [] out err H) as (n & timed & E).
    exists o, c, d, q, qi, i, n, timed. repeat (split; [assumption|]). split; [intros _; exact E|contradiction].
  - destruct (rounds_report (level o) fuel lib o gd gi (clk' O) clk (fun i => proj1 (HK i)) ltac:(rewrite CI; apply HK) ltac:(lia)
      rounds qi (load_offset q w) (later 1 clk') (S i) 0 [] [] out err) as (ts & n & timed & R & E & LN).
    { intro j. unfold later. rewrite CI. f_equal. lia. }
    { intros j Hj. rewrite CI. apply HM. lia. }
    { exact H. }
    exists o, c, d, q, qi, i, n, timed. repeat (split; [assumption|]). split; [contradiction|]. intros _. exists ts.
    rewrite CI, Nat.add_0_r in R. split; [exact R|]. split; [|exact E]. intro Z. apply LN. rewrite EI, Z. reflexivity.
Qed.
Print Assumptions lookup_statistics.

(** With -t 9, so that the first two readings of the clock, one second apart, are the
    start of the -t and of the lookup; of two RRsets one is later than the bound. *)
Definition nl : bytes := [10].
Example c65_case : clock_ok noclk /\ (forall i j, (i <= j)%nat -> nanos (noclk i) <= nanos (noclk j))%Z /\
  lookup_demo [(code "j", []); (code "s", []); (code "t", str "9"); (code "b", str "150")] [str "rrset"; str "WWW.ex.com"] =
    Ok (line_AAAA, nl ++ str "filtered : 1" ++ nl ++ str "merged   : 0" ++ nl ++ str "seek     : 0" ++ nl ++ str "files    : 0" ++ nl ++ nl ++
                str "entries  : 1" ++ nl ++ str "elapsed  : 1.000000000s" ++ nl).
Proof.
  split; [intro n; split; [split; cbn; lia|cbn; lia]|]. split; [intros i j H; unfold nanos, noclk; cbn [tv_sec tv_nsec]; lia|]. vm_compute. reflexivity.
Qed.
