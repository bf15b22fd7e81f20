(** Property C34 over any tables: timeouts lose and duplicate nothing. *)
From Verif Require Import Base ModelEntry SpecEntry ModelIter SpecIter ModelQuery SpecQuery ModelFileset SpecFileset SpecReader SpecSound SpecDecode SpecTerm FuelProofs.
From Verif Require Import ResumeProofs ResumeNext ResumeCalls PropsQuery PropsSound HiddenProofs PropsHidden PropsTerm FilesetDemo Demo PropsIter.

(** Calls on [qi], some of which may time out, against calls on [qi0]: the calls that do
    not time out answer what as many calls on [qi0] answer.  [w] and [w0] are the states in
    which the calls start: the clock, the deadline and the counters may differ, what is left
    of the offset may not, and neither what mtbl does when a seek goes past the end. *)
Definition continues (qi qi0 : qiter) : Prop :=
  forall fuel ts w w0, w_offset w = w_offset w0 -> w_seek_end w = w_seek_end w0 ->
    let rs := timed_calls fuel ts qi w in
    ~ In QHang rs -> eventually (fun fuel' => answered rs = calls fuel' (length (answered rs)) qi0 w0).

Lemma common_continues : forall q fc t u qi, query_iter_common q fc (SBase t) (SBase u) = Ok qi ->
  exists qi0, query_iter_common (untimed q) fc (SBase t) (SBase u) = Ok qi0 /\ continues qi qi0.
Proof.
  intros q fc t u qi E. destruct (common_follow q fc t u qi E) as (qi0 & E0 & <- & HF). eexists. split; [exact E0|].
  intros fuel ts w w0 HO HE rs HH. apply (calls_follow (untimed q) fuel ts qi (bareq (untimed q) qi) w w0 eq_refl HF eq_refl eq_refl); [|exact HH].
  intros r k2 w3 HX. destruct HF as (_ & F2 & F3). cbn [bareq qi_source qi_kind]. eapply kruns_weq; [| | |split; [exact HO|exact HE]|exact HX].
  - intro h. rewrite open_bares. apply bare_resp, open_resp. exact F2.
  - intro h. rewrite open_bares. apply bare_no_timer.
  - destruct (qi_kind qi) as [i|tb i [c|]]; cbn in *; split; cbn; try split; try apply bare_resp; try apply bare_no_timer; tauto.
Qed.

(** * C34 *)
(** Over every table, sorted or not, whatever its keys and values are, and for every query:
    whatever the clock does and however timeout and deadline are changed between calls, the
    calls that do not time out answer the same sequence as the calls of the query without
    timeout and deadline.  This covers entries, the end and crashes. *)
Theorem timeouts_lose_nothing_anywhere : forall q t qi, dnstable_query_iter q t = Ok qi ->
  exists qi0, dnstable_query_iter (untimed q) t = Ok qi0 /\ continues qi qi0.
Proof. intros q t qi E. exact (common_continues q no_fence t t qi E). Qed.
Print Assumptions timeouts_lose_nothing_anywhere.

Lemma fates_untimed : forall q files, fates (untimed q) files = fates q files.
Proof. intros q files. induction files as [|f l IH]; [reflexivity|]. cbn [fates]. rewrite IH. reflexivity. Qed.

(** The same over several files, however libmtbl puts them together. *)
Theorem fileset_timeouts_lose_nothing : forall lib q files qi, dnstable_query_iter_fileset lib q files = Ok qi ->
  exists qi0, dnstable_query_iter_fileset lib (untimed q) files = Ok qi0 /\ continues qi qi0.
Proof.
  intros lib q files qi E. unfold dnstable_query_iter_fileset in *.
  rewrite fates_untimed. change (has_time_bound (untimed q)) with (has_time_bound q).
  change (q_aggregated (untimed q)) with (q_aggregated q). change (q_do_tfa (untimed q)) with (q_do_tfa q). change (q_do_tlb (untimed q)) with (q_do_tlb q).
  destruct (fates q files) as [l| | | |]; cbn [bind] in *; try discriminate E. destruct (q_aggregated q); apply common_continues; exact E.
Qed.
Print Assumptions fileset_timeouts_lose_nothing.

Lemma calls_keep : forall fuel n qi w, calls fuel n qi w = timed_calls fuel (repeat TKeep n) qi w.
Proof.
  intros fuel n. induction n as [|n IH]; intros qi w; [reflexivity|]. cbn [calls repeat timed_calls].
  assert (E : set_timing TKeep qi = qi) by (destruct qi; reflexivity). rewrite E. destruct (qnext fuel qi w) as [[r qi'] w']. f_equal. apply IH.
Qed.
Lemma calls_more : forall fuel n qi w, ~ In QHang (calls fuel n qi w) -> forall fuel', (fuel <= fuel')%nat -> calls fuel' n qi w = calls fuel n qi w.
Proof.
  intros fuel n. induction n as [|n IH]; intros qi w HH fuel' HL; [reflexivity|]. cbn [calls] in *. destruct (qnext fuel qi w) as [[r qi'] w'] eqn:E.
  rewrite (qnext_mono _ _ _ _ _ _ E) by (auto; intros ->; apply HH; left; reflexivity). f_equal. apply IH; [intro X; apply HH; right; exact X|exact HL].
Qed.

(** Where all calls come to an end (C86), rounds enough for all of them can be fixed before
    the clock, the settings and the calls are. *)
Theorem timeouts_lose_nothing_in_files : forall q t qi, sorted t -> readable_keys t -> q_rrtype q < u32 -> dnstable_query_iter q t = Ok qi ->
  exists qi0 rounds, dnstable_query_iter (untimed q) t = Ok qi0 /\
  forall fuel ts w w0, (rounds <= fuel)%nat -> w_offset w = w_offset w0 -> w_seek_end w = w_seek_end w0 ->
    let rs := timed_calls fuel ts qi w in answered rs = calls fuel (length (answered rs)) qi0 w0.
Proof.
  intros q t qi HS HR HU E. destruct (timeouts_lose_nothing_anywhere q t qi E) as (qi0 & E0 & HC).
  destruct (iteration_ends t q qi HS HR HU E) as (n1 & H1). destruct (iteration_ends t (untimed q) qi0 HS HR HU E0) as (n2 & H2).
  exists qi0, (Nat.max n1 n2). split; [exact E0|]. intros fuel ts w w0 HL HO HE rs.
  destruct (HC fuel ts w w0 HO HE (proj1 (H1 fuel ts w ltac:(lia)))) as (n3 & H3). fold rs in H3.
  rewrite (H3 (Nat.max fuel n3)) at 1 by lia. apply calls_more; [|lia].
  rewrite calls_keep. apply H2. lia.
Qed.
Print Assumptions timeouts_lose_nothing_in_files.

(** A query that goes through an index, junk between the entries it finds, a clock that jumps
    past the deadline now and then, and the deadline moved after the second timeout. *)
Definition Q34x := with_deadline (Some {| tv_sec := 5; tv_nsec := 0 |}) Q86.
Definition mixed : table :=
  [put (RRset [[97]; [98]] 1 [] [[9; 9; 9; 9]] (ob 10 20 3)); ([0; 1; 98; 1; 97; 0; 1; 5; 97], []);
   put (RRset [[97]; [99]] 1 [] [[9; 9; 9; 9]] (ob 10 20 3)); put (OwnerIndex [[97]; [98]] [0; 1; 64]); put (OwnerIndex [[97]; [99]] [0; 1; 64])].
Example c34_anywhere_case : sorted mixed /\ readable_keys mixed /\ q_rrtype Q34x < u32 /\ is_timed Q34x = true /\
  match dnstable_query_iter Q34x mixed, dnstable_query_iter (untimed Q34x) mixed with
  | Ok qi, Ok qi0 =>
      map outline (calls 60 7 qi jumpy) = [0; 2; 2; 0; 2; 1; 2] /\
      map outline (timed_calls 60 [TKeep; TKeep; TKeep; TDeadline {| tv_sec := 20; tv_nsec := 0 |}; TKeep; TKeep] qi jumpy) = [0; 2; 2; 0; 1; 1] /\
      map outline (calls 60 4 qi0 jumpy) = [0; 0; 1; 1]
  | _, _ => False
  end.
Proof. split; [repeat constructor|]. split; [apply readable_check; vm_compute; reflexivity|]. split; [vm_compute; reflexivity|]. split; [reflexivity|]. vm_compute. auto. Qed.
(** Keys out of order: a table libmtbl never gives, which the theorem covers as well. *)
Definition disorder : table := rev mixed.
Example c34_disorder_case : (exists qi, dnstable_query_iter Q34x disorder = Ok qi) /\ ~ sorted disorder.
Proof. split; [eexists; vm_compute; reflexivity|]. intro H. inversion H as [|e l HS HF]; subst. inversion HF as [|? ? A B]; subst. vm_compute in A. discriminate. Qed.
(** Three files with junk, as for C86, and a deadline. *)
Example c34_files_case :
  match dnstable_query_iter_fileset lib0 (with_deadline (Some {| tv_sec := 5; tv_nsec := 0 |}) (Q79files true)) junk_files with
  | Ok qi => map outline (calls 60 4 qi jumpy) = [0; 1; 2; 1]
  | _ => False
  end.
Proof. vm_compute. reflexivity. Qed.
