(** C35: when dnstable_iter_next times out. *)
From Verif Require Import Base BaseFacts SpecMerge ModelEntry ModelIter IterProofs ModelQuery SpecQuery QueryProofs SpecDeadline DeadlineProofs Demo PropsQuery.

(** * C35 *)

(** With neither timeout nor deadline no call times out.  Otherwise every call that
    comes to an end checks the clock at least once, all but the last check found the
    time to be before the due time, and the call times out exactly when the last
    check found the due time reached. *)
Theorem timeout_exactly_when_due : forall q t qi fuel w r qi' w', iterator_of q t qi -> times_normal q w ->
  qnext fuel qi w = (r, qi', w') ->
  match due q w with
  | None => r <> QTimeout
  | Some d =>
      r <> QHang ->
      (first_check q w < w_tick w')%nat /\
      (forall n, (first_check q w <= n)%nat -> (S n < w_tick w')%nat -> (reading w n < d)%Z) /\
      (r = QTimeout <-> (d <= reading w (w_tick w' - 1))%Z)
  end.
Proof.
  intros q t qi fuel w r qi' w' HI HN H. pose proof (iterator_calm _ _ _ HI) as HC.
  destruct (qnext_clock _ _ _ _ _ _ _ HC H) as ((P & N1 & K) & _).
  destruct (is_timed q) eqn:ET.
  - destruct (set_deadline_due q w HN ET) as (A & B & C & D). rewrite D. intro Hh.
    specialize (K eq_refl Hh). rewrite B in K. split; [exact K|].
    destruct P as (P1 & P2 & P3 & P4 & P5). rewrite B in *.
    assert (BE : forall n, before (iter_set_deadline q w) n <-> (reading w n < nanos (w_deadline (iter_set_deadline q w)))%Z).
    { intro n. unfold before, reading. rewrite A, ts_cmp_ok; [apply Z.compare_lt_iff|apply HN|exact C]. }
    assert (QD : r = QTimeout \/ r <> QTimeout) by (destruct r; (left; reflexivity) || (right; discriminate)).
    destruct QD as [->|NE].
    + destruct (P5 eq_refl) as (n & X & Y & Z & T). rewrite BE in Z. rewrite X. split.
      * intros m M1 M2. apply BE. apply T. lia.
      * replace (S n - 1)%nat with n by lia. split; [lia|reflexivity].
    + specialize (P4 NE). split.
      * intros n M1 M2. apply BE. apply P4. lia.
      * split; [contradiction|]. intro L. exfalso. assert (X : before (iter_set_deadline q w) (w_tick w' - 1)) by (apply P4; lia).
        apply BE in X. lia.
  - unfold is_timed in ET. apply orb_false_iff in ET. destruct ET as [E1 E2].
    unfold due. rewrite E1, E2. apply N1. reflexivity.
Qed.
Print Assumptions timeout_exactly_when_due.

(** So with a clock that does not run backwards: once the due time has passed, a
    call times out; and a call that times out returns no earlier than that. *)
Theorem overdue_call_times_out : forall q t qi fuel w r qi' w' d, iterator_of q t qi -> times_normal q w ->
  (forall m n, (m <= n)%nat -> (reading w m <= reading w n)%Z) ->
  qnext fuel qi w = (r, qi', w') -> r <> QHang -> due q w = Some d ->
  ((d <= reading w (w_tick w))%Z -> r = QTimeout) /\ (r = QTimeout -> (d <= reading w (w_tick w' - 1))%Z).
Proof.
  intros q t qi fuel w r qi' w' d HI HN HM H Hh HD. pose proof (timeout_exactly_when_due _ _ _ _ _ _ _ _ HI HN H) as T.
  rewrite HD in T. destruct (T Hh) as (A & _ & C). split; [|apply C]. intro L. apply C.
  assert (w_tick w <= w_tick w' - 1)%nat by (unfold first_check in A; destruct (q_do_timeout q); lia).
  specialize (HM _ _ H0). lia.
Qed.
Print Assumptions overdue_call_times_out.

(** A clock that advances by 0.6 s from one reading to the next; a timeout of 1 s and
    a deadline at 3 s.  The third call starts at 2.4 s and finds the deadline reached
    at 3 s. *)
Definition ticking : world :=
  {| w_now := fun n => {| tv_sec := Z.of_nat n * 6 / 10; tv_nsec := Z.of_nat n * 6 mod 10 * 100000000 |}; w_tick := 0;
     w_deadline := {| tv_sec := 0; tv_nsec := 0 |}; w_seek_end := fun _ _ => false; w_offset := 0;
     w_cnt := fun _ _ => 0; w_log := [] |}.
Definition Q35 : query :=
  let q := Q22 in
  {| q_type := q_type q; q_do_rrtype := q_do_rrtype q; q_rrtype := q_rrtype q;
     q_do_timeout := true; q_timeout := {| tv_sec := 1; tv_nsec := 0 |}; q_do_deadline := true; q_deadline := {| tv_sec := 3; tv_nsec := 0 |};
     q_aggregated := q_aggregated q; q_case_sensitive := q_case_sensitive q;
     q_do_tfb := q_do_tfb q; q_tfb := q_tfb q; q_do_tfa := q_do_tfa q; q_tfa := q_tfa q;
     q_do_tlb := q_do_tlb q; q_tlb := q_tlb q; q_do_tla := q_do_tla q; q_tla := q_tla q;
     q_name := q_name q; q_bailiwick := q_bailiwick q;
     q_len_ip1 := q_len_ip1 q; q_len_ip2 := q_len_ip2 q; q_ip1 := q_ip1 q; q_ip2 := q_ip2 q;
     q_len_rdata := q_len_rdata q; q_rdata := q_rdata q; q_offset := q_offset q;
     q_has_v_type := q_has_v_type q; q_v_type := q_v_type q |}.
Example c35_case : times_normal Q35 ticking /\ (forall m n, (m <= n)%nat -> (reading ticking m <= reading ticking n)%Z) /\
  exists qi, iterator_of Q35 demo_table qi /\ map outline (calls 100 4 qi ticking) = [0; 0; 2; 2] /\
    due Q35 ticking = Some 1000000000%Z /\ due Q35 (after_calls 100 2 qi ticking) = Some 3000000000%Z.
Proof.
  split; [|split].
  - split; [intro n|split; intros _]; unfold normal; cbn [ticking w_now tv_nsec Q35 q_timeout q_deadline]; lia.
  - intros m n L. unfold reading, nanos. cbn [ticking w_now tv_nsec tv_sec]. lia.
  - eexists. split; [apply io_new; reflexivity|]. vm_compute. auto.
Qed.
Print Assumptions c35_case.
