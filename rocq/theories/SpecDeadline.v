(** When a call of dnstable_iter_next may time out.  Definitions only. *)
From Verif Require Import Base ModelIter ModelQuery.

(** A time in nanoseconds, and the timespecs that are in normal form. *)
Definition nanos (t : timespec) : Z := (tv_sec t * 1000000000 + tv_nsec t)%Z.
Definition normal (t : timespec) : Prop := (0 <= tv_nsec t < 1000000000)%Z.

(** The query's iterator, after any calls of dnstable_iter_next on it, and with [q] the
    query as it stands: its timeout and its deadline may have been changed if it had one
    of them when the iterator was created. *)
Inductive iterator_of : query -> table -> qiter -> Prop :=
| io_new : forall q t qi, dnstable_query_iter q t = Ok qi -> iterator_of q t qi
| io_next : forall q t fuel qi w r qi' w', iterator_of q t qi -> qnext fuel qi w = (r, qi', w') -> iterator_of q t qi'
| io_timing : forall q t qi tm, iterator_of q t qi -> is_timed q = true -> iterator_of (retime tm q) t (set_timing tm qi).

(** The clock readings of the world are numbered; a call started in [w] and ended
    in [w'] has made those from [w_tick w] up to, not including, [w_tick w'].
    With a relative timeout the first one fixes the start of the call. *)
Definition reading (w : world) (n : nat) : Z := nanos (w_now w n).

(** When a call started in [w] is due to time out, if ever. *)
Definition due (q : query) (w : world) : option Z :=
  match q_do_timeout q, q_do_deadline q with
  | false, false => None
  | true, false => Some (reading w (w_tick w) + nanos (q_timeout q))%Z
  | false, true => Some (nanos (q_deadline q))
  | true, true => Some (Z.min (reading w (w_tick w) + nanos (q_timeout q)) (nanos (q_deadline q)))
  end.
Definition first_check (q : query) (w : world) : nat := if q_do_timeout q then S (w_tick w) else w_tick w.

(** The clock gives times in normal form, and so were timeout and deadline. *)
Definition times_normal (q : query) (w : world) : Prop :=
  (forall n, normal (w_now w n)) /\ (q_do_timeout q = true -> normal (q_timeout q)) /\
  (q_do_deadline q = true -> normal (q_deadline q)).
