(** The statistics of dnstable_lookup (-s, -i), which go to stderr, independently of the
    program.  Definitions only. *)
From Verif Require Import Str ModelIter ModelQuery ModelReader ModelSetters ModelLookup SpecDeadline SpecFormat.

(** How many times the numbers are asked for: as often as -s is given, -i alone counts as
    one -s. *)
Definition level (o : opts) : N := if (o_interval o =? 0)%Z then o_stats o else N.max 1 (o_stats o).

Definition stage_names : list (stage * string) :=
  [(StFileset, "fileset"); (StSingleLabel, "single label"); (StRrtype, "rrtype"); (StBailiwick, "bailiwick"); (StTimePrefilter, "time prefilter");
   (StRemoveStrict, "remove strict"); (StFillMerger, "fill merger"); (StLjoin, "left join"); (StTime, "time"); (StOffset, "offset")]%string.
Definition category_names : list (category * string) := [(CFiltered, "filtered"); (CMerged, "merged"); (CSeek, "seek"); (CFiles, "files")]%string.
(** The number dnstable_iter_get_count reports, if there is one. *)
Definition reported (x : qiter * world) (st : stage) (c : category) : list N :=
  match iter_get_count (fst x) (snd x) st c with (_, true, n) => [n] | _ => [] end.
(** With one -s a total for each category, otherwise each number there is. *)
Definition statistics (lv : N) (x : qiter * world) : list (bytes * N) :=
  if lv =? 1 then map (fun c => (str (snd c), sum (flat_map (fun s => reported x (fst s) (fst c)) stage_names) mod u64)) category_names
  else flat_map (fun s => flat_map (fun c => map (fun n => (str (snd s) ++ str " " ++ str (snd c), n)) (reported x (fst s) (fst c))) category_names) stage_names.

Definition width (rows : list (bytes * N)) : nat := fold_right Nat.max O (map (fun r => length (fst r)) rows).
(** A name and a value in two columns. *)
Definition two_columns (w : nat) (name value : bytes) : bytes := name ++ repeat 32 (w - length name) ++ str " : " ++ value ++ [10].
Definition row_text (w : nat) (r : bytes * N) (t : bytes) : Prop := exists v, decimal (snd r) v /\ t = two_columns w (fst r) v.
(** The statistics after [k] entries; the clock showed [a] at the start and shows [b]. *)
Definition report (lv : N) (x : qiter * world) (k : N) (a b : timespec) (t : bytes) : Prop :=
  exists rows dk s ds ns dns, Forall2 (row_text (width (statistics lv x))) (statistics lv x) rows /\ decimal k dk /\
    decimal s ds /\ padded 9 ns dns /\ (Z.of_N (s * 1000000000 + ns) = nanos b - nanos a)%Z /\
    t = [10] ++ concat rows ++ [10] ++ two_columns (width (statistics lv x)) (str "entries") dk ++
        two_columns (width (statistics lv x)) (str "elapsed") (ds ++ str "." ++ dns ++ str "s").

(** From [x] to [y] by calls of dnstable_iter_next, of which [k] returned an entry, and of
    dnstable_query_set_deadline. *)
Inductive called (fuel : nat) : qiter * world -> nat -> qiter * world -> Prop :=
| ca_none : forall x, called fuel x 0 x
| ca_entry : forall x e qi w k y, qnext fuel (fst x) (snd x) = (QEntry e, qi, w) -> called fuel (qi, w) k y -> called fuel x (S k) y
| ca_end : forall x qi w k y, qnext fuel (fst x) (snd x) = (QEnd, qi, w) -> called fuel (qi, w) k y -> called fuel x k y
| ca_timeout : forall x qi w k y, qnext fuel (fst x) (snd x) = (QTimeout, qi, w) -> called fuel (qi, w) k y -> called fuel x k y
| ca_deadline : forall x t k y, called fuel (set_timing (TDeadline t) (fst x), snd x) k y -> called fuel x k y.

(** One report whenever the iterator stops, after the last of which the program ends: the
    entries so far, [a] the clock at the start, readings of the clock from the [i]-th on.
    Between two reports the query gets a new deadline. *)
Inductive reports (fuel : nat) (lv : N) (a : timespec) (clk : clock) : nat -> qiter * world -> nat -> list bytes -> nat -> Prop :=
| rp_last : forall i x c k y j t, called fuel x k y -> (i <= j)%nat -> report lv y (N.of_nat (c + k) mod u64) a (clk j) t ->
    reports fuel lv a clk i x c [t] (c + k)
| rp_more : forall i x c k y j t d ts n, called fuel x k y -> (i <= j)%nat -> report lv y (N.of_nat (c + k) mod u64) a (clk j) t ->
    reports fuel lv a clk (S j) (set_timing (TDeadline d) (fst y), snd y) (c + k) ts n -> reports fuel lv a clk i x c (t :: ts) n.
