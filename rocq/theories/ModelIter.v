(** Model of dnstable/query_mtbl.c: the filter, timeout, remove and left-join
    sources, over sorted tables.  Definitions only.

    libmtbl (external) is modelled by [base_it]: an iterator over a table is the
    list of the table's entries inside the requested window and the part of it
    still to come.  mtbl_iter_seek moves to the first entry at or after the
    target; whether it reports failure when there is none is left open for every
    window and target ([w_seek_end]; libmtbl has NULL for some iterators without
    entries, on which every call fails).  Seeks to targets before the start of the window are treated
    as seeks to its start; no caller in dnstable makes one. *)
From Verif Require Import Base.

Definition kv : Type := (bytes * bytes)%type.
Definition table := list kv.

(** The window of mtbl_source_iter / get / get_prefix / get_range
    (the source functions in query_mtbl.c:83-121, 262-265, 420-423, 539-542, 768-771).  Ranges are inclusive. *)
Inductive how :=
| HIter
| HGet (k : bytes)
| HPrefix (k : bytes)
| HRange (k1 k2 : bytes).

Definition in_window (h : how) (k : bytes) : bool :=
  match h with
  | HIter => true
  | HGet k0 => beq k0 k
  | HPrefix p => is_prefix p k
  | HRange k1 k2 => ble k1 k && ble k k2
  end.

Definition window (h : how) (t : table) : table := filter (fun e => in_window h (fst e)) t.

Record base_it := { b_win : table; b_rest : table }.

Definition base_open (h : how) (t : table) : base_it :=
  {| b_win := window h t; b_rest := window h t |}.

(** mtbl_iter_next; [None] is mtbl_res_failure. *)
Definition base_next (b : base_it) : option kv * base_it :=
  match b_rest b with
  | [] => (None, b)
  | e :: r => (Some e, {| b_win := b_win b; b_rest := r |})
  end.

Fixpoint drop_before (k : bytes) (t : table) : table :=
  match t with
  | [] => []
  | e :: r => if blt (fst e) k then drop_before k r else t
  end.

(** libmy/my_time.h: struct timespec. *)
Record timespec := { tv_sec : Z; tv_nsec : Z }.

(** my_time.h:32-40 my_timespec_add(a, b): b += a.  [n] bounds the loop. *)
Fixpoint ts_normalize (n : nat) (s ns : Z) : timespec :=
  match n with
  | O => {| tv_sec := s; tv_nsec := ns |}
  | S n' => if (1000000000 <=? ns)%Z then ts_normalize n' (s + 1)%Z (ns - 1000000000)%Z
            else {| tv_sec := s; tv_nsec := ns |}
  end.
Definition ts_add (a b : timespec) : timespec :=
  let s := (tv_sec b + tv_sec a)%Z in
  let ns := (tv_nsec b + tv_nsec a)%Z in
  ts_normalize (Z.to_nat (ns / 1000000000)%Z) s ns.

(** my_time.h:59-72 my_timespec_cmp. *)
Definition ts_cmp (a b : timespec) : comparison :=
  match (tv_sec a ?= tv_sec b)%Z with
  | Eq => (tv_nsec a ?= tv_nsec b)%Z
  | c => c
  end.

(** dnstable.h:69-87. *)
Inductive stage := StFileset | StSingleLabel | StRrtype | StBailiwick | StTimePrefilter
| StRemoveStrict | StFillMerger | StLjoin | StTime | StOffset.
Inductive category := CFiltered | CMerged | CSeek | CFiles.

Definition stage_eqb (a b : stage) : bool :=
  match a, b with
  | StFileset, StFileset | StSingleLabel, StSingleLabel | StRrtype, StRrtype
  | StBailiwick, StBailiwick | StTimePrefilter, StTimePrefilter
  | StRemoveStrict, StRemoveStrict | StFillMerger, StFillMerger | StLjoin, StLjoin
  | StTime, StTime | StOffset, StOffset => true
  | _, _ => false
  end.
Definition category_eqb (a b : category) : bool :=
  match a, b with
  | CFiltered, CFiltered | CMerged, CMerged | CSeek, CSeek | CFiles, CFiles => true
  | _, _ => false
  end.

(** What happened, for stating what the counters mean.  Not part of the program. *)
Inductive event :=
| EvReject (s : stage) (k v : bytes)   (* stage s dropped the entry (k, v) *)
| EvMerge (s : stage) (k : bytes)      (* stage s merged two values of k *)
| EvSeek (s : stage) (k : bytes).      (* stage s moved an iterator to k *)

(** State shared by the stages: the query's remaining offset, the counters, the
    deadline and the clock ([w_now n] is the n-th reading of it). *)
Record world := {
  w_now : nat -> timespec;
  w_tick : nat;
  w_deadline : timespec;
  w_seek_end : table -> bytes -> bool;
  w_offset : N;
  w_cnt : stage -> category -> N;
  w_log : list event
}.

Definition bump (s : stage) (c : category) (w : world) : world :=
  {| w_now := w_now w; w_tick := w_tick w; w_deadline := w_deadline w; w_seek_end := w_seek_end w;
     w_offset := w_offset w;
     w_cnt := fun s' c' => if stage_eqb s s' && category_eqb c c' then w_cnt w s' c' + 1 else w_cnt w s' c';
     w_log := w_log w |}.

Definition note (e : event) (w : world) : world :=
  {| w_now := w_now w; w_tick := w_tick w; w_deadline := w_deadline w; w_seek_end := w_seek_end w;
     w_offset := w_offset w; w_cnt := w_cnt w; w_log := e :: w_log w |}.

Definition set_offset (o : N) (w : world) : world :=
  {| w_now := w_now w; w_tick := w_tick w; w_deadline := w_deadline w; w_seek_end := w_seek_end w;
     w_offset := o; w_cnt := w_cnt w; w_log := w_log w |}.

Definition set_deadline (d : timespec) (w : world) : world :=
  {| w_now := w_now w; w_tick := w_tick w; w_deadline := d; w_seek_end := w_seek_end w;
     w_offset := w_offset w; w_cnt := w_cnt w; w_log := w_log w |}.

(** my_gettime. *)
Definition gettime (w : world) : timespec * world :=
  (w_now w (w_tick w),
   {| w_now := w_now w; w_tick := S (w_tick w); w_deadline := w_deadline w; w_seek_end := w_seek_end w;
      w_offset := w_offset w; w_cnt := w_cnt w; w_log := w_log w |}).

(** mtbl_iter_seek on a table iterator: (success, iterator). *)
Definition base_seek (k : bytes) (b : base_it) (w : world) : bool * base_it :=
  let r := drop_before k (b_win b) in
  (match r with [] => w_seek_end w (b_win b) k | _ => true end, {| b_win := b_win b; b_rest := r |}).

(** A filter function's answer.  [FSeek k] is "no match, and return the result
    of seeking the upstream iterator to k"; [FStop] is mtbl_res_failure. *)
Inductive fres := FMatch | FSkip | FSeek (k : bytes) | FStop | FAbort | FUB.
Definition filter_fn := world -> bytes -> bytes -> fres * world.
Definition merge_fn := bytes -> bytes -> bytes -> res bytes.

(** Sources.  The sources given to remove_mtbl_add_source are table readers and
    the right side of the left join is a merger of table readers, so both are
    tables here. *)
Inductive source :=
| SBase (t : table)
| SFilter (s : stage) (f : filter_fn) (up : source)
| STimeout (up : source)
| SRemove (rms : list table) (up : source)
| SLjoin (mf : merge_fn) (rt : table) (lf : source).

(** query_mtbl.c:585-592 struct remove_entry; [re_it = None] is it == NULL. *)
Record rm_entry := { re_table : table; re_it : option base_it; re_key : bytes; re_finished : bool }.

(** The iterators over these sources (query_mtbl.c:139-149, 339-343, 492-495, 594-603). *)
Inductive iter :=
| IBase (b : base_it)
| IFilter (s : stage) (f : filter_fn) (it : iter)
| ITimeout (it : iter)
| IRemove (h : how) (rms : list rm_entry) (it : iter)
| ILjoin (mf : merge_fn) (rb : base_it) (right_kv : option kv) (right_finished : bool) (it : iter).

(** The source_iter_common functions: query_mtbl.c:248-259, 402-418, 526-537, 734-766. *)
Fixpoint open (h : how) (s : source) : iter :=
  match s with
  | SBase t => IBase (base_open h t)
  | SFilter st f up => IFilter st f (open h up)
  | STimeout up => ITimeout (open h up)
  | SRemove rms up =>
      IRemove h (map (fun t => {| re_table := t; re_it := None; re_key := []; re_finished := false |}) rms) (open h up)
  | SLjoin mf rt lf => ILjoin mf (base_open h rt) None false (open h lf)
  end.

Inductive out := OOk (e : kv) | OFail | OExpired | OAbort | OUB | OHang.

(** query_mtbl.c:693-712 remove_iter_seek, one entry.  The entries are independent, so
    the order in which the program visits them does not matter. *)
Definition remove_entry_seek (k : bytes) (re : rm_entry) (w : world) : rm_entry * world :=
  match re_it re with
  | None => (re, w)
  | Some b =>
      if re_finished re || blt k (re_key re) then
        let (ok, b1) := base_seek k b w in
        if ok then
          let w1 := note (EvSeek StRemoveStrict k) (bump StRemoveStrict CSeek w) in
          match base_next b1 with
          | (None, b2) =>
              ({| re_table := re_table re; re_it := Some b2; re_key := re_key re; re_finished := true |}, w1)
          | (Some e, b2) =>
              ({| re_table := re_table re; re_it := Some b2; re_key := fst e; re_finished := false |}, w1)
          end
        else ({| re_table := re_table re; re_it := Some b1; re_key := re_key re; re_finished := true |}, w)
      else (re, w)
  end.

Fixpoint remove_entries_seek (k : bytes) (l : list rm_entry) (w : world) : list rm_entry * world :=
  match l with
  | [] => ([], w)
  | re :: r =>
      let (re', w1) := remove_entry_seek k re w in
      let (r', w2) := remove_entries_seek k r w1 in
      (re' :: r', w2)
  end.

(** mtbl_iter_seek on an iterator: (success, iterator, world).
    query_mtbl.c:151-167 ljoin, 370-375 filter, 511-516 timeout, 681-716 remove. *)
Fixpoint seek (k : bytes) (it : iter) (w : world) : bool * iter * world :=
  match it with
  | IBase b => let (ok, b') := base_seek k b w in (ok, IBase b', w)
  | IFilter s f u => let '(ok, u', w') := seek k u w in (ok, IFilter s f u', w')
  | ITimeout u => let '(ok, u', w') := seek k u w in (ok, ITimeout u', w')
  | IRemove h rms u =>
      let (rms', w1) := remove_entries_seek k rms w in
      let '(ok, u', w2) := seek k u w1 in
      (ok, IRemove h rms' u', w2)
  | ILjoin mf rb rk fin u =>
      let '(ok, u', w') := seek k u w in
      if ok then
        let (rok, rb') := base_seek k rb w' in
        (true, ILjoin mf rb' None (negb rok) u', w')
      else (false, ILjoin mf rb rk fin u', w')
  end.

(** query_mtbl.c:634-656: the loop of match_key over one entry.
    Answer: (matched, entry, world); [None] when out of fuel. *)
Fixpoint match_entry (fuel : nat) (key : bytes) (re : rm_entry) (w : world) : option (bool * rm_entry * world) :=
  match fuel with
  | O => None
  | S f =>
      if re_finished re then Some (false, re, w)
      else match re_it re with
      | None => Some (false, re, w)
      | Some b =>
          match bytes_compare (re_key re) key with
          | Gt => Some (false, re, w)
          | Eq => Some (true, re, w)
          | Lt =>
              let (ok, b1) := base_seek key b w in
              if ok then
                let w1 := note (EvSeek StRemoveStrict key) (bump StRemoveStrict CSeek w) in
                match base_next b1 with
                | (None, b2) =>
                    Some (false, {| re_table := re_table re; re_it := Some b2; re_key := re_key re; re_finished := true |}, w1)
                | (Some e, b2) =>
                    match_entry f key {| re_table := re_table re; re_it := Some b2; re_key := fst e; re_finished := false |} w1
                end
              else Some (false, {| re_table := re_table re; re_it := Some b1; re_key := re_key re; re_finished := true |}, w)
          end
      end
  end.

(** query_mtbl.c:618-632: opening an entry's iterator on first use. *)
Definition open_entry (h : how) (key : bytes) (re : rm_entry) (w : world) : rm_entry * world :=
  match re_it re with
  | Some _ => (re, w)
  | None =>
      let (ok, b1) := base_seek key (base_open h (re_table re)) w in
      if ok then
        let w1 := note (EvSeek StRemoveStrict key) (bump StRemoveStrict CSeek w) in
        match base_next b1 with
        | (None, b2) =>
            ({| re_table := re_table re; re_it := Some b2; re_key := re_key re; re_finished := true |}, w1)
        | (Some e, b2) =>
            ({| re_table := re_table re; re_it := Some b2; re_key := fst e; re_finished := re_finished re |}, w1)
        end
      else ({| re_table := re_table re; re_it := Some b1; re_key := re_key re; re_finished := true |}, w)
  end.

(** query_mtbl.c:605-663 match_key.  The entry that matches moves to the front. *)
Fixpoint match_key (fuel : nat) (h : how) (key val : bytes) (l : list rm_entry) (w : world)
  : option (bool * list rm_entry * world) :=
  match l with
  | [] => Some (false, [], w)
  | re :: r =>
      let (re1, w1) := open_entry h key re w in
      match match_entry fuel key re1 w1 with
      | None => None
      | Some (true, re2, w2) =>
          Some (true, re2 :: r, note (EvReject StRemoveStrict key val) (bump StRemoveStrict CFiltered w2))
      | Some (false, re2, w2) =>
          match match_key fuel h key val r w2 with
          | None => None
          | Some (true, m :: r', w3) => Some (true, m :: re2 :: r', w3)
          | Some (true, [], w3) => Some (true, [re2], w3)
          | Some (false, r', w3) => Some (false, re2 :: r', w3)
          end
      end
  end.

(** query_mtbl.c:190-233: the right side of a left join, for the left entry (lk, lv). *)
Fixpoint join_right (fuel : nat) (mf : merge_fn) (rb : base_it) (rkv : option kv) (fin : bool)
  (lk lv : bytes) (w : world) : out * base_it * option kv * bool * world :=
  match fuel with
  | O => (OHang, rb, rkv, fin, w)
  | S f =>
      if fin then (OOk (lk, lv), rb, rkv, fin, w)
      else
        match (match rkv with
               | Some e => (Some e, rb)
               | None => base_next rb
               end) with
        | (None, rb1) => (OOk (lk, lv), rb1, None, true, w)
        | (Some (rk, rv), rb1) =>
            match bytes_compare rk lk with
            | Lt =>
                let (ok, rb2) := base_seek lk rb1 w in
                if ok then
                  join_right f mf rb2 None false lk lv (note (EvSeek StLjoin lk) (bump StLjoin CSeek w))
                else (OOk (lk, lv), rb2, Some (rk, rv), true, w)
            | Gt => (OOk (lk, lv), rb1, Some (rk, rv), false, w)
            | Eq =>
                match mf lk lv rv with
                | Ok m => (OOk (lk, m), rb1, Some (rk, rv), false,
                           note (EvMerge StLjoin lk) (bump StLjoin CMerged w))
                | Fail => (OFail, rb1, Some (rk, rv), false, w)
                | Abort => (OAbort, rb1, Some (rk, rv), false, w)
                | UB => (OUB, rb1, Some (rk, rv), false, w)
                | Hang => (OHang, rb1, Some (rk, rv), false, w)
                end
            end
        end
  end.

(** mtbl_iter_next.  query_mtbl.c:169-236 ljoin, 345-368 filter, 497-509 timeout,
    665-679 remove.  [OExpired] is the longjmp of the timeout source; the
    iterator state then is what the program has left behind. *)
Fixpoint next (fuel : nat) (it : iter) (w : world) {struct fuel} : out * iter * world :=
  match fuel with
  | O => (OHang, it, w)
  | S f =>
      match it with
      | IBase b =>
          match base_next b with
          | (Some e, b') => (OOk e, IBase b', w)
          | (None, b') => (OFail, IBase b', w)
          end
      | ITimeout u =>
          let (now, w1) := gettime w in
          match ts_cmp now (w_deadline w1) with
          | Lt => let '(o, u', w2) := next f u w1 in (o, ITimeout u', w2)
          | _ => (OExpired, ITimeout u, w1)
          end
      | IFilter s ff u =>
          match next f u w with
          | (OOk (k, v), u1, w1) =>
              match ff w1 k v with
              | (FMatch, w2) => (OOk (k, v), IFilter s ff u1, w2)
              | (FSkip, w2) =>
                  next f (IFilter s ff u1) (note (EvReject s k v) (bump s CFiltered w2))
              | (FSeek k', w2) =>
                  let '(ok, u2, w3) := seek k' u1 (note (EvSeek s k') (bump s CSeek w2)) in
                  if ok then next f (IFilter s ff u2) (note (EvReject s k v) (bump s CFiltered w3))
                  else (OFail, IFilter s ff u2, w3)
              | (FStop, w2) => (OFail, IFilter s ff u1, w2)
              | (FAbort, w2) => (OAbort, IFilter s ff u1, w2)
              | (FUB, w2) => (OUB, IFilter s ff u1, w2)
              end
          | (o, u1, w1) => (o, IFilter s ff u1, w1)
          end
      | IRemove h rms u =>
          match next f u w with
          | (OOk (k, v), u1, w1) =>
              match match_key f h k v rms w1 with
              | None => (OHang, it, w)
              | Some (true, rms', w2) => next f (IRemove h rms' u1) w2
              | Some (false, rms', w2) => (OOk (k, v), IRemove h rms' u1, w2)
              end
          | (o, u1, w1) => (o, IRemove h rms u1, w1)
          end
      | ILjoin mf rb rkv fin u =>
          match next f u w with
          | (OOk (k, v), u1, w1) =>
              let '(o, rb', rkv', fin', w2) := join_right f mf rb rkv fin k v w1 in
              (o, ILjoin mf rb' rkv' fin' u1, w2)
          | (o, u1, w1) => (o, ILjoin mf rb rkv fin u1, w1)
          end
      end
  end.

(** query_mtbl.c:285-311, 439-465, 784-813: the counters the stages report:
    (exists, value); [Fail] for categories that do not exist at all cannot occur
    here as [category] lists them all. *)
Definition ljoin_counter (w : world) (c : category) : bool * N :=
  match c with
  | CFiltered | CFiles => (false, 0)
  | CSeek => (true, w_cnt w StLjoin CSeek)
  | CMerged => (true, w_cnt w StLjoin CMerged)
  end.
Definition filter_counter (s : stage) (w : world) (c : category) : bool * N :=
  match c with
  | CMerged | CFiles => (false, 0)
  | CFiltered => (true, w_cnt w s CFiltered)
  | CSeek => (true, w_cnt w s CSeek)
  end.
Definition remove_counter (nsources : N) (w : world) (c : category) : bool * N :=
  match c with
  | CMerged => (false, 0)
  | CFiltered => (true, w_cnt w StRemoveStrict CFiltered)
  | CSeek => (true, w_cnt w StRemoveStrict CSeek)
  | CFiles => (true, nsources)
  end.
