(** Model of a query with several iterators in use at once (query.c:76-121, 516-560,
    733-1419): an iterator keeps a pointer to its query, and reads the query again in every
    call.  Definitions only. *)
From Verif Require Import Base ModelVarint ModelIter ModelQuery ModelSetters ModelFileset.

(** ubuf_size(it->key) of an iterator (query.c:1092-1100), fixed when it is made. *)
Definition key_size (made : query) : nat :=
  match query_init made (SBase []) (SBase []) with Ok p => length (p_key p) | _ => O end.

(** The filter functions get the iterator and read the query through it, so that they see
    the query as it is [now] (query.c:775, 825-847, 918-924, 928-935, 1082-1140).  Which function
    is used at a stage was decided when the iterator was made of the query [made]
    (query.c:1421-1427, 1603-1606, 1643).  A bailiwick that was cleared has length 0. *)
Definition live_filter (made now : query) (st : stage) (f : filter_fn) : filter_fn :=
  match st with
  | StRrtype =>
      match q_type made with
      | QRdataIp => filter_rrtype_ip now (key_size made)
      | QRdataName => if q_do_rrtype made then filter_rrtype now else f
      | _ => filter_rrtype now
      end
  | StBailiwick => filter_bailiwick (val_or [] (q_bailiwick now))
  | StTimePrefilter => filter_time_prefilter now
  | StTime => filter_time now
  | _ => f
  end.
Fixpoint live_source (made now : query) (s : source) : source :=
  match s with
  | SBase t => SBase t
  | SFilter st f u => SFilter st (live_filter made now st f) (live_source made now u)
  | STimeout u => STimeout (live_source made now u)
  | SRemove l u => SRemove l (live_source made now u)
  | SLjoin mf t u => SLjoin mf t (live_source made now u)
  end.
Fixpoint live_iter (made now : query) (it : iter) : iter :=
  match it with
  | IBase b => IBase b
  | IFilter st f u => IFilter st (live_filter made now st f) (live_iter made now u)
  | ITimeout u => ITimeout (live_iter made now u)
  | IRemove h l u => IRemove h l (live_iter made now u)
  | ILjoin mf rb rk fin u => ILjoin mf rb rk fin (live_iter made now u)
  end.
Definition live_kind (made now : query) (k : kind) : kind :=
  match k with
  | Direct it => Direct (live_iter made now it)
  | Indirect tb idx cur => Indirect tb (live_iter made now idx) (option_map (live_iter made now) cur)
  end.
Definition live (made now : query) (qi : qiter) : qiter :=
  {| qi_query := now; qi_source := live_source made now (qi_source qi); qi_kind := live_kind made now (qi_kind qi) |}.

(** An iterator in use: the query as it was when the iterator was made, the iterator, and its
    deadline and counters (query.c:76-121). *)
Record handle := { h_made : query; h_it : qiter; h_world : world }.
(** One query, the iterators made of it so far, and the clock. *)
Record session := { s_query : query; s_handles : list handle; s_world : world }.

(** The deadline and the counters of the iterator, the clock and the offset of the query. *)
Definition view (q : query) (clock own : world) : world :=
  {| w_now := w_now clock; w_tick := w_tick clock; w_deadline := w_deadline own; w_seek_end := w_seek_end clock;
     w_offset := q_offset q; w_cnt := w_cnt own; w_log := w_log own |}.
Definition clock_at (clock : world) (w : world) : world :=
  {| w_now := w_now clock; w_tick := w_tick w; w_deadline := w_deadline clock; w_seek_end := w_seek_end clock;
     w_offset := w_offset clock; w_cnt := w_cnt clock; w_log := w_log clock |}.
(** my_calloc at query.c:1706. *)
Definition new_world (clock : world) : world :=
  {| w_now := w_now clock; w_tick := w_tick clock; w_deadline := ts0; w_seek_end := w_seek_end clock;
     w_offset := 0; w_cnt := fun _ _ => 0; w_log := [] |}.

(** dnstable_iter_next on one of the iterators.  A call sets the jump buffer only if the query has
    a timeout or a deadline (query.c:983-987, 1330-1337): an iterator made when it had one
    jumps to an old buffer otherwise.  The offset is counted down in the query (query.c:949-951). *)
Definition live_next (fuel : nat) (q : query) (h : handle) (clock : world) : qres * handle * query * world :=
  let '(r, qi', w') := qnext fuel (live (h_made h) q (h_it h)) (view q clock (h_world h)) in
  (match r with QTimeout => if is_timed q then QTimeout else QUB | _ => r end,
   {| h_made := h_made h; h_it := qi'; h_world := w' |},
   with_flags (q_aggregated q) (q_case_sensitive q) (w_offset w') q,
   clock_at clock w').

(** What a client does, and what it is told. *)
Inductive act := ASet (c : setting) | AMake (lib : libmtbl) (r : reader) | ANext (i : nat).
Inductive answer := ASaid (ok : bool) | AMade (ok : bool) | AGave (r : qres).

Fixpoint replace {A} (i : nat) (x : A) (l : list A) : list A :=
  match i, l with
  | O, _ :: r => x :: r
  | S j, y :: r => y :: replace j x r
  | _, [] => []
  end.

(** Using an iterator that was not made is the client's mistake. *)
Definition do_act (ev : env) (fuel : nat) (a : act) (s : session) : res (answer * session) :=
  match a with
  | ASet c =>
      let* x := apply_setting ev c (s_query s) in
      Ok (ASaid (fst x), {| s_query := snd x; s_handles := s_handles s; s_world := s_world s |})
  | AMake lib r =>
      match dnstable_reader_query lib r (s_query s) with
      | Ok qi => Ok (AMade true, {| s_query := s_query s;
                                    s_handles := s_handles s ++ [{| h_made := s_query s; h_it := qi; h_world := new_world (s_world s) |}];
                                    s_world := s_world s |})
      | Fail => Ok (AMade false, s)
      | Abort => Abort
      | UB => UB
      | Hang => Hang
      end
  | ANext i =>
      match nth_error (s_handles s) i with
      | None => UB
      | Some h =>
          let '(r, h', q', w') := live_next fuel (s_query s) h (s_world s) in
          Ok (AGave r, {| s_query := q'; s_handles := replace i h' (s_handles s); s_world := w' |})
      end
  end.
Fixpoint do_acts (ev : env) (fuel : nat) (l : list act) (s : session) : res (list answer * session) :=
  match l with
  | [] => Ok ([], s)
  | a :: r =>
      let* x := do_act ev fuel a s in
      let* y := do_acts ev fuel r (snd x) in
      Ok (fst x :: fst y, snd y)
  end.
