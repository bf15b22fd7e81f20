(** * The programs as clients of the library

    dnstable_dump and dnstable_lookup once more, in the model of memory (ModelMemory.v):
    which calls they make with which handles.  What is printed, and the blocks the programs
    allocate without the library (argv_process), are left out.  A condition on data is a
    choice, as there; so is whether a call reports failure where the client's view does
    not show it. *)
From Verif Require Import Base ModelMemory.
From Verif Require ModelLookup ModelQuery.
Notation opts := ModelLookup.opts.
Notation command := ModelLookup.command.
Notation dump_opts := ModelLookup.dump_opts.

(** How a program ends: exit status 0, exit status 1, a failed assertion.  [Unasked]: the
    program has been given an entry of a type the library does not know, which dnstable_lookup
    would format; no query returns one (theorem answers_known). *)
Inductive ending := Success | Failure | Aborted | Unasked.

(** What the last call returned. *)
Definition last_source (c : client) : M ptr := match c with HSource p :: _ => ret p | _ => bad end.
Definition last_reader (c : client) : M ptr := match c with HReader p _ :: _ => ret p | _ => bad end.
Definition last_query (c : client) : M ptr := match c with HQuery p _ :: _ => ret p | _ => bad end.
Definition last_iter (c : client) : M ptr := match c with HIter p _ :: _ => ret p | _ => ret 0 end.   (* 0: NULL *)
Definition last_formatter (c : client) : M ptr := match c with HFormatter p :: _ => ret p | _ => bad end.

Definition given {A} (o : option A) : bool := match o with Some _ => true | None => false end.

(** ** dnstable_dump *)

(** dnstable_dump.c:123-150 print_entry. *)
Definition dump_entry (fuel : nat) (o : dump_opts) (f e : ptr) (known : bool) (c : client) : M client :=
  let! c := make fuel c (EntryRead e) in
  if known then
    let! c := make fuel c (if ModelLookup.d_json o then EntryFormat f e true (ModelLookup.d_raw o) else EntryToText e) in
    match c with
    | HString s :: _ => make fuel c (StringFree s)
    | _ => ret c                                            (* NULL *)
    end
  else ret c.

(** dnstable_dump.c:152-162 do_dump; [n] bounds the loop. *)
Fixpoint dump_loop (n fuel : nat) (o : dump_opts) (f i : ptr) (c : client) : M client :=
  match n with
  | O => hang
  | S n' =>
      let! c := make fuel c (IterNext i) in
      match c with
      | HEntry e known :: _ =>
          let! c := dump_entry fuel o f e known c in
          let! c := make fuel c (EntryDestroy e) in
          dump_loop n' fuel o f i c
      | _ => ret c
      end
  end.

(** dnstable_dump.c:188-202: is a section of the file chosen? *)
Definition chosen (o : dump_opts) : bool :=
  ModelLookup.d_rrset o || ModelLookup.d_rdata o || ModelLookup.d_rrset_names o || ModelLookup.d_rdata_names o ||
  ModelLookup.d_time_range o || ModelLookup.d_version o || ModelLookup.d_source_info o.

(** dnstable_dump.c:164-227 main, after argv_process: how it ends, and what it still
    holds then. *)
Definition dump_main (fuel : nat) (o : dump_opts) : M (ending * client) :=
  if ModelLookup.d_raw o && (negb (ModelLookup.d_rdata o || ModelLookup.d_rrset o) || negb (ModelLookup.d_json o)) then ret (Failure, [])
  else
    let! opened := choose in
    if negb opened then ret (Failure, [])
    else
      let! c := make fuel [] SourceOpen in
      let! s := last_source c in
      let! c := make fuel c (ReaderInit s) in
      let! r := last_reader c in
      let! c := (if chosen o then make fuel c (ReaderIter r) else ret c) in
      let! i := last_iter c in
      let! c := make fuel c FormatterInit in
      let! f := last_formatter c in
      let! c := make fuel c (FormatterSet f) in
      let! c := make fuel c (FormatterSet f) in
      let! c := make fuel c (FormatterSet f) in
      if i =? 0 then ret (Aborted, c)                       (* 209: assert(d_it != NULL) *)
      else
        let! c := dump_loop fuel fuel o f i c in
        let! c := make fuel c (FormatterDestroy f) in
        let! c := make fuel c (IterDestroy i) in
        let! c := make fuel c (ReaderDestroy r) in
        let! c := make fuel c (SourceClose s) in
        ret (Success, c).

(** ** dnstable_lookup *)

(** dnstable_lookup.c:45-74 print_entry.  The string is freed because it is not empty
    (theorem printed_not_empty). *)
Definition lookup_entry (fuel : nat) (o : opts) (e : ptr) (known : bool) (c : client) : M (ending * client) :=
  if ModelLookup.o_count o then ret (Success, c)
  else if negb known then ret (Unasked, c)
  else
    let! c :=
      (if ModelLookup.o_Json o || ModelLookup.o_json o then
         let! c := make fuel c FormatterInit in
         let! f := last_formatter c in
         let! c := make fuel c (FormatterSet f) in
         let! c := make fuel c (FormatterSet f) in
         let! c := make fuel c (FormatterSet f) in
         let! c := make fuel c (EntryFormat f e true (ModelLookup.o_raw o)) in
         make fuel c (FormatterDestroy f)
       else make fuel c (EntryToText e)) in
    match c with
    | HString s :: _ =>
        let! c := make fuel c (EntryRead e) in
        let! c := make fuel c (StringFree s) in
        ret (Success, c)
    | _ => ret (Aborted, c)                                 (* 65: assert(s != NULL) *)
    end.

(** dnstable_lookup.c:156-162: the inner loop of do_dump. *)
Fixpoint lookup_loop (n fuel : nat) (o : opts) (i : ptr) (c : client) : M (ending * client) :=
  match n with
  | O => hang
  | S n' =>
      let! c := make fuel c (IterNext i) in
      match c with
      | HEntry e known :: _ =>
          let! (x, c) := lookup_entry fuel o e known c in
          match x with
          | Success =>
              let! c := make fuel c (EntryDestroy e) in
              lookup_loop n' fuel o i c
          | _ => ret (x, c)
          end
      | _ => ret (Success, c)
      end
  end.

(** dnstable_lookup.c:76-141, 164-167: the counts of 10 stages and 4 categories, asked for
    twice with -ss. *)
Fixpoint counts (n fuel : nat) (i : ptr) (c : client) : M client :=
  match n with O => ret c | S n' => let! c := make fuel c (IterGetCount i) in counts n' fuel i c end.
Definition lookup_stats (fuel : nat) (stats : N) (i : ptr) (c : client) : M client :=
  if stats =? 0 then ret c else counts (if 1 <? stats then 80%nat else 40%nat) fuel i c.

(** dnstable_lookup.c:143-198 do_dump; [n] bounds the outer loop.  The two choices are
    whether the last call timed out, and whether g_deadline has passed. *)
Fixpoint lookup_rounds (n fuel : nat) (o : opts) (q i : ptr) (c : client) : M (ending * client) :=
  match n with
  | O => hang
  | S n' =>
      let! (x, c) := lookup_loop fuel fuel o i c in
      match x with
      | Success =>
          let! c := lookup_stats fuel (if (ModelLookup.o_interval o =? 0)%Z then ModelLookup.o_stats o else N.max 1 (ModelLookup.o_stats o)) i c in
          let! timed_out := choose in
          if negb timed_out then ret (Success, c)
          else if (ModelLookup.o_interval o =? 0)%Z then ret (Success, c)
          else
            let! past := choose in
            if past then ret (Success, c)
            else
              let! c := make fuel c (QuerySetDeadline q false) in
              lookup_rounds n' fuel o q i c
      | _ => ret (x, c)
      end
  end.

(** The result of dnstable_query_set_data with data that are not NULL. *)
Definition accepted (q : ptr) (c : client) : bool := match find_query q c with Some v => v_data v | None => false end.

(** dnstable_lookup.c:499-543: the data, record type and bailiwick; [false]: exit. *)
Definition lookup_data (fuel : nat) (a : command) (q : ptr) (c : client) : M (bool * client) :=
  match ModelLookup.c_type a with
  | ModelQuery.QRrset =>
      let! c := make fuel c (QuerySetData q (negb (given (ModelLookup.c_data a)))) in
      if negb (accepted q c) then ret (false, c)
      else
        let! c := make fuel c (QuerySetRrtype q (negb (given (ModelLookup.c_rrtype a)))) in
        let! ok := choose in
        if negb ok then ret (false, c)
        else
          let! c := make fuel c (QuerySetBailiwick q (negb (given (ModelLookup.c_bailiwick a)))) in
          let! ok := choose in
          ret (ok, c)
  | ModelQuery.QRdataIp | ModelQuery.QRdataName | ModelQuery.QRdataRaw =>
      let! c := make fuel c (QuerySetData q (negb (given (ModelLookup.c_data a)))) in
      if negb (accepted q c) then
        let! c := make fuel c (QueryGetError q) in
        ret (false, c)
      else if given (ModelLookup.c_rrtype a) then
        let! c := make fuel c (QuerySetRrtype q false) in
        let! ok := choose in
        ret (ok, c)
      else ret (true, c)
  | ModelQuery.QVersion =>
      let! c := make fuel c (QuerySetData q (negb (given (ModelLookup.c_data a)))) in
      let! ok := choose in
      ret (ok, c)
  | _ => ret (true, c)
  end.

(** dnstable_lookup.c:545-580: the time bounds. *)
Definition lookup_bound (fuel : nat) (b : bound) (t : N) (q : ptr) (c : client) : M client :=
  if t =? 0 then ret c else make fuel c (QuerySetParameter q b false).
Definition lookup_bounds (fuel : nat) (o : opts) (a : command) (q : ptr) (c : client) : M client :=
  if ModelLookup.metadata a then ret c
  else
    let o := ModelLookup.strict_bounds o in
    let! c := lookup_bound fuel FirstAfter (ModelLookup.o_tfa o) q c in
    let! c := lookup_bound fuel FirstBefore (ModelLookup.o_tfb o) q c in
    let! c := lookup_bound fuel LastAfter (ModelLookup.o_tla o) q c in
    lookup_bound fuel LastBefore (ModelLookup.o_tlb o) q c.

(** dnstable_lookup.c:582-616: the offset, the deadline and the interval. *)
Definition lookup_limits (fuel : nat) (o : opts) (q : ptr) (c : client) : M client :=
  let! c := (if (ModelLookup.o_offset o =? 0)%Z then ret c else make fuel c (QuerySetCase q)) in
  let! c := (if (ModelLookup.o_timeout o =? 0)%Z then ret c else make fuel c (QuerySetDeadline q false)) in
  if (ModelLookup.o_interval o =? 0)%Z then ret c
  else
    let! earlier := (if (ModelLookup.o_timeout o =? 0)%Z then ret true else choose) in
    if earlier : bool then make fuel c (QuerySetDeadline q false) else ret c.

(** dnstable_lookup.c:472-638 main, once the command line has been accepted; [setfile]:
    DNSTABLE_SETFILE is set and DNSTABLE_FNAME is not, otherwise it is the other way
    round. *)
Definition lookup_main (fuel : nat) (o : opts) (a : command) (setfile : bool) : M (ending * client) :=
  let! opened := (if setfile then ret true else if negb (ModelLookup.o_aggregate o) then ret false else choose) in
  if negb opened then ret (Failure, [])
  else
    let! (s, c) :=
      (if setfile then
         let! c := make fuel [] ReaderInitSetfile in
         ret (0, c)
       else
         let! c := make fuel [] SourceOpen in
         let! s := last_source c in
         let! c := make fuel c (ReaderInit s) in
         ret (s, c)) in
    let! r := last_reader c in
    let! c := make fuel c (QueryInit (ModelLookup.c_type a)) in
    let! q := last_query c in
    let! c := make fuel c (QuerySetCase q) in
    let! (ok, c) := lookup_data fuel a q c in
    if negb ok then ret (Failure, c)
    else
      let! c := lookup_bounds fuel o a q c in
      let! c := lookup_limits fuel o q c in
      let! c := make fuel c (QuerySetAggregated q (ModelLookup.o_aggregate o)) in
      let! c := make fuel c (ReaderQuery r q) in
      let! i := last_iter c in
      if i =? 0 then ret (Failure, c)
      else
        let! (x, c) := lookup_rounds fuel fuel o q i c in
        match x with
        | Success =>
            let! c := make fuel c (IterDestroy i) in
            let! c := make fuel c (QueryDestroy q) in
            let! c := make fuel c (ReaderDestroy r) in
            let! c := (if setfile then ret c else make fuel c (SourceClose s)) in
            ret (Success, c)
        | _ => ret (x, c)
        end.
