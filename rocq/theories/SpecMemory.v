(** * What a client of the library must do, and what it may expect

    The rules for using the handles of dnstable.h, as a decision about each call from
    what the client holds, and what they promise: no step uses memory that is not there,
    and a client that has given everything back leaves nothing behind. *)
From Verif Require Import Base ModelMemory.

(** Is something in use? *)
Definition reader_of (s : ptr) (h : handle) : bool := match h with HReader _ (Some p) => p =? s | _ => false end.
Definition iter_of_source (s : ptr) (h : handle) : bool :=
  match h with HIter _ v => match i_source v with Some p => p =? s | None => false end | _ => false end.
Definition iter_of_query (q : ptr) (h : handle) : bool :=
  match h with HIter _ v => match i_query v with Some p => p =? q | None => false end | _ => false end.
Definition timed_iter_of_query (q : ptr) (h : handle) : bool := iter_of_query q h && match h with HIter _ v => i_timed v | _ => false end.
Definition nobody (f : handle -> bool) (c : client) : bool := negb (existsb f c).

Definition is_some {A} (o : option A) : bool := match o with Some _ => true | None => false end.
Definition needs_data (k : qtype) : bool :=
  match k with ModelQuery.QRrset | ModelQuery.QRdataName | ModelQuery.QRdataRaw => true | _ => false end.

(** The rules:
    - only what the client holds is passed, and it is given back once;
    - a source is closed when no reader and no iterator uses it, a query destroyed when no
      iterator uses it;
    - a query for a name or for raw data is run only after its data were accepted;
    - an iterator over a whole reader is made only of a reader over a source, not of one
      over a set file;
    - while an iterator made with a timeout or a deadline lives, its query keeps one of them;
    - while an iterator of a query lives, no new bailiwick is given to the query;
    - an entry is formatted only if its type is one the library knows. *)
Definition allowed (c : client) (a : call) : bool :=
  match a with
  | SourceOpen | ReaderInitSetfile | QueryInit _ | FormatterInit => true
  | SourceClose s => existsb (is_source s) c && nobody (reader_of s) c && nobody (iter_of_source s) c
  | ReaderInit s => existsb (is_source s) c
  | ReaderReload r | ReaderDestroy r => is_some (find_reader r c)
  | QuerySetData q _ | QuerySetRrtype q _ | QuerySetAggregated q _ | QuerySetParameter q _ _ | QuerySetCase q | QueryGetError q =>
      is_some (find_query q c)
  | QuerySetBailiwick q null => is_some (find_query q c) && (null || nobody (iter_of_query q) c)
  | QuerySetTimeout q null =>
      match find_query q c with Some v => negb null || v_deadline v || nobody (timed_iter_of_query q) c | None => false end
  | QuerySetDeadline q null =>
      match find_query q c with Some v => negb null || v_timeout v || nobody (timed_iter_of_query q) c | None => false end
  | QueryFilter q e => is_some (find_query q c) && is_some (find_entry e c)
  | QueryDestroy q => is_some (find_query q c) && nobody (iter_of_query q) c
  | ReaderIter r => match find_reader r c with Some (Some _) => true | _ => false end
  | ReaderQuery r q =>
      is_some (find_reader r c) && match find_query q c with Some v => v_data v || negb (needs_data (v_type v)) | None => false end
  | IterNext i | IterGetCount i | IterDestroy i => is_some (find_iter i c)
  | EntryRead e | EntryDestroy e => is_some (find_entry e c)
  | EntryToText e | EntryToJson e => match find_entry e c with Some known => known | None => false end
  | EntryFormat f e _ _ => existsb (is_formatter f) c && match find_entry e c with Some known => known | None => false end
  | FormatterSet f | FormatterDestroy f => existsb (is_formatter f) c
  | StringFree s => existsb (is_string s) c
  end.

(** Every call of a history follows the rules, given what the calls before it returned. *)
Fixpoint follows (fuel : nat) (c : client) (m : memory) (l : list call) : Prop :=
  match l with
  | [] => True
  | a :: r => allowed c a = true /\ forall c' m', make fuel c a m = Ok (c', m') -> follows fuel c' m' r
  end.

(** A call that runs an aggregated query with time_first_after or time_last_before over a
    set file. *)
Definition strict (c : client) (a : call) : bool :=
  match a with
  | ReaderQuery r q =>
      match find_reader r c, find_query q c with
      | Some None, Some v => v_aggregated v && (v_strict_after v || v_strict_before v)
      | _, _ => false
      end
  | _ => false
  end.
Fixpoint never_strict (fuel : nat) (c : client) (m : memory) (l : list call) : Prop :=
  match l with
  | [] => True
  | a :: r => strict c a = false /\ forall c' m', make fuel c a m = Ok (c', m') -> never_strict fuel c' m' r
  end.
