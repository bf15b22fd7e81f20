(** Which statistics a query keeps, said from the query alone.  Definitions only. *)
From Verif Require Import Base ModelIter ModelQuery ModelReader ModelFileset SpecQuery SpecFileset.

(** The iterator of a reader's query, after any calls of dnstable_iter_next and any
    changes of timeout and deadline. *)
Inductive reader_iterator (lib : libmtbl) (r : reader) : query -> qiter -> Prop :=
| ri_new : forall q qi, dnstable_reader_query lib r q = Ok qi -> reader_iterator lib r q qi
| ri_next : forall q fuel qi w a qi' w', reader_iterator lib r q qi -> qnext fuel qi w = (a, qi', w') -> reader_iterator lib r q qi'
| ri_timing : forall q qi tm, reader_iterator lib r q qi -> is_timed q = true -> reader_iterator lib r (retime tm q) (set_timing tm qi).

(** The name asked for begins with the label [c], or it ends with it (and does not
    begin with a wildcard). *)
Definition begins_with (c : N) (name : bytes) : Prop := exists a rest, name = 1 :: c :: a :: rest.
Definition ends_with (c : N) (name : bytes) : Prop := exists front z, name = front ++ [1; c; z].
Definition wild_left (name : bytes) : Prop := begins_with star_sign name \/ begins_with plus_sign name.
Definition wild_right (name : bytes) : Prop := ends_with star_sign name \/ ends_with plus_sign name.

Definition asked_name (q : query) : bytes := match q_name q with Some n => n | None => [] end.

(** Are the results limited to one label in the place of a wildcard?  In an RRset
    query a leading wildcard is looked for first, in an RData one a trailing one. *)
Definition one_label (q : query) : Prop :=
  match q_type q with
  | QRrset => begins_with plus_sign (asked_name q) \/ (~ wild_left (asked_name q) /\ ends_with plus_sign (asked_name q))
  | QRdataName => ends_with plus_sign (asked_name q) \/ (~ wild_right (asked_name q) /\ begins_with plus_sign (asked_name q))
  | _ => False
  end.

Definition wildcard_name (q : query) : Prop := wild_left (asked_name q) \/ wild_right (asked_name q).

Definition time_bounded (q : query) : Prop :=
  q_do_tfa q = true \/ q_do_tfb q = true \/ q_do_tla q = true \/ q_do_tlb q = true.

(** Over a set of files ([set]), the results are merged. *)
Definition merged_files (set : bool) (q : query) : Prop := set = true /\ q_aggregated q = true.

(** The stages of a query that are at work. *)
Definition stage_used (set : bool) (q : query) (st : stage) : Prop :=
  match st with
  | StFileset => True
  | StSingleLabel => one_label q
  | StRrtype =>
      match q_type q with
      | QRrset => q_do_rrtype q = true /\ wildcard_name q
      | QRdataName | QRdataIp => True
      | QRdataRaw => q_do_rrtype q = true
      | _ => False
      end
  | StBailiwick => q_type q = QRrset /\ q_bailiwick q <> None /\ (q_do_rrtype q = false \/ wildcard_name q)
  | StTimePrefilter | StTime => time_bounded q
  | StRemoveStrict => merged_files set q /\ (q_do_tfa q = true \/ q_do_tlb q = true)
  | StFillMerger | StLjoin => merged_files set q /\ time_bounded q
  | StOffset => 0 < q_offset q
  end.

(** The numbers each stage keeps. *)
Definition keeps (st : stage) : list category :=
  match st with
  | StFileset | StFillMerger => [CMerged; CFiles]
  | StSingleLabel | StRrtype => [CFiltered; CSeek]
  | StBailiwick | StTimePrefilter | StTime | StOffset => [CFiltered]
  | StRemoveStrict => [CFiltered; CSeek; CFiles]
  | StLjoin => [CMerged; CSeek]
  end.

(** Is the reader one over a set of files? *)
Definition over_set (r : reader) : bool := match r_fs r with Some _ => true | None => false end.

(** The files that only serve to remove records: nothing in them can be a result, or be
    a part of one. *)
Definition file_removed (q : query) (f : table) : Prop := too_early q f \/ (~ adds_only q f /\ too_late q f).
