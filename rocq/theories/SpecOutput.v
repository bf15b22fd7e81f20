(** What dnstable_lookup and dnstable_dump print for a stored record, independently of the
    program.  Definitions only. *)
From Verif Require Import Str ModelEntry SpecMerge SpecName SpecEntry SpecQuery SpecFormat ModelFormat PropsEntry SpecJson SpecText ModelLookup.

(** A JSON object on one line. *)
Definition json_line (m : list (bytes * jv)) (s : bytes) : Prop := exists t, json (JObj m) t /\ one_line t /\ s = t ++ [10].

Definition record_output (lib : fmtlib) (o : opts) (r : record) (s : bytes) : Prop :=
  if o_count o then s = []
  else if o_Json o || o_json o then
    exists m, record_members lib (if o_json o then DateUnix else DateRfc3339) false (o_raw o) false r m /\ json_line m s
  else
    exists ls, record_lines lib DateUnix false r ls /\
      s = lines (ls ++ match r with RRset _ _ _ _ _ => [[]] | _ => [] end).

(** Times and counts for which there is such output. *)
Definition showable (lib : fmtlib) (o : opts) (r : record) : Prop :=
  o_count o = false ->
  match r with
  | RRset _ _ _ _ ob | RData _ _ _ _ ob =>
      if o_Json o || o_json o then o_json o = false -> o_first ob < 253402300800 /\ seen_last ob < 253402300800
      else o_first ob < 67767976233532800 /\ seen_last ob < 67767976233532800 /\ count_shown lib (seen_count ob)
  | _ => True
  end.

(** dnstable_dump -r or -d: JSON objects, or the text form, with an empty line behind
    that of an RRset. *)
Definition dump_output (lib : fmtlib) (o : dump_opts) (r : record) (s : bytes) : Prop :=
  if d_json o then exists m, record_members lib DateUnix false (d_raw o) false r m /\ json_line m s
  else exists ls, record_lines lib DateUnix false r ls /\
      s = lines (ls ++ match r with RRset _ _ _ _ _ => [[]] | _ => [] end).
Definition dumpable (lib : fmtlib) (o : dump_opts) (r : record) : Prop :=
  d_json o = false ->
  match r with
  | RRset _ _ _ _ ob | RData _ _ _ _ ob => o_first ob < 67767976233532800 /\ seen_last ob < 67767976233532800 /\ count_shown lib (seen_count ob)
  | _ => True
  end.
