(** What dnstable_dump should print, independently of the program.  Definitions only. *)
From Verif Require Import Str ModelEntry ModelIter SpecFormat ModelFormat ModelFileset ModelLookup PropsFormat.

(** The section chosen, as the type byte of its keys; exactly one option chooses it. *)
Definition sections (o : dump_opts) : list (bool * N) :=
  [(d_rrset o, 0); (d_rdata o, 2); (d_rrset_names o, 1); (d_rdata_names o, 3); (d_time_range o, 254); (d_version o, 255); (d_source_info o, 253)].
Definition chosen (o : dump_opts) (b : N) : Prop := map snd (filter fst (sections o)) = [b].
(** -R only with JSON output of RRsets or RData. *)
Definition raw_allowed (o : dump_opts) : Prop := d_raw o = true -> d_json o = true /\ (d_rrset o = true \/ d_rdata o = true).

(** The lines for one entry: with -j its JSON object with dates in seconds and a line
    break, otherwise its text form and a line break, which the text form of an RData
    record already ends with. *)
Definition dumped (lib : fmtlib) (o : dump_opts) (e : entry) (s : bytes) : Prop :=
  if d_json o then exists t, dnstable_entry_format lib (json_formatter DateUnix false (d_raw o)) e = Ok (Some t) /\ s = t ++ [10]
  else exists t, dnstable_entry_to_text lib e = Ok (Some t) /\ s = t ++ (if get_type e =? ENTRY_TYPE_RDATA then [] else [10]).
