(** When dnstable_lookup leaves memory behind.  Definitions only. *)
From Verif Require Import Base ModelQuery ModelLookup SpecDump.

(** An aggregated lookup over a set of files, not of metadata, with a limit on the earliest
    "first seen" or on the latest "last seen" time; with -c (strict) every limit of -A and
    -B is one of these. *)
Definition strict_lookup (o : opts) (a : command) (setfile : bool) : Prop :=
  setfile = true /\ o_aggregate o = true /\ c_type a <> QVersion /\ c_type a <> QTimeRange /\
  (o_tfa o <> 0 \/ o_tlb o <> 0 \/ o_strict o = true /\ (o_tla o <> 0 \/ o_tfb o <> 0)).

(** The types of entries the library knows. *)
Definition known_type (ty : N) : Prop :=
  In ty [ENTRY_TYPE_RRSET; ENTRY_TYPE_RRSET_NAME_FWD; ENTRY_TYPE_RDATA; ENTRY_TYPE_RDATA_NAME_REV;
         ENTRY_TYPE_TIME_RANGE; ENTRY_TYPE_VERSION; ENTRY_TYPE_SOURCE_INFO].

(** An option of dnstable_dump asks for a section of the file. *)
Definition section_asked (o : dump_opts) : Prop := exists b, In (true, b) (sections o).
