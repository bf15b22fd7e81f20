(** When dnstable_dump gets through a section of a file.  Definitions only. *)
From Verif Require Import Str ModelEntry ModelIter ModelFormat SpecFormat ModelLookup SpecDecode SpecPrintable.

(** Numbers as the locale prints them fit: 20 digits and six separators of one byte. *)
Definition short_numbers (lib : fmtlib) : Prop := forall n, ~ In 0 (locale_uint64 lib n) /\ (n < u64 -> (length (locale_uint64 lib n) <= 26)%nat).

(** A stored entry that does no harm: neither its key nor its value make the decoder read
    outside of them, the decoder comes to an end, and if RRsets are dumped with -R, the type
    stored with record data has at most three digits in base 128. *)
Definition harmless (o : dump_opts) (p : kv) : Prop :=
  ~ overread (fst p) (snd p) /\ ~ unending (fst p) /\
  (d_raw o = true -> d_rrset o = true -> forall e, entry_decode (fst p) (snd p) = Ok e -> e_rdatas e <> [] -> e_rrtype e < 128 * 128 * 128).
