# Formal model of dnstable: design

The model is written in Rocq (Coq 8.16.1), standard library only, under
`rocq/theories`. Model files (`Model*.v`) contain definitions only, each citing
the C lines it models. `Spec*.v` files contain the small independent
vocabulary used by the theorem statements. `Props*.v` files contain the
property theorems, an example per theorem showing its hypotheses are met
non-trivially, and `Print Assumptions`.

## Conventions

* A byte is an `N` below 256, a byte string is a `list N`. `uint64_t`
  arithmetic is written with explicit `mod 2^64`.
* C outcomes are explicit: `Ok x` (normal return), `Fail` (the documented error
  return), `Abort` (failed `assert`), `UB` (out-of-bounds read/write, undefined
  shift, use of an indeterminate value) and `Hang` (non-termination, modelled by
  exhausted fuel, with a theorem that the fuel was sufficient or a theorem that
  no fuel suffices).
* External code is modelled from its documentation and is part of the trusted
  base: libmtbl (sorted sources, prefix/range iterators, seek, merger, fileset,
  varints), libwdns (name length, name reversal, presentation strings), libc
  (`inet_pton`, `strtol`, `gmtime_r`, clock). Functions whose result matters
  only as an input (text parsing of names and addresses, the clock) are
  universally quantified parameters of the theorems.
* A property that is false of the code is proved false (`..._refuted`) with a
  concrete witness, next to the strongest true variant.

## Plan per property

| Id | Modelled | Method |
|----|----------|--------|
| C01 | varint.c, triplet.c | arithmetic induction over 7-bit groups |
| C02, C03 | merge.c, RRset/RData case | algebra of min/max/sum mod 2^64, induction over merge trees |
| C04, C05, C12 | merge.c bitmap case, rrtype_union_unpack | sets as sorted lists, canonical encoder, induction on windows |
| C06 | same | refuted by witness (assert bound is divided by pointer size) plus positive theorem under size bound |
| C07, C08, C09 | merge.c other cases | algebra, induction over merge trees |
| C10, C11 | rrtype_test, rrtype_union_check | induction on windows; C11 refuted plus positive part |
| C13, C14, C15, C20 | entry.c decoders | round trip against encoder written from dnstable-encoding(5) |
| C16, C17, C18 | entry.c decoders | refuted by witness, positive theorem under stated condition |
| C19 | accessors | case analysis; off-by-one in get_rdata refuted |
| C21, C22 | query key construction, filters, iterator stack | refinement of iterator to a list; self-delimiting names |
| C23, C25 | two-level iteration | nested induction, index completeness hypothesis |
| C24, C28 | key prefix, rrtype filters | refinement to list filter |
| C26 | filter_rrtype_ip with all seeks | seek soundness lemma per seek site, then filter refinement; only keys between the two ends matter (`no_overread_between`) |
| C27 | ip_arith.h | bit arithmetic; refuted for the undefined shifts |
| C29, C30, C31 | time filters, fileset classification, ljoin, remove | per-key argument over the multiset of observations |
| C32, C33 | filter_offset and its state in the query | induction; C33 refuted |
| C34, C35 | timeout iterator, setjmp/longjmp resumption | simulation for an arbitrary clock oracle; over any table and files: every stage against the same stage without timeout sources, by induction on the rounds (ResumeProofs.v, ResumeNext.v, ResumeCalls.v) |
| C36 | dnstable_query_filter | equivalence with a predicate on decoded entries |
| C37 | reader.c | refinement to list filter |
| C38, C39, C40 | query_mtbl.c | simulation relation between iterator state and remaining list, all histories |
| C41 | counters in query_mtbl.c; which stages a query sets up, against a table of settings and stages | invariant over executions; case analysis of the set-up |
| C42 | increment_key | big-endian arithmetic, lexicographic order |
| C43 | setters | invariant over setter histories |
| C44, C45, C46, C47 | hex_decode.h, dnstable-json.h, to_json | round trip / grammar recogniser |
| C48 | name tables | finite case analysis plus string case folding |
| C49 | fmt_rfc3339 | round trip on civil dates; refuted for far future |
| C50 | dupsort | order axioms |
| C51 | option post-processing of dnstable_lookup | case analysis |
| C52 | setters plus init functions | refuted by several witnesses; positive for well-ordered setters |
| C53 | filter_time against the accessors | refuted by witness; positive part is C29 |
| C54 | query_iter_next, reader_iter_next | list refinement with undecodable entries |
| C55 | query_init_time_range, query_init_version | instance of the prefix refinement; refuted with time bounds, where `metadata_bounds` says what happens instead |
| C56 | dnstable_entry_to_text_fmt | line by line against a grammar of lines; refuted outside the printable range |
| C57 | do_dump and the deadline arithmetic of dnstable_lookup | invariant over rounds for an arbitrary clock |
| C58 | parse_time and the C library functions it calls | arithmetic of the calendar, induction over durations; the converse (what is accepted looks like a time) by inversion of the parser |
| C59 | dnstable_dump | induction over the reader's listing, composed with C37, C47 and C56 |
| C60 | main of dnstable_lookup | composition of C43, C21-C31, C47, C56 and C57 |
| C61 | option and argument handling of dnstable_lookup, and how getopt splits the words of a command line | both directions, induction over the option list; getopt against a relation that says how options and arguments are spelled |
| C62 | allocation, freeing and pointers of entry.c, iter.c, query.c, query_mtbl.c, reader.c over an explicit heap | separation-style triples over permutations of blocks, an invariant over all client histories; termination by the choices left, the order in which sources and iterators were made, and what the remove filter is put on |
| C63 | same | the invariant accounts for every block; refuted for the keys of the remove iterator |
| C64 | same, jump buffer armed or not | instance of C62; refuted when both limits are cleared |
| C65 | print_stats functions of dnstable_lookup, ts_sub | induction over rounds; table of printed lines against a specification of the report |
| C66 | vector.h, ubuf.h and my_alloc.h with size_t arithmetic over an arbitrary allocator; the write sites of query.c as calls | an invariant relating cells to a list, induction over histories; capacity doubles until granted or refused |
| C67 | argv.c as dnstable_dump uses it: tables, both environment variables, options, abbreviations, exclusion, mandatory arguments, argument files | induction over the words, with the table as a function of what was used and set; both directions against an inductive description of command lines |
| C68 | same | instance of C67 for tame words; refuted by five command lines |
| C69 | merge functions, fileset queries | merges of merges are alike (equal up to encodings of the same values); alike tables give equal results; refuted for files with and without time ranges |
| C70 | queries with offsets, one file and filesets | what is selected does not depend on the offset and is shown by one list of entries only; pages are slices of it |
| C71 | entry.c decoders, triplet.c, varint.c | a grammar of lenient keys and values; case analysis of every number, name and item, in both directions |
| C72 | query.c dnstable_query_iter_fileset with both settings of the flag, dupsort, merge.c | both listings from C30/C31 in terms of the merged and the sorted table; a sorted table splits into the runs of the strict table's keys; each run's total is the merged value |
| C73 | query.c:65, 123-128, 189-195 and every query_set_err (`ModelErrors`) | each setter against a table of causes and messages (`message`) and of failures without one (`unexplained`); invariant over histories of calls; partial: failures without a message, refuted witness |
| C74 | merge.c as for C02-C09, on arbitrary values | inductive table of results (`merges_to`); soundness of every row and totality give an equivalence; numbers as in C71, maps by inversion of the unpacking loop |
| C75 | entry.c:1168-1249 on arbitrary values | inductive table (`tested`) by the position of the first block of the window; induction over the blocks before it |
| C76 | src/dnstable_merge.sh.in: its test, field splitting and pattern expansion of $@, the exported variables | the words of a text as an inductive relation; uniqueness of the splitting |
| C77 | entry.c:70-81, 84-130 (fmt_time, RFC 3339 times), gmtime_r and strftime of the C library | dates of all integers by uniqueness of the day number; digits of a number modulo a power of ten |
| C78 | entry.c:62-81, 84-130, 227-518 (both formatters) on every entry that decodes | C47 and C56 for any way of writing times, C77 for the times; case analysis of the first thing that fails |
| C79 | all of query.c's plans, filters and iteration over tables of any content | invariant of the iterators: what a stack of sources delivers is stored and has passed its filters; what each filter and key prefix says of an entry that decodes (C71) |
| C80 | dnstable_dump.c:123-227 and dnstable_lookup.c:45-198, 472-638 as clients of the model of memory (ModelToolMemory.v) | each call is allowed by the rules of C62; loops end because each entry uses up choices; formats keep the first byte they wrote |
| C81 | the model of memory of C62, nothing new | every iterator is tied to the source it was made from; a source is never above itself, so a stack of iterators has at most as many levels as the query has stages, of which one branches; then the blocks of each handle are counted |
| C82 | query.c:600-1311, 1330-1420 once more, with the filters of an iterator reading the query object as it is now; sessions of one query and any number of iterators (ModelLive.v) | without a timeout and an offset a call does not depend on the rest of the world; harmless settings keep what the filters read; then by induction over the session. Other settings: witnesses |
| C83 | as C82 | every iterator in use still stands over the source it was made of, filtered by what the query holds now (CurrentProofs.v); an entry that passes the filters has the type, bailiwick and times of the query as it is at the call; induction over the session |
| C84 | as C82 | the only assignment to the query in the iterator code is the decrement of the offset (filter_offset, query.c:939-955); induction over the session that every iterator in it is of this kind (LiveOffset.v) |
| C85 | queries over arbitrary sorted tables (ModelIter.v, ModelQuery.v) | invariant that the entry stands ahead of the iterator (HiddenProofs.v): each filter lets it through, and from an entry before it never seeks past it nor stops; for the address filter also on keys where it reads too far, which is a crash, not a seek. That the filters let it through follows from the query over the file that holds only this entry |
| C86 | queries over any sorted file or files, all calls with changing timeouts | every filter that seeks seeks behind the key it stands on, so the rest of the window shrinks with every round; measures for the direct loop, the index loop, match_key and the left join; a key of C16 as counterexample without the condition on keys |
| C87 | the same queries and calls as C86 | invariant of the loops: every iterator stands at a place of its table and each round moves it forward, so what is returned is a subsequence of the table; for the index queries one subsequence for each index entry; no key twice from the strict order of the merged table |
| C88 | dnstable_dump (ModelLookup.v) over arbitrary tables | the first harmful entry of the section splits it; before it C59, at it C71 (decoder) or C78 (printer) say what happens |
| C89 | the queries of C17-C28 over two tables | what a query selects from a part of the records in order is a part, in order, of what it selects from all; the entries shown are determined by the records; for index queries so for the index records and each group; for sets of files the keys of one merge are a part of those of the other, and the total of more observations reaches further |
| C90 | the queries of C17-C28, two over one table | the records asked for by the restricted query are among those asked for by the other; what the queries select is then one a part of the other in order, group by group for index queries |
| C91 | the queries of C17-C28 and C30, three with different time bounds | the records asked for are dealt out between the two queries; so are the records selected, and the entries shown, which the records determine |
| C92 | the queries of C17-C25 and C30, with and without a record type | the records asked for with the type are those asked for without it that have the type; each entry shown reports the type of its record |

## Files

| Files | Contents |
|-------|----------|
| `Base`, `BaseFacts`, `Str` | outcomes, byte strings, orders |
| `ModelVarint`, `ModelUnion`, `ModelMerge` | varints, triplets, type bitmaps, the merge function |
| `ModelWdns`, `ModelEntry`, `ModelNames` | names, entry decoding and accessors, name tables |
| `ModelIter` | the filter, timeout, remove and left-join sources of query_mtbl.c |
| `ModelQuery`, `ModelSetters`, `ModelReader`, `ModelFileset` | queries, their parameters, readers, filesets |
| `ModelErrors` | the error text of a query |
| `ModelFormat` | text and JSON output |
| `ModelLookup` | dnstable_lookup and dnstable_dump |
| `ModelVector` | growable arrays: capacity, cells, pointers, the allocator's answers |
| `ModelGetopt` | how getopt splits the words of the command line of dnstable_lookup |
| `ModelArgv` | libmy/argv.c and the command line of dnstable_dump |
| `ModelScript` | the shell script dnstable_merge |
| `ModelMemory` | the heap: what each function allocates, frees, reads and writes; a client's handles and calls |
| `ModelToolMemory` | the two programs as clients of that model |
| `ModelLive` | one query object, its iterators and the changes made to it in between |
| `HeapLogic`, `Memory*` | triples about programs over the heap, and their proofs function by function |
| `EndsLogic`, `MemoryEnds` | the same for termination: every program over the heap ends with enough fuel |
| `Spec*` | the vocabulary of the theorem statements; no program text except the names of API functions and of the records of parameters |
| `*Proofs`, `*Queries`, `Fileset*`, `Compaction*`, `Lookup*`, `TimeArgConverse` ... | lemmas |
| `Demo`, `FilesetDemo` | example databases |
| `Props*` | the theorems, the examples (`cNN_case`) and `Print Assumptions` |

## Trusted base

* Coq 8.16.1's kernel, and its virtual machine, because the examples, the
  `_refuted` witnesses and a few finite checks are closed with `vm_compute`.
* Axioms: none. `Assumptions.v` runs `Print Assumptions` on all theorems named in
  MANIFEST.json and prints "Closed under the global context" for every one of them. No
  axiom of the standard library is used. (A checker that lists the axioms of all
  loaded libraries also names seven of `Coq.ssr.ssrunder.Under_rel`, an opaque
  module of the standard distribution that gets loaded with `Zify`/`Lia`; no
  theorem depends on them.) There are no `Variable`s or `Hypothesis`es outside
  sections, no functors and no module types.
* That the model says what the C code does. It was written by reading the code
  function by function; each definition cites the lines. It was not run against
  the C code, which cannot be built here.
* The models of external code listed next.

### External code, modelled

* libmtbl: varints (libmy/varint.c holds the same code); a source is a sorted list
  of key-value pairs; iterators over all, prefix, range and single-key windows
  (`base_it`); `mtbl_iter_seek` moves to the first entry at or after the target.
  Whether a seek past the end reports failure is left open (`w_seek_end`, any
  answer at any time). The merging reader is specified, not modelled: `merges lib`
  says that its result is sorted by key, has every key once, and folds the merge
  function over the values in some order; `lists_duplicates` says what an
  unmerged set yields (`SpecFileset.v`). The filename filter is assumed to be
  called once per file and `mtbl_fileset_dup`. Data blocks, compression, checksums,
  files on disk and reloading of filesets are not modelled.
* libmtbl, for the memory model: a source, a reader's file, a fileset and a merger are
  blocks of their own; an iterator of libmtbl uses its source until it is destroyed;
  `mtbl_fileset_dup` opens the files again and does not depend on the original after it
  returns; NULL iterators are accepted by next, seek and destroy. After a failed
  `wdns_str_to_name` a length other than 0 may stay in the bailiwick (`q_stale`).
* libwdns: length and reversal of names, label counting, as documented
  (`ModelWdns.v`). Conversions to presentation strings are parameters (`fmtlib`),
  assumed to yield C strings (`c_strings`) and for some theorems UTF-8 or single
  lines. Conversions from strings are parameters (`env`), assumed to yield
  well-formed names, types below 65536 and addresses of the right length
  (`env_ok`).
* The allocator, for C66: grants or refuses each request arbitrarily, never one larger
  than PTRDIFF_MAX.
* The C library: `gmtime_r`/`strftime`/`timegm` (proleptic Gregorian calendar),
  `strptime` for the two formats used, `strtol`, `strtoll`, `atoi`, `tolower`,
  `printf` of integers, `strtok_r`, `inet_pton` (parameter), `clock_gettime`
  (arbitrary sequence of readings), `setjmp`/`longjmp` (as resumption points),
  qsort-like ordering by libmtbl's dupsort.
* `getopt`: part of the C library, modelled in ModelGetopt.v as documented, with and without the
  permutation of arguments that the GNU library does; diagnostics on stderr are left out.
* `getenv`, `fopen`, `fgets` and `strtol` of libmy/argv.c: the environment variables and files
  are parameters of ModelArgv.v.

### Code of the repository that is modelled

dnstable/triplet.c, merge.c, entry.c, query.c, query_mtbl.c, reader.c, iter.c (data and memory),
util.c, dnstable-json.h; src/dnstable_lookup.c, src/dnstable_dump.c; of libmy:
varint.c, ip_arith.h, hex_decode.h, my_format.c, the timespec functions of
my_time.h, `increment_key`; vector.h, ubuf.h and my_alloc.h (`ModelVector.v`, C66);
argv.c as far as dnstable_dump uses it (`ModelArgv.v`, C67).
The other models use lists for growable buffers, which C66 justifies.

### Not modelled

* Memory never runs out. Allocation, freeing and pointers are modelled separately from the
  data (`ModelMemory.v`): a block is a struct or a run of bytes, its address is never used
  again, and every branch that depends on data takes an arbitrary choice. In the other
  models pointers into entries are the bytes they point to. Accesses inside a block are
  covered there (C17, C52), not in the memory model.
* Diagnostics on stderr of failing programs.
* Concurrency: one thread.
* The program mtbl_merge, which src/dnstable_merge.sh.in runs (what merging does is C69), the
  tests, the rest of libmy (unused by dnstable or
  replaced by lists: heap, queues, crc32c, base32/64, zonefile, spooldir ...).
* Reloading a set file while iterators over it are in use: what they return. That it is safe is C62.
* Timespecs whose nanoseconds are outside 0..999999999.

## Disagreements between the code and what a user would expect

Each has a `_refuted` theorem or an explicit condition in a theorem.

1. Merging type bitmaps: an assertion compares the size with a bound that is divided
   by the size of a pointer; large valid bitmaps abort (C06).
2. The index type test reads the byte just behind the last bitmap (C11).
3. Decoding: the loop over rdata of an RRset does not end for some keys (C16), and
   some values and keys are read out of bounds (C17); the decoded type can be that of an
   unknown entry (C18); `dnstable_entry_get_rdata` fails an assertion, instead of
   failing, for the index one past the end (C19).
4. `filter_rrtype_ip` reads one byte behind a key that is as long as the prefix;
   setting a type after the data of an address query, or the type ANY, fails an
   assertion; so does iterating without data. Type 255 is reachable as, e.g.,
   TYPE0255 (C26, C52).
5. Address prefixes /0 and /1 for IPv4, /0 and /64 for IPv6, shift by the width of
   the type (C27).
6. The offset is consumed by the first iterator of a query (C33); it counts entries
   that cannot be decoded.
7. The time filter of iterators compares the stored last-seen time, also 0, while
   entries and `dnstable_query_filter` report the first-seen time instead (C36, C51, C53).
8. A name whose last label ends in the bytes 01 '*' or 01 '+' is taken for a right
   wildcard. With wildcards at both ends, RRset queries use the left and
   rdata name queries the right one.
9. `set_data` with NULL or bad hexadecimal data leaves a stale length behind; then
   iterating reads through a null pointer. The same with NULL for a name. A bad range
   of addresses leaves the first address changed. NULL does not clear the
   type of a version query (C43, C52).
10. Raw rdata in JSON overflows a three-byte buffer for types from 2^21 (C47); for
    RRsets it has the type appended, for RData it does not; the documentation calls the
    member raw_rdata.
11. An unaggregated query over a fileset counts each file twice (C41).
12. The root name as rdata name matches unsliced MX and SRV data with a preference below
    256; an rdata name query for a type without names matches data that begins with
    the same bytes.
13. While following an index, one entry whose name cannot be reversed ends the iteration.
14. Names in the data of NSEC, RP and NXT records are not indexed.
15. RFC 3339 times: aborts for times gmtime cannot represent, int overflow for the last 1900
    representable years, years from 10000 lose digits (C49, C77). Text times from 2^63 print as
    dates before 1970, unrepresentable ones print nothing (C56).
16. `increment_key` is not the tight upper bound for shorter keys (C42).
17. A time bound on a time range or version query reads past the stored value (C55).
18. The iterators of a reader over a setfile dereference a null pointer (C37).
19. Index entries store names unchecked and print them into a buffer for names (C47).
20. Counts printed with a multibyte thousands separator overflow a 27-byte buffer (C56).
21. Source information: a NUL ends it, bytes that are not UTF-8 reach JSON output, and
    line breaks forge lines of text output (C47, C56).
22. Entries of unknown type hand a null name to wdns_domain_to_str; an index entry that
    lists all 65536 types prints "<failure>" (C47, C56).
23. Address and range texts: extra separators, leading blanks and plus signs are accepted.
24. dnstable_lookup: 1970-01-01 is refused, earlier dates become huge numbers,
    durations overflow, numbers are truncated to int (C58); bounds documented as "after"
    and "before" include the given second; empty output strings leak.
25. Clearing both the timeout and the deadline of a query while a timed iterator is in use
    leaves a stale jump buffer, to which the iterator jumps when the limit strikes (C64).
26. `remove_iter_free` does not free the copies of the keys that
    `remove_source_iter_common` makes (C63).
27. Setting a bailiwick that cannot be parsed while an iterator of the query filters by
    bailiwick may compare with a null pointer (C62, rule on bailiwicks).
28. The synopsis of dnstable_dump(1), `--rrset FILE` and `--rdata FILE`, is refused: both
    names begin two options (C67). `--version` selects the version entries.
29. dnstable_dump: `-r=no FILE` fails an assertion; the byte 254 as an option letter reads
    behind the table; `--argv-file -5` goes through a null pointer; the byte 251 given
    several times overflows the queue of arguments, and so do the lines of an argument file
    that say `--argv-file` without `=`, for which no room is counted (C68).
30. A file without a time range entry merged with one that has it yields a file whose
    range does not cover everything in it; dnstable-encoding(5) calls the entry the range
    of all entries. Queries with time bounds then miss results (C69).
31. dnstable_query(3) offers dnstable_query_get_error after any failure, but failures to
    read raw data, a version type, a range without exactly two ends, data for a time range
    query and filter parameters set no message: the text is that of an earlier failure or
    "unknown error" (C73).
32. Two different index values whose bitmaps have only zero bits merge to the empty value.
    That value stands for every type, not for none (C74).  Encoders write no such bitmaps.
33. dnstable_merge expands its arguments without quotes: file names with white space are torn
    apart, empty arguments vanish and patterns are expanded a second time (C76).
34. An iterator goes on reading its query object. Setting another type, bailiwick, time bound
    or offset changes what an older iterator returns; data for another address family end an
    older iterator over addresses, and the type ANY makes it fail an assertion (query.c:617); clearing the
    bailiwick leaves an older iterator without results (C82).

## Tests against wrong programs

`seeded/LOG.jsonl` has one line per edit of the model that a bug could have made.  Read it as follows.

- Each edit was made in a scratch copy and the copy rebuilt until the first statement that no longer proved.
- `result` is `caught` if the build failed outside the edited model file, and `SURVIVED` if everything still built.
- `failed` names the statements at which the build stopped.  It is often a lemma below the theorem, since the build goes no further.
- `claim_theorems` lists the theorems registered for the claim when the line was written.  They are the ones whose subject the edit changes.  It was not checked for each of them separately that it fails.
- `tightened` lists theorems written or strengthened because the edit survived.  `note` says why an edit is harmless, where it is.
