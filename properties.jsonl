{"id": "C01", "title": "Value encodings round-trip", "statement": "Packing (time_first, time_last, count) or (time_first, time_last) and unpacking the result gives back the same numbers, consumes exactly the packed bytes, and the packed form never exceeds 30 (resp. 20) bytes, so it fits the 32-byte buffer the merge function allocates; unpacking a value with extra trailing bytes is rejected.", "quantifier": "all 64-bit triples and pairs", "why_tests_cant": "The domain is infinite (all 64-bit values, all byte strings); a test samples a few. 2^192 triples.", "anchors": ["dnstable/triplet.c:triplet_pack", "dnstable/triplet.c:triplet_unpack", "dnstable/triplet.c:pair_pack", "dnstable/triplet.c:pair_unpack", "libmy/varint.c"]}
{"id": "C02", "title": "Merging two RRset/RData observations", "statement": "dnstable_merge_func on two well-formed values of an RRset or RData key yields the well-formed value (min of first-seen, max of last-seen, sum of counts modulo 2^64).", "quantifier": "all keys of the two types and all pairs of well-formed values", "why_tests_cant": "The domain is infinite (all 64-bit values, all byte strings); a test samples a few.", "anchors": ["dnstable/merge.c:dnstable_merge_func"]}
{"id": "C03", "title": "RRset/RData merging is independent of file order and grouping", "statement": "However a multiset of observations of one key is distributed over files and in whatever order and grouping the files are merged, the merged value has the same bytes.", "quantifier": "all finite multisets of observations, all permutations and all binary merge trees", "why_tests_cant": "Number of merge trees is super-exponential and unbounded.", "anchors": ["dnstable/merge.c:dnstable_merge_func", "src/dnstable_merge.sh.in"]}
{"id": "C04", "title": "RRtype index merging is set union", "statement": "Merging two RRtype-index values (keys of the two name index types) yields an index value denoting exactly the union of the two sets of RRtypes; an empty value, which means 'all types', absorbs.", "quantifier": "all pairs of non-corrupt index values whose union fits the encoder's limit", "why_tests_cant": "2^65536 sets.", "anchors": ["dnstable/merge.c:merge_rrtype_bitmaps", "dnstable/merge.c:sorted_merge_dedup", "dnstable/entry.c:rrtype_union_unpack"]}
{"id": "C05", "title": "RRtype index merging is independent of order and grouping", "statement": "Merging any collection of index values in any order and grouping gives byte-identical results whenever the inputs are in the documented encoding.", "quantifier": "all finite collections of documented index values, all merge trees", "why_tests_cant": "Unbounded trees over 2^65536 sets.", "anchors": ["dnstable/merge.c:merge_rrtype_bitmaps"]}
{"id": "C06", "title": "RRtype index merging always completes", "statement": "Merging any two valid index values produces a value (the process does not abort and the merge does not fail).", "quantifier": "all pairs of valid index values", "why_tests_cant": "The failing region (large unions) is never met by typical data.", "anchors": ["dnstable/merge.c:merge_rrtype_bitmaps", "dnstable/entry.c:rrtype_union_unpack"]}
{"id": "C07", "title": "Time-range merging", "statement": "Merging time-range values yields (min, max); merging with an empty value yields an empty value; result independent of order and grouping.", "quantifier": "all finite collections of time-range values and all merge trees", "why_tests_cant": "The domain is infinite (all 64-bit values, all byte strings); a test samples a few.", "anchors": ["dnstable/merge.c:dnstable_merge_func"]}
{"id": "C08", "title": "Version merging keeps the lowest version", "statement": "Merging version values for a versioned entry type yields the smallest version, an empty (absent) value absorbs, and versions of unknown entry types merge to empty; result independent of order and grouping.", "quantifier": "all finite collections of version values, all merge trees", "why_tests_cant": "The domain is infinite (all 64-bit values, all byte strings); a test samples a few.", "anchors": ["dnstable/merge.c:dnstable_merge_func"]}
{"id": "C09", "title": "Merging never loses or invents keys of other types", "statement": "For every key that is none of the above (source info, malformed time-range/version keys, unknown type bytes) merging succeeds with an empty value regardless of the inputs.", "quantifier": "all keys and values", "why_tests_cant": "The domain is infinite (all 64-bit values, all byte strings); a test samples a few.", "anchors": ["dnstable/merge.c:dnstable_merge_func"]}
{"id": "C10", "title": "RRtype index test has no false negatives", "statement": "Testing a type against an index value says yes whenever the type is in the set the index denotes, whenever the index is empty, and whenever the index is corrupt; so an index never hides a record.", "quantifier": "all byte strings as index values and all 65536 types", "why_tests_cant": "Byte strings of any length.", "anchors": ["dnstable/entry.c:rrtype_test", "dnstable/entry.c:rrtype_union_check", "dnstable/entry.c:rrtype_union_unpack"]}
{"id": "C11", "title": "RRtype index test has no false positives and stays in bounds", "statement": "Testing a type against a valid index value says yes only if the set contains the type, and reads only bytes of the index value.", "quantifier": "all valid index values and all types", "why_tests_cant": "Needs the exact bitmap boundary of the type's window.", "anchors": ["dnstable/entry.c:rrtype_union_check"]}
{"id": "C12", "title": "RRtype index values decode to the sorted set they encode", "statement": "Unpacking the documented encoding of a set of RRtypes gives that set in strictly increasing order; unpacking any value that obeys the documented window format gives a strictly increasing list.", "quantifier": "all sets of RRtypes, all values in the documented format", "why_tests_cant": "2^65536 sets.", "anchors": ["dnstable/entry.c:rrtype_union_unpack", "dnstable/merge.c:merge_rrtype_bitmaps"]}
{"id": "C13", "title": "RRset entries decode to what was encoded", "statement": "Decoding the documented key/value encoding of an RRset (owner name, type, bailiwick, rdata list, times, count) returns an entry whose accessors give exactly these; count 0 is reported as 1 and last-seen 0 as first-seen.", "quantifier": "all valid names, types, bailiwicks, rdata lists, times and counts", "why_tests_cant": "The domain is infinite (all 64-bit values, all byte strings); a test samples a few.", "anchors": ["dnstable/entry.c:dnstable_entry_decode", "dnstable/entry.c:decode_rrset", "dnstable/entry.c:decode_val_triplet"]}
{"id": "C14", "title": "RData entries decode to what was encoded", "statement": "Decoding the documented encoding of an RData record, in unsliced or sliced form, returns an entry whose accessors give the original owner, type, rdata bytes (slices re-joined), times and count.", "quantifier": "all owners, types, rdata strings, slice points, times and counts within the 16-bit rdata length", "why_tests_cant": "The domain is infinite (all 64-bit values, all byte strings); a test samples a few.", "anchors": ["dnstable/entry.c:decode_rdata"]}
{"id": "C15", "title": "Index and metadata entries decode to what was encoded", "statement": "Decoding the documented encodings of forward-name, reverse-name, time-range, source-info and version entries returns the encoded contents.", "quantifier": "all names, index values, time ranges, source strings, versions", "why_tests_cant": "The domain is infinite (all 64-bit values, all byte strings); a test samples a few.", "anchors": ["dnstable/entry.c:decode_rrset_name_fwd", "dnstable/entry.c:decode_rdata_name_rev", "dnstable/entry.c:decode_time_range", "dnstable/entry.c:decode_source_info", "dnstable/entry.c:decode_version"]}
{"id": "C16", "title": "Decoding arbitrary bytes terminates", "statement": "dnstable_entry_decode returns for every key and value.", "quantifier": "all byte strings", "why_tests_cant": "A hang needs one specific corrupt varint in one specific place.", "anchors": ["dnstable/entry.c:decode_rrset"]}
{"id": "C17", "title": "Decoding arbitrary bytes stays within the key and value", "statement": "dnstable_entry_decode reads no byte outside the key and the value it is given and aborts on none.", "quantifier": "all byte strings", "why_tests_cant": "Out-of-bounds reads usually go unnoticed at run time.", "anchors": ["dnstable/entry.c:dnstable_entry_decode", "dnstable/triplet.c", "libmy/varint.c"]}
{"id": "C18", "title": "Entry type follows the key's type byte", "statement": "A successfully decoded entry has the type its key's first byte stands for, and keys with other first bytes are not decoded.", "quantifier": "all byte strings", "why_tests_cant": "All 256 type bytes times all remainders.", "anchors": ["dnstable/entry.c:dnstable_entry_decode"]}
{"id": "C19", "title": "Accessors succeed exactly for the documented entry types", "statement": "Each dnstable_entry_get_* accessor succeeds exactly on the entry types documented for it and, where it takes an index, exactly for indexes below the reported number of items.", "quantifier": "all entries, all indexes", "why_tests_cant": "Index ranges over all naturals.", "anchors": ["dnstable/entry.c:dnstable_entry_get_rdata", "dnstable/entry.c:dnstable_entry_get_rrname", "dnstable/entry.c:dnstable_entry_get_bailiwick", "dnstable/entry.c:dnstable_entry_get_rrtype", "dnstable/entry.c:dnstable_entry_get_num_rdata", "dnstable/entry.c:dnstable_entry_get_count", "dnstable/entry.c:dnstable_entry_get_time_first", "dnstable/entry.c:dnstable_entry_get_time_last"]}
{"id": "C20", "title": "Distinct records have distinct keys", "statement": "Two RRset records (or two RData records) with the same key bytes have the same owner, type, bailiwick and rdata, so merging by key never conflates records.", "quantifier": "all pairs of valid records", "why_tests_cant": "The domain is infinite (all 64-bit values, all byte strings); a test samples a few. Needs prefix-freeness of names and varints.", "anchors": ["dnstable/entry.c:decode_rrset", "dnstable/entry.c:decode_rdata", "man/dnstable-encoding.5.txt"]}
{"id": "C21", "title": "Exact RRset lookup", "statement": "An RRset query for a name, optionally with type and bailiwick, returns exactly the RRset entries of the source with that owner, type and bailiwick, each once, in source order.", "quantifier": "all sorted sources of well-formed entries, all names, types, bailiwicks", "why_tests_cant": "All databases.", "anchors": ["dnstable/query.c:query_init_rrset", "dnstable/query.c:dnstable_query_iter_common", "dnstable/query.c:filter_rrtype", "dnstable/query.c:filter_bailiwick"]}
{"id": "C22", "title": "Left-wildcard RRset lookup", "statement": "A '*.x' RRset query returns exactly the entries whose owner is x or below x (with the optional type and bailiwick restrictions); '+.x' exactly those whose owner has one label more than x. The seeks done for '+' never lose an entry.", "quantifier": "all sorted sources, all names", "why_tests_cant": "Seeking past entries depends on every neighbour in the database.", "anchors": ["dnstable/query.c:query_init_rrset_left_wildcard", "dnstable/query.c:filter_single_label", "dnstable/query.c:increment_key"]}
{"id": "C23", "title": "Right-wildcard RRset lookup through the index", "statement": "An 'x.*' RRset query returns exactly the entries whose owner begins with the labels of x, grouped in index order, provided the source contains the documented index entry for each RRset; 'x.+' exactly those with one more label.", "quantifier": "all sorted sources with a complete index, all names", "why_tests_cant": "Two-level iteration over all databases.", "anchors": ["dnstable/query.c:query_init_rrset_right_wildcard", "dnstable/query.c:query_iter_next_name_indirect", "dnstable/entry.c:rrtype_test"]}
{"id": "C24", "title": "RData name lookup", "statement": "An rdata-name query returns exactly the rdata entries whose (sliced) record data begins with the given name and, if a type is given, have that type, restricted to name-bearing types.", "quantifier": "all sorted sources of well-formed entries, all names and types", "why_tests_cant": "All databases.", "anchors": ["dnstable/query.c:query_init_rdata_name", "dnstable/query.c:filter_rrtype_rdata_name", "dnstable/query.c:filter_rrtype"]}
{"id": "C25", "title": "RData name wildcard lookup", "statement": "Right-wildcard rdata-name queries match by key prefix, left-wildcard ones via the reverse-name index, and return exactly the matching records given a complete index.", "quantifier": "all sorted sources with a complete index, all names", "why_tests_cant": "Two-level iteration over all databases.", "anchors": ["dnstable/query.c:query_init_rdata_right_wildcard", "dnstable/query.c:query_init_rdata_left_wildcard", "dnstable/query.c:query_iter_next_name_indirect"]}
{"id": "C26", "title": "RData IP lookup", "statement": "An rdata-ip query for an address, or an address range, returns exactly the A (AAAA) entries whose address is in the range, in order; the seeks that jump over other record types and over malformed keys never lose an entry.", "quantifier": "all sorted sources of well-formed entries, all ranges", "why_tests_cant": "The seek targets depend on arbitrary neighbouring keys.", "anchors": ["dnstable/query.c:query_init_rdata_ip", "dnstable/query.c:filter_rrtype_ip", "dnstable/query.c:increment_key"]}
{"id": "C27", "title": "CIDR prefixes denote their address block", "statement": "Setting ADDRESS/LEN makes the queried range exactly the addresses sharing the first LEN bits with ADDRESS.", "quantifier": "all IPv4 and IPv6 addresses, all prefix lengths", "why_tests_cant": "2^32 * 33 and 2^128 * 129 inputs.", "anchors": ["libmy/ip_arith.h:ip4_lower", "libmy/ip_arith.h:ip4_upper", "libmy/ip_arith.h:ip6_lower", "libmy/ip_arith.h:ip6_upper", "dnstable/query.c:query_set_data_rdata_ip_prefix"]}
{"id": "C28", "title": "RData raw lookup", "statement": "An rdata-raw query returns exactly the rdata entries whose key data begins with the given bytes, with the optional type restriction.", "quantifier": "all sorted sources, all byte strings", "why_tests_cant": "All databases.", "anchors": ["dnstable/query.c:query_init_rdata_raw", "dnstable/query.c:filter_rrtype"]}
{"id": "C29", "title": "Time fencing selects by first- and last-seen times", "statement": "With any combination of the four time bounds a single-source query returns exactly the otherwise matching entries whose stored first-seen/last-seen times are within the inclusive bounds, in the same order.", "quantifier": "all sources, all combinations and values of bounds", "why_tests_cant": "All databases and 2^256 bounds.", "anchors": ["dnstable/query.c:filter_time_common", "dnstable/query.c:filter_time"]}
{"id": "C30", "title": "Aggregated time-fenced fileset query equals filter-after-merge", "statement": "A time-fenced aggregated query over a set of files returns exactly what one gets by merging all files key by key and then applying the bounds to the merged values, although files outside the fence are dropped, only used to fill values, or used to remove keys.", "quantifier": "all finite sets of files with accurate time ranges and first<=last, all bounds, all merge orders", "why_tests_cant": "All distributions of observations over files.", "anchors": ["dnstable/query.c:dnstable_query_iter_fileset", "dnstable/query.c:reader_time_filter", "dnstable/query.c:filter_time_prefilter", "dnstable/query_mtbl.c"]}
{"id": "C31", "title": "Unaggregated fileset query", "statement": "An unaggregated query returns every file's matching entry separately, each fenced on its own times; no merging of values takes place.", "quantifier": "all finite sets of files, all bounds", "why_tests_cant": "All distributions of observations over files.", "anchors": ["dnstable/query.c:dnstable_query_iter_fileset", "dnstable/query.c:dnstable_dupsort_func"]}
{"id": "C32", "title": "Offset skips exactly the first N results", "statement": "With offset N the iterator returns the result sequence without its first N entries.", "quantifier": "all offsets, all result sequences", "why_tests_cant": "Unbounded sequences.", "anchors": ["dnstable/query.c:filter_offset", "dnstable/query.c:dnstable_query_set_offset"]}
{"id": "C33", "title": "Offset applies to every iterator created from the query", "statement": "Creating two iterators from one query and draining both gives the same results.", "quantifier": "all queries and sources", "why_tests_cant": "Depends on state left in the query by an earlier iterator.", "anchors": ["dnstable/query.c:filter_offset"]}
{"id": "C34", "title": "Timeouts lose and duplicate nothing", "statement": "For any pattern of timeouts, calling dnstable_iter_next again after dnstable_res_timeout continues where the iteration stopped: the successful results are the same sequence as without timeouts. This holds too if the timeout or the deadline of the query is changed between calls.", "quantifier": "all clock behaviours, all sources, all queries", "why_tests_cant": "The timeout may strike at any of unboundedly many points.", "anchors": ["dnstable/query.c:query_iter_next", "dnstable/query.c:query_iter_next_name_indirect", "dnstable/query_mtbl.c:timeout_iter_next"]}
{"id": "C35", "title": "The effective deadline is the earlier of timeout and absolute deadline", "statement": "dnstable_iter_next times out only at or after now+timeout or the absolute deadline, whichever is earlier; with neither set it never times out.", "quantifier": "all clock values, timeouts and deadlines", "why_tests_cant": "All timespec values including nanosecond carries.", "anchors": ["dnstable/query.c:dnstable_query_set_deadline", "libmy/my_time.h:my_timespec_add", "dnstable/query_mtbl.c:timeout_iter_next"]}
{"id": "C36", "title": "Entry filter agrees with the iterator", "statement": "dnstable_query_filter accepts a decoded entry exactly when the type, time and bailiwick conditions of the query hold for it; every entry an iterator of the query returns is accepted.", "quantifier": "all queries and entries", "why_tests_cant": "All entries times all query settings.", "anchors": ["dnstable/query.c:dnstable_query_filter"]}
{"id": "C37", "title": "Reader iterators enumerate exactly one entry type", "statement": "dnstable_reader_iter_<type> returns exactly the decodable entries of that type, in order, each once; dnstable_reader_iter all decodable entries.", "quantifier": "all sorted sources", "why_tests_cant": "All databases.", "anchors": ["dnstable/reader.c:reader_iter_prefix", "dnstable/reader.c:reader_iter_next"]}
{"id": "C38", "title": "Left join keeps left entries and adds right values", "statement": "The left join of two sorted sources yields each left entry once, in order, with its value merged with the right value of the same key if there is one; for any sequence of next and seek calls.", "quantifier": "all pairs of sorted sources, all call histories", "why_tests_cant": "All histories.", "anchors": ["dnstable/query_mtbl.c:ljoin_iter_next", "dnstable/query_mtbl.c:ljoin_iter_seek"]}
{"id": "C39", "title": "Remove yields the key difference", "statement": "The remove source yields exactly the upstream entries whose key occurs in none of the removed sources, for any sequence of next and seek calls and any reordering of its internal list.", "quantifier": "all sources, any number of removed sources, all call histories", "why_tests_cant": "All histories.", "anchors": ["dnstable/query_mtbl.c:match_key", "dnstable/query_mtbl.c:remove_iter_next", "dnstable/query_mtbl.c:remove_iter_seek"]}
{"id": "C40", "title": "Filter sources yield exactly the matching entries", "statement": "A filter source whose filter function may seek forward yields exactly the matching entries as long as the seeks skip no matching entry; for any sequence of next and seek calls.", "quantifier": "all sources, all filter functions, all call histories", "why_tests_cant": "All histories.", "anchors": ["dnstable/query_mtbl.c:filter_iter_next", "dnstable/query_mtbl.c:filter_iter_seek"]}
{"id": "C41", "title": "Query statistics count what happened", "statement": "The per-stage 'filtered', 'merged', 'seek' and 'files' counters equal the number of entries rejected by, values merged by, seeks issued by and files used by that stage.", "quantifier": "all executions", "why_tests_cant": "All executions.", "anchors": ["dnstable/query_mtbl.c:filter_mtbl_get_counter", "dnstable/query_mtbl.c:ljoin_mtbl_get_counter", "dnstable/query_mtbl.c:remove_mtbl_get_counter", "dnstable/query.c:query_iter_get_count", "dnstable/query.c:get_counter"]}
{"id": "C42", "title": "Seek-key increment is a tight successor", "statement": "Incrementing the first n bytes of a key gives the least n-byte string greater than them; every key that is greater than and not prefixed by them is at or after it; failure only if all bytes are 0xff.", "quantifier": "all keys and positions", "why_tests_cant": "The domain is infinite (all 64-bit values, all byte strings); a test samples a few.", "anchors": ["dnstable/query.c:increment_key"]}
{"id": "C43", "title": "Query parameters: last setting wins, failures are reported", "statement": "After any sequence of setter calls the query carries the last successfully set value of each parameter; setters that do not apply to the query type fail.", "quantifier": "all sequences of setter calls", "why_tests_cant": "All histories.", "anchors": ["dnstable/query.c:dnstable_query_set_data", "dnstable/query.c:dnstable_query_set_rrtype", "dnstable/query.c:dnstable_query_set_bailiwick", "dnstable/query.c:dnstable_query_set_filter_parameter"]}
{"id": "C44", "title": "Hex decoding of raw queries", "statement": "The raw query string is accepted iff it is a non-empty even-length string of hex digits (either case) and then denotes the bytes it spells.", "quantifier": "all strings", "why_tests_cant": "The domain is infinite (all 64-bit values, all byte strings); a test samples a few.", "anchors": ["libmy/hex_decode.h:hex_decode", "libmy/hex_decode.h:hex_to_int"]}
{"id": "C45", "title": "JSON strings are escaped losslessly", "statement": "The JSON string the library emits for any byte string contains no raw control character, unescaped quote or backslash and unescapes to the same byte string.", "quantifier": "all byte strings", "why_tests_cant": "The domain is infinite (all 64-bit values, all byte strings); a test samples a few.", "anchors": ["dnstable/dnstable-json.h:append_json_string_escaped"]}
{"id": "C46", "title": "JSON numbers", "statement": "Numbers are rendered as their decimal representation without leading zeros within the 32-byte buffer.", "quantifier": "all 64-bit numbers", "why_tests_cant": "2^64 values.", "anchors": ["dnstable/dnstable-json.h:vnum_to_str"]}
{"id": "C47", "title": "JSON output is one syntactically valid object", "statement": "dnstable_entry_to_json yields, for every decoded entry, a single syntactically valid JSON object on one line.", "quantifier": "all entries and formatter settings", "why_tests_cant": "All entries.", "anchors": ["dnstable/entry.c:dnstable_entry_to_json_fmt"]}
{"id": "C48", "title": "Entry type names round-trip", "statement": "dnstable_entry_type_from_string inverts dnstable_entry_type_to_string, and the statistics stage/category names round-trip case-insensitively; nothing else is accepted.", "quantifier": "all strings and all enum values", "why_tests_cant": "All strings.", "anchors": ["dnstable/entry.c:dnstable_entry_type_to_string", "dnstable/entry.c:dnstable_entry_type_from_string", "dnstable/util.c"]}
{"id": "C49", "title": "RFC 3339 timestamps", "statement": "Timestamps in RFC 3339 form denote the same second as the number of seconds since the epoch.", "quantifier": "all 64-bit timestamps", "why_tests_cant": "2^64 values.", "anchors": ["dnstable/entry.c:fmt_rfc3339_time", "libmy/my_format.c:my_uint64_to_str"]}
{"id": "C50", "title": "Duplicate-sort order is total", "statement": "The ordering used to list unaggregated duplicates is a total preorder, so sorting with it is well defined, and it orders RRset and record data values by first-seen, then last-seen time.", "quantifier": "all values", "why_tests_cant": "The domain is infinite (all 64-bit values, all byte strings); a test samples a few.", "anchors": ["dnstable/query.c:dnstable_dupsort_func"]}
{"id": "C51", "title": "Complete-matching options of dnstable_lookup", "statement": "With -c, the rewritten bounds select exactly the entries whose first-seen and last-seen times both lie within the requested range.", "quantifier": "all bound combinations and all entries", "why_tests_cant": "2^256 bound combinations.", "anchors": ["src/dnstable_lookup.c"]}
{"id": "C52", "title": "Queries do not crash on accepted parameters", "statement": "Whenever all setter calls on a query succeeded, creating an iterator from it and draining it neither aborts nor reads outside its buffers.", "quantifier": "all setter histories, all sources", "why_tests_cant": "Depends on unusual setter orders and boundary-length keys.", "anchors": ["dnstable/query.c:filter_rrtype_ip", "dnstable/query.c:query_init_rdata_ip", "dnstable/query.c:add_rrtype_to_key", "dnstable/query.c:query_init_rdata_raw"]}
{"id": "C53", "title": "Time bounds apply to the reported times", "statement": "The first-seen and last-seen times a returned entry reports are within the bounds of the query, and no otherwise matching entry reporting times within the bounds is left out.", "quantifier": "all sources, all combinations and values of bounds", "why_tests_cant": "The domain is infinite (all 64-bit values, all byte strings); a test samples a few.", "anchors": ["dnstable/query.c:filter_time", "dnstable/entry.c:dnstable_entry_get_time_last"]}
{"id": "C54", "title": "Undecodable entries hide nothing", "statement": "Iterating a query that looks up one key prefix over any sorted source returns every decodable entry stored under the prefix; an entry that cannot be decoded is passed over and neither ends the iteration nor hides a later entry.", "quantifier": "all sorted sources, all queries that look up one key prefix, all positions of undecodable entries", "why_tests_cant": "Any entry of any table may be malformed, in any combination.", "anchors": ["dnstable/query.c:query_iter_next", "dnstable/reader.c:reader_iter_next"]}
{"id": "C55", "title": "Metadata queries", "statement": "A time range query returns the stored time ranges, and a version query the stored versions, restricted to one entry type if a version type is set; each returned entry reports the stored numbers.", "quantifier": "all sources, all stored values", "why_tests_cant": "The domain is infinite (all 64-bit values, all byte strings); a test samples a few.", "anchors": ["dnstable/query.c:query_init_time_range", "dnstable/query.c:query_init_version", "dnstable/entry.c:dnstable_entry_decode"]}
{"id": "C56", "title": "Text output shows the entry", "statement": "The text form of an RRset is its header lines (bailiwick if any, count, first and last seen, in zone or not) and one line per record with owner, type and data; that of an RData record is its one record line; of an index entry, a time range, source information or a version its comment lines. Every line is complete, times shown denote the stored second, and lines of names and data never contain a line break.", "quantifier": "all entries, all date formats, all stored numbers", "why_tests_cant": "The domain is infinite (all 64-bit values, all byte strings); a test samples a few.", "anchors": ["dnstable/entry.c:dnstable_entry_to_text_fmt", "dnstable/entry.c:fmt_time", "dnstable/entry.c:fmt_uint64", "dnstable/entry.c:fmt_rrtype"]}
{"id": "C57", "title": "dnstable_lookup loses and repeats nothing across its time slices", "statement": "With -i and -t dnstable_lookup gives its query a deadline again and again. Whatever the clock does, if it ends it has printed the query's results in order, each once, or a beginning of them only if the total time of -t was up, and then it says so; without -t and -i it prints all of them, and with -t it does end.", "quantifier": "all databases, command lines and clock behaviours", "why_tests_cant": "The deadline may strike at any of unboundedly many points, any number of times.", "anchors": ["src/dnstable_lookup.c:do_dump", "src/dnstable_lookup.c:main"]}
{"id": "C58", "title": "Times on the command line of dnstable_lookup", "statement": "A date, a date with a time (with a blank, T or T...Z), a number of seconds since 1970, a negative number of seconds before now, and a duration of weeks, days, hours, minutes and seconds before now are taken for the second they denote; the timestamps that dnstable prints can be given back to it.", "quantifier": "all strings of these forms, all clock values", "why_tests_cant": "All strings.", "anchors": ["src/dnstable_lookup.c:parse_time", "src/dnstable_lookup.c:main"]}
{"id": "C59", "title": "dnstable_dump prints exactly the chosen section", "statement": "dnstable_dump prints the JSON object or the text form of every decodable entry of the chosen type that is stored in the file, each once, in key order, and nothing else; it ends. For RRsets and RData it prints every stored record.", "quantifier": "all files, sections and output options", "why_tests_cant": "The domain is infinite (all 64-bit values, all byte strings); a test samples a few.", "anchors": ["src/dnstable_dump.c:do_dump", "src/dnstable_dump.c:print_entry", "src/dnstable_dump.c:main"]}
{"id": "C60", "title": "dnstable_lookup prints exactly the records the command line asks for", "statement": "For a file, and for an aggregated or unaggregated set of files, dnstable_lookup prints the JSON object or text form of exactly the stored (merged) records with the given name or name pattern, type, bailiwick, data, address range and time bounds, without those skipped by -O, and then their number.", "quantifier": "all databases with complete indexes, all understood command lines", "why_tests_cant": "The domain is infinite (all 64-bit values, all byte strings); a test samples a few.", "anchors": ["src/dnstable_lookup.c:main", "src/dnstable_lookup.c:do_dump", "src/dnstable_lookup.c:print_entry"]}
{"id": "C61", "title": "The command line of dnstable_lookup", "statement": "dnstable_lookup accepts exactly the documented options, arguments and combinations, takes the last of repeated options, and prints results only if names, types and data could be understood and the database opened; anything else, but for the times and prefix lengths whose handling is undefined (C58, C27), ends with a failure status.", "quantifier": "all argument lists", "why_tests_cant": "All argument lists.", "anchors": ["src/dnstable_lookup.c:main", "src/dnstable_lookup.c:usage"]}
{"id": "C62", "title": "No history of calls makes the library misuse memory", "statement": "A client passes only handles it holds, gives each back once, keeps a source and a query while readers and iterators use them, runs name and raw data queries only after their data were accepted, iterates whole readers only over sources, keeps a time limit on a query whose iterator was made with one, does not set a new bailiwick while an iterator of the query lives, and formats only entries of a known type. Then no call reads, writes or frees memory that is NULL, was freed or is of another kind, and no timeout jumps to an expired jump buffer, whatever the files contain and whenever time limits strike, and every call returns. Each of these rules is needed.", "quantifier": "all histories of API calls, all database contents, all moments at which limits expire", "why_tests_cant": "Use after free depends on the order of calls and on the data; tests see one order and one database at a time.", "anchors": ["dnstable/query.c:query_iter_free", "dnstable/query_mtbl.c:filter_iter_free", "dnstable/query_mtbl.c:ljoin_iter_next", "dnstable/query_mtbl.c:remove_iter_next", "dnstable/entry.c:dnstable_entry_destroy", "dnstable/reader.c:dnstable_reader_destroy", "dnstable/iter.c:dnstable_iter_destroy"]}
{"id": "C63", "title": "Nothing leaks", "statement": "When a client has given back all handles and strings it got, the library holds no memory any more.", "quantifier": "all histories of API calls that follow the rules of C62, all database contents", "why_tests_cant": "Every error path and every order of destruction counts.", "anchors": ["dnstable/query.c:query_iter_free", "dnstable/query_mtbl.c:remove_iter_free", "dnstable/query_mtbl.c:remove_source_iter_common", "dnstable/entry.c:dnstable_entry_decode"]}
{"id": "C64", "title": "Time limits can be changed while iterators are in use", "statement": "The timeout and the deadline of a query may be set, replaced and cleared at any time, also while iterators of the query are in use; the iterators can be used after that.", "quantifier": "all histories of API calls, all moments at which limits expire", "why_tests_cant": "The failing order is rare: it needs a limit to strike after it was cleared.", "anchors": ["dnstable/query.c:dnstable_query_set_timeout", "dnstable/query.c:dnstable_query_set_deadline", "dnstable/query.c:query_iter_next", "dnstable/query_mtbl.c:timeout_iter_next"]}
{"id": "C65", "title": "The statistics of dnstable_lookup", "statement": "With -s or -i dnstable_lookup writes a report to stderr every time the iterator of its query stops: the numbers dnstable_iter_get_count gives at that moment (a total over the stages for each category, or with more than one -s every number there is, with the right names), the number of entries printed so far, and the time since the start of the lookup; without -i there is one report, without both there is none.", "quantifier": "all command lines, databases, clock readings and numbers of rounds", "why_tests_cant": "All histories of timeouts and clock readings.", "anchors": ["src/dnstable_lookup.c:do_dump_stats_stage", "src/dnstable_lookup.c:do_dump_stats_category", "src/dnstable_lookup.c:do_dump"]}
{"id": "C66", "title": "Growable arrays hold what was put into them", "statement": "A growable array or byte buffer (add, append, reserve and write, advance, clip, set, reset, detach, formatted and terminated text) behaves like a list for every sequence of calls: no access is outside its memory or through an old pointer, no call loops for ever or overflows its size arithmetic, and the only way to fail is that the allocator refuses memory, which it is asked for no more than twice the elements needed. Every place where the query code writes into reserved room has reserved enough.", "quantifier": "all sequences of calls that follow the rules, all initial sizes, element sizes and behaviours of the allocator; all keys, names and types", "why_tests_cant": "Growth happens at sizes that depend on the data; overflow of the size arithmetic needs sizes no test can allocate.", "anchors": ["libmy/vector.h:VECTOR_GENERATE", "libmy/my_format.c:my_uint64_to_str", "libmy/ubuf.h:ubuf_cterm", "libmy/my_alloc.h:my_realloc", "dnstable/query.c:add_rrtype_to_key", "dnstable/query.c:filter_rrtype_ip", "dnstable/query.c:query_iter_next_name_indirect"]}
{"id": "C67", "title": "The command line of dnstable_dump", "statement": "dnstable_dump takes options as letters, alone or together, and as names that may be abbreviated while they stay unambiguous, with or without =yes or =no, among its arguments, up to a word --, and first those of the variable ARGV_DNSTABLE_DUMP; --argv-file, with = or with the next argument, stands for the lines of a file or of standard input, and files may name files; the last setting counts. The variable GLOBAL_ARGV may change whether = gives values, whether a second -- takes up options again, whether options may be repeated and whether the words of the environment come first, last or not at all. It dumps exactly when there is one argument and exactly one section is asked for, and then dumps that section of that file; every other command line is refused with a failure status or answered with the usage or version message.", "quantifier": "all lists of words, values of the environment variables, contents of argument files and of standard input without the special codes (bytes 251 and above after a dash), all databases", "why_tests_cant": "All lists of words and files.", "anchors": ["libmy/argv.c:argv_process", "libmy/argv.c:do_list", "libmy/argv.c:file_args", "libmy/argv.c:process_env", "src/dnstable_dump.c:args", "src/dnstable_dump.c:main", "man/dnstable_dump.1.txt"]}
{"id": "C68", "title": "No command line makes dnstable_dump crash", "statement": "Whatever words dnstable_dump is started with, it ends with a message or dumps a section; it never fails an assertion or reads outside its option table or queue.", "quantifier": "all lists of words", "why_tests_cant": "All lists of words, and bytes no test would put there.", "anchors": ["libmy/argv.c:check_or", "libmy/argv.c:do_list", "libmy/argv.c:file_args", "src/dnstable_dump.c:main"]}
{"id": "C69", "title": "Merging files does not change results", "statement": "A set of files is queried with aggregation. If some of its files are replaced by the one file that dnstable_merge makes of them, or the files are listed in another order, or all are merged into one file that is opened alone, every query lists the same entries with the same times and counts in the same order, also within time bounds.", "quantifier": "all sets of files, all ways to choose the files to merge, all orders in which the values of a key are merged, all queries of names, addresses and data", "why_tests_cant": "All sets of files and all merge orders; counters wrap and files are passed over depending on their times.", "anchors": ["dnstable/merge.c:dnstable_merge_func", "dnstable/query.c:reader_time_filter", "dnstable/query.c:dnstable_query_iter_fileset", "man/dnstable_merge.1.txt", "man/dnstable-encoding.5.txt"]}
{"id": "C70", "title": "Pages cover the results", "statement": "A client that asks for results page by page, each time with a new iterator whose offset is the number of results on the pages before, and takes the same number of results per page, gets every result exactly once and in order; with any offset a query lists what it lists without one, less the first entries. This holds for one file and for sets of files, with and without aggregation.", "quantifier": "all databases, sets of files, queries of names, addresses and data, page sizes and numbers of pages", "why_tests_cant": "All databases and page sizes; each page runs through all filters anew.", "anchors": ["dnstable/query.c:dnstable_query_set_offset", "dnstable/query.c:query_iter_next", "dnstable/query.c:query_iter_next_name_indirect"]}
{"id": "C71", "title": "What arbitrary bytes decode to", "statement": "For every key and value of bytes, dnstable_entry_decode returns an entry exactly if the key consists of the parts its type byte asks for (names, numbers in base 128 of at most five bytes, counted data, and for RData a trailing length) and the value of the numbers it should have; the entry then reports exactly these parts. Otherwise it returns NULL, except for the keys and values listed in C16 and C17.", "quantifier": "all keys and values", "why_tests_cant": "All byte strings, among them ones no encoder writes.", "anchors": ["dnstable/entry.c:dnstable_entry_decode", "dnstable/entry.c:decode_rrset", "dnstable/entry.c:decode_rdata", "dnstable/entry.c:decode_val_triplet", "dnstable/triplet.c:triplet_unpack", "libmy/varint.c:varint_decode32"]}
{"id": "C72", "title": "Aggregation only adds up", "statement": "For a query without time bounds over a set of files, the list with aggregation is the list without it in which every run of records that differ in nothing but times and count has become one record: first seen at the earliest, last seen at the latest of their times, with the sum of their counts (modulo 2^64). No two results with aggregation are alike in everything else, and the order of the two lists agrees.", "quantifier": "all sets of files, all merge orders, all queries of names, addresses and data", "why_tests_cant": "All sets of files and all ways the values of a key are merged.", "anchors": ["dnstable/query.c:dnstable_query_iter_fileset", "dnstable/query.c:dnstable_query_set_aggregated", "dnstable/query.c:dnstable_dupsort_func", "dnstable/merge.c:dnstable_merge_func"]}
{"id": "C73", "title": "The error text explains the failure", "statement": "After a dnstable_query_set_... call that failed, dnstable_query_get_error returns the message that says why this call failed (an unknown record type, a name or address that cannot be read, addresses of different families, a bad prefix, a bailiwick where none is supported); in general it returns the message of the last failing call, over any history of calls, and \"unknown error\" if there was none.", "quantifier": "all query types, all histories of setter calls and questions for the text", "why_tests_cant": "All histories: a stale or missing message depends on what was called before.", "anchors": ["dnstable/query.c:dnstable_query_get_error", "dnstable/query.c:query_set_err", "dnstable/query.c:query_load_name", "dnstable/query.c:query_load_address", "dnstable/query.c:dnstable_query_set_data", "dnstable/query.c:dnstable_query_set_rrtype", "dnstable/query.c:dnstable_query_set_bailiwick"]}
{"id": "C74", "title": "What arbitrary values merge to", "statement": "For every key and every two values of bytes, dnstable_merge_func returns exactly: for RRset and RData keys the earliest and latest time and the summed count if both values consist of three numbers in base 128, and for time ranges and versions accordingly; for name index keys the shortest encoding of the types of both values, the empty value if one is empty, an equal value unchanged, and NULL if one is not a list of blocks in increasing order; for all other keys the empty value. A value that has other bytes fails an assertion, and one that ends within a number is read beyond its end.", "quantifier": "all keys and all pairs of values, with bitmaps of at most 32 octets in index values", "why_tests_cant": "All byte strings, among them ones no encoder writes.", "anchors": ["dnstable/merge.c:dnstable_merge_func", "dnstable/merge.c:merge_rrtype_bitmaps", "dnstable/triplet.c:triplet_unpack", "dnstable/entry.c:rrtype_union_unpack", "libmy/varint.c:varint_decode64"]}
{"id": "C75", "title": "What the type test of arbitrary index values says", "statement": "A name lookup with a record type passes over a name or not by the index value stored with it. For every such value of bytes and every type the first block of the type's window decides: its bit if the bitmap holds its octet, no if the bitmap is shorter by more than one octet, and the byte behind the bitmap if it is shorter by one; without such a block the answer is no, or yes if the value ends within a block. Values of one and two bytes are single types. A type in either of two values that were merged passes the test of the result.", "quantifier": "all values of bytes and all types", "why_tests_cant": "All byte strings.", "anchors": ["dnstable/entry.c:rrtype_test", "dnstable/entry.c:rrtype_union_check", "dnstable/merge.c:merge_rrtype_bitmaps"]}
{"id": "C76", "title": "The command dnstable_merge hands its arguments on", "statement": "The command dnstable_merge, given two or more arguments, runs mtbl_merge with exactly the arguments it was given, in the same order, and with the settings that make it merge by dnstable_merge_func of this library. With fewer than two arguments it runs nothing and exits with status 1.", "quantifier": "every list of arguments, made of any bytes, and every way in which a shell expands patterns", "why_tests_cant": "File names are arbitrary byte strings, and what a shell makes of an unquoted expansion depends on every byte of them.", "anchors": ["src/dnstable_merge.sh.in", "man/dnstable_merge.1.txt"]}
{"id": "C77", "title": "Every stored time is shown as its date or not at all", "statement": "A stored time is any 64 bit number; as the C library takes it, numbers from 2^63 on are times before 1970. For each of them: the RFC 3339 form shows its proleptic Gregorian date and time of day in UTC, with four digits for the year (the last four of its two's complement), if the year is at most 2147483647; it overflows an int for the 1900 years after that, and the program stops for years that do not fit in struct tm. The form of the text output shows the date with the whole year and its sign, and nothing if the year does not fit in struct tm or has a sign and ten digits.", "quantifier": "every 64 bit number", "why_tests_cant": "All 2^64 times, across leap years, centuries, the year 0 and the ends of int and time_t.", "anchors": ["dnstable/entry.c:fmt_time", "dnstable/entry.c:fmt_rfc3339_time", "libmy/my_format.c:my_uint64_to_str"]}
{"id": "C78", "title": "Which entries can be printed", "statement": "For every key and value that dnstable_entry_decode accepts: as JSON the entry is printed as one valid object on one line, with the times it reports, exactly if its type is known, its times lie in the years -2147481748 to 2147483647 when they are shown as RFC 3339 dates, and the stored type of an RRset with record data has at most three digits in base 128 when raw data is asked for. As text it is printed as complete lines, with its times, exactly if its type is known, the times shown lie in these years when they are shown as RFC 3339 dates, and the count of an RRset takes at most 26 bytes. In all other cases printing stops the program or does what C leaves undefined, or - for a count of exactly 27 bytes - the text ends within the count. Printing never returns NULL.", "quantifier": "all keys and values, all formats and options, all strings libwdns and the locale may return", "why_tests_cant": "All byte strings and all formats; the cases that fail are at the ends of 21 bit and 64 bit ranges.", "anchors": ["dnstable/entry.c:dnstable_entry_to_json_fmt", "dnstable/entry.c:dnstable_entry_to_text_fmt", "dnstable/entry.c:dnstable_entry_format", "dnstable/entry.c:fmt_uint64", "dnstable/entry.c:fmt_rfc3339_time"]}
{"id": "C79", "title": "Whatever a file holds, answers are stored entries that were asked for", "statement": "Let a file or a set of files hold any keys and values, well formed or not. Every entry returned by dnstable_iter_next on a query is the decoding of a stored key and value (with time bounds over a set of files: of a stored key and value or of its merge with one stored under the same key), and it is of the kind the query asks for. For an RRset query whose name has a wildcard at most at one end, the owner name matches the name, the stored type is the one set, the bailiwick is the one set, and the stored times keep all four bounds. For an RData query the type and the times are as asked for, without a type set a name query returns only types whose data hold a name, and the key starts with the name, the labels or the raw data asked for. Metadata queries return entries of their kind, with the version type set, and nothing if a time bound is set (source descriptions excepted). This holds also while timeout and deadline are changed during the iteration.", "quantifier": "all tables of byte strings (in any order, with anything in keys and values), all queries with a proper name, type and bailiwick, all sequences of calls with changed timeout and deadline, all answers of the clock, all behaviours of libmtbl over several files", "why_tests_cant": "Tests use well-formed files; the claim is about every file, also a damaged or foreign one.", "anchors": ["dnstable/query.c:query_iter_next", "dnstable/query.c:query_iter_next_rrset_name_fwd", "dnstable/query.c:query_iter_next_name_indirect", "dnstable/query.c:filter_rrtype", "dnstable/query.c:filter_bailiwick", "dnstable/query.c:filter_time", "dnstable/entry.c:dnstable_entry_decode", "dnstable/reader.c:dnstable_reader_query"]}
{"id": "C80", "title": "The programs use memory as they must", "statement": "Every run of dnstable_dump and of dnstable_lookup ends, and no library call it makes reads, writes or frees memory that is not allocated. When it ends with success it has destroyed every reader, query, iterator, entry, formatter and string it was given. Then nothing the library allocated is left, with one exception: an aggregated dnstable_lookup over a set file with -A or -B limits that are strict can leave byte strings behind. dnstable_dump aborts only when no section was chosen. No string it prints is empty, which is why both programs free each of them, and no query gives an entry of an unknown type.", "quantifier": "all command lines the programs accept, all contents of files and set files, all clocks and points where a limit expires, all failures of calls (as sequences of free choices)", "why_tests_cant": "Leaks and uses after free in main programs show only for certain data, options and moments of a timeout; tests do not run under all of them.", "anchors": ["src/dnstable_dump.c:main", "src/dnstable_dump.c:do_dump", "src/dnstable_dump.c:print_entry", "src/dnstable_lookup.c:main", "src/dnstable_lookup.c:do_dump", "src/dnstable_lookup.c:print_entry"]}
{"id": "C81", "title": "Memory in use is bounded by what the client holds", "statement": "At every moment of every history of calls that follows the rules for handles, the number of memory blocks in use, open files left out, is at most a fixed number for each thing the client holds - 2 for a reader, 5 for a query, 143 for an iterator, 1 for a string or a formatter, and 9 and one for each datum for an entry - however many queries were run, entries returned, keys passed over and index entries followed before. Aggregated queries with a strict time bound over a set file are excepted.", "quantifier": "all histories of calls, all contents of files and set files, all clocks and points where a limit expires (as sequences of free choices)", "why_tests_cant": "A server runs for months; memory that grows with each key passed over or with each query shows after histories longer than any test.", "anchors": ["dnstable/query.c:query_iter_next", "dnstable/query.c:query_iter_next_name_indirect", "dnstable/query_mtbl.c:filter_iter_next", "dnstable/query_mtbl.c:ljoin_iter_next", "dnstable/reader.c:dnstable_reader_query", "dnstable/iter.c:dnstable_iter_next"]}
{"id": "C82", "title": "Iterators of one query object do not disturb each other", "statement": "The entries an iterator returns are fixed when dnstable_reader_query makes it: they are those that an iterator nothing else is done to returns, whatever the client does in between with it, with other iterators of the same query object and with the query object itself - setting data, type, bailiwick, time bounds, offset, aggregation, case sensitivity, timeout and deadline anew and making further iterators of it.", "quantifier": "all queries, files and set files, all interleavings of settings, of dnstable_reader_query and of dnstable_iter_next on any of the iterators made so far", "why_tests_cant": "Which setting an iterator reads again later depends on the kind of query, its wildcards and the moment of the call; a test fixes one interleaving.", "anchors": ["dnstable/query.c:dnstable_query_set_data", "dnstable/query.c:dnstable_query_set_rrtype", "dnstable/query.c:dnstable_query_set_bailiwick", "dnstable/query.c:dnstable_query_set_filter_parameter", "dnstable/query.c:dnstable_query_set_offset", "dnstable/query.c:filter_rrtype", "dnstable/query.c:filter_rrtype_ip", "dnstable/query.c:filter_bailiwick", "dnstable/query.c:filter_time", "dnstable/query.c:filter_time_prefilter", "dnstable/query.c:query_iter_next_name_indirect", "dnstable/query.c:query_iter_next"]}
{"id": "C83", "title": "Filters follow the query object as it is set now", "statement": "Whatever the client set anew since an iterator was made, every entry it returns is one that the file (or the files of the set, in part) stores, and if the iterator was made to filter by type, bailiwick or time, the entry has the type and bailiwick and keeps the time bounds that the query object holds at the time of the call. A record of another type or outside the bounds set last is never returned.", "quantifier": "all files whose keys and values are bytes (well-formed or not), all set files, all queries, all interleavings of settings, of dnstable_reader_query and of dnstable_iter_next on any iterator", "why_tests_cant": "The settings, the moments at which they are made and the stored bytes are all unbounded", "anchors": ["dnstable/query.c:filter_rrtype", "dnstable/query.c:filter_rrtype_ip", "dnstable/query.c:filter_bailiwick", "dnstable/query.c:filter_time", "dnstable/query.c:filter_time_prefilter", "dnstable/query.c:dnstable_query_set_rrtype", "dnstable/query.c:dnstable_query_set_bailiwick", "dnstable/query.c:dnstable_query_set_filter_parameter", "dnstable/query.c:query_iter_next"]}
{"id": "C84", "title": "Reading results leaves the query object and other iterators alone", "statement": "A call of dnstable_iter_next changes nothing of the query object the iterator was made of, except that an iterator made with an offset may use up the offset of the query object, which never grows; it changes no other iterator. An iterator made without an offset changes nothing at all.", "quantifier": "all sessions of one query object and any number of iterators over any files and set files", "why_tests_cant": "Ranges over every session that leads to the call", "anchors": ["dnstable/query.c:filter_offset", "dnstable/query.c:query_iter_next", "dnstable/query.c:query_iter_next_name_indirect", "dnstable/query.c:dnstable_query_set_offset", "dnstable/iter.c:dnstable_iter_next"]}
{"id": "C85", "title": "Junk in a file hides nothing that is well-formed", "statement": "Let a file hold, in key order, a well-formed entry and besides it any other keys and values: cut short, of unknown types, not decodable, with names too long or data of the wrong length. A query that is answered by one lookup (an exact RRset name, an RRset name with a leading wildcard, an exact RData name, an RData name with a trailing wildcard, raw data, an address, a network or a range of addresses; with any type, bailiwick and time bounds, and no offset) and that asks for that entry can be iterated, and if dnstable_iter_next comes to say the end after calls that returned entries or timed out, one of those calls returned the entry. So neither the seeks of the filters nor entries that do not decode make it lose the entry. The same holds for such a query without time bounds over a set of files.", "quantifier": "all sorted files and filesets of arbitrary bytes, all well-formed records in them, all single-lookup queries that ask for the record, all sequences of calls with changed timeout and deadline, all answers of the clock", "why_tests_cant": "What the rest of the file may hold is unbounded, and the filters compute the keys to seek to from it", "anchors": ["dnstable/query.c:filter_single_label", "dnstable/query.c:filter_rrtype_ip", "dnstable/query.c:increment_key", "dnstable/query.c:filter_rrtype", "dnstable/query.c:filter_bailiwick", "dnstable/query.c:filter_time", "dnstable/query.c:query_iter_next", "dnstable/query_mtbl.c:filter_iter_next"]}
{"id": "C86", "title": "Iterating over any sorted file comes to an end", "statement": "Whatever keys and values a sorted file holds (keys cut short, names too deep, junk), as long as no key is one whose decoding never ends (C16), and whatever the query and its settings: every call of dnstable_iter_next returns, and only finitely many calls return an entry. A query answered by one lookup returns at most as many entries as the file has. The same for several files, including files that only fill in or remove because of the time bounds. A caller who asks often enough is told the end unless the program crashes on junk.", "quantifier": "all sorted tables with keys of bytes, all queries of all types with any settings, all sequences of calls with timeout and deadline changed in between, all clocks", "why_tests_cant": "the filters jump by computed keys; that no key in any file makes them jump back to or before where they are cannot be enumerated", "anchors": ["dnstable/query.c:filter_single_label", "dnstable/query.c:filter_rrtype_ip", "dnstable/query.c:increment_key", "dnstable/query.c:query_iter_next", "dnstable/query.c:query_iter_next_name_indirect", "dnstable/query_mtbl.c:filter_iter_next", "dnstable/query_mtbl.c:match_key", "dnstable/query_mtbl.c:ljoin_iter_next"]}
{"id": "C87", "title": "Answers come in stored order, none twice", "statement": "Over any file whose keys are sorted, whatever its values are, the answers to a query that needs one lookup are stored entries in the order in which they are stored, and no stored entry is answered twice, however timeouts and changes of the timeout fall between the calls. A query that goes through an index answers in groups, one for each of some index entries in stored order, each group in stored order. Over several files the order is that of the merged (or, without aggregation, of the unmerged) entries of the files that take part, and with aggregation no key is answered twice.", "quantifier": "all sorted tables with arbitrary values and arbitrary byte keys, all queries, all clocks, all sequences of next calls and timeout changes, all filesets and libraries that merge in sorted order", "why_tests_cant": "order and absence of repetitions concern every pair of answers of every iteration over every file; a test fixes one file and one sequence of calls", "anchors": ["dnstable/query.c:query_iter_next", "dnstable/query.c:query_iter_next_name_indirect", "dnstable/query_mtbl.c:filter_iter_next", "dnstable/query_mtbl.c:ljoin_iter_next", "dnstable/query.c:dnstable_query_iter_fileset"]}
{"id": "C88", "title": "What dnstable_dump does with any file", "statement": "For every file of keys and values made of bytes, whether sorted or not and whether well-formed or not, every section and all options: dnstable_dump ends and prints the lines of exactly the entries of the chosen section that decode, in stored order, if and only if no entry of that section is one of those that make the decoder read outside the key or value (C17) or never end (C16), nor, with -R, an RRset whose stored type takes more than three base 128 digits. Otherwise it gets to the first such entry and there behaves as C leaves undefined, or never ends. Entries of other sections make no difference.", "quantifier": "all files, sections, options, and strings libwdns and the locale may return (numbers of at most 26 bytes)", "why_tests_cant": "that nothing else in any file can stop the program, and that entries of other sections never matter, ranges over all files", "anchors": ["src/dnstable_dump.c:do_dump", "src/dnstable_dump.c:print_entry", "src/dnstable_dump.c:main", "dnstable/reader.c:reader_iter_next", "dnstable/entry.c:dnstable_entry_decode", "dnstable/entry.c:dnstable_entry_format"]}
{"id": "C89", "title": "Records added to a file take no answer away", "statement": "Let one file hold the records of another and more. Every answer that a query gets from the smaller file it also gets from the larger one, in the same order, with further answers in between; the same with an offset. If none of the added records is asked for, the answers are the same. A query that goes through an index needs the indexes of both files to be complete. A set of files to which files are added answers every query with aggregation and without time bounds with all the records it answered before, in the same order, their times reaching at least as far in both directions. Without aggregation, and with any time bounds, added files add their answers to those there were.", "quantifier": "all pairs of well-formed files of which one holds the records of the other in order, all pairs of sets of files of which one holds the files of the other, all queries of all types, with any type, bailiwick, time bounds and offset, all clocks and sequences of calls", "why_tests_cant": "compares the answers of two files of any size that differ in any number of records", "anchors": ["dnstable/query.c:query_iter_next", "dnstable/query.c:query_iter_next_name_indirect", "dnstable/query.c:filter_single_label", "dnstable/query.c:filter_offset", "dnstable/query_mtbl.c:filter_iter_next", "dnstable/query_mtbl.c:ljoin_iter_next"]}
{"id": "C90", "title": "A restriction takes answers away and adds none", "statement": "Restrict a query further: by a record type or a bailiwick where it had none, or by time bounds that let fewer times through. Over the same file, or the same set of files, all answers of the restricted query are answers of the unrestricted one, with the same times and counts and, unless the answers of several files are listed without aggregation, in the same order; also with the same offset. Likewise for a name and a wildcard above it, and for an address range and one around it.", "quantifier": "all well-formed files and sets of files with accurate time ranges, all pairs of queries of all types of which one restricts the other, all clocks and sequences of calls", "why_tests_cant": "compares two runs of the filters, which skip and seek differently, over every file", "anchors": ["dnstable/query.c:filter_rrtype", "dnstable/query.c:filter_bailiwick", "dnstable/query.c:filter_time", "dnstable/query.c:filter_rrtype_ip", "dnstable/query.c:query_init_rrset", "dnstable/query.c:query_iter_next", "dnstable/query.c:query_iter_next_name_indirect", "dnstable/query_mtbl.c:filter_iter_next"]}
{"id": "C91", "title": "Time bounds that split the time split the answers", "statement": "Ask a question twice with time bounds that let through each time exactly once between them, for instance first seen up to some second and first seen after it. Each answer to the question without the split is then an answer to exactly one of the two queries, in the same order, and neither answers anything else. So over one file, and over a set of files with aggregation although each query searches other files of the set.", "quantifier": "all well-formed files, all sets of files with accurate time ranges, all queries, all triples of time bounds of which two split the third, all clocks and sequences of calls", "why_tests_cant": "relates three runs over any file, with a boundary that falls on any second", "anchors": ["dnstable/query.c:filter_time_common", "dnstable/query.c:filter_time", "dnstable/query.c:filter_time_prefilter", "dnstable/query.c:reader_time_filter", "dnstable/query.c:dnstable_query_iter_fileset", "dnstable/query.c:query_iter_next"]}
{"id": "C92", "title": "A record type picks exactly the answers of that type", "statement": "A query for a record type lists exactly those answers of the same query without a type whose entries report that type, in the same order. So for names, wildcards and raw data over one file, for wildcards that go through an index, where the bitmaps of types decide what is read, and over a set of files with aggregation.", "quantifier": "all well-formed files, all sets of files with accurate time ranges, all queries but those by address, all record types (for names in record data, those whose data hold a name), all clocks and sequences of calls", "why_tests_cant": "relates two runs over any file, which search under different key prefixes and use other filters", "anchors": ["dnstable/query.c:query_init_rrset", "dnstable/query.c:query_init_rrset_right_wildcard", "dnstable/query.c:query_init_rrset_left_wildcard", "dnstable/query.c:query_init_rdata_name", "dnstable/query.c:query_init_rdata_raw", "dnstable/query.c:filter_rrtype", "dnstable/query.c:dnstable_query_set_rrtype"]}
