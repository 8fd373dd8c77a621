{
 "claims": [
  {
   "property": "C01",
   "status": "proved",
   "theorems": [
    "C01_serial_lt_is_rfc1982",
    "C01_serial_lt_asymmetric",
    "C01_serial_incomparable_iff"
   ],
   "note": ""
  },
  {
   "property": "C02",
   "status": "proved",
   "theorems": [
    "C02_darray_is_sliding_window"
   ],
   "note": ""
  },
  {
   "property": "C03",
   "status": "partial",
   "theorems": [
    "C03_lifetime_zero_refuted"
   ],
   "note": "Refuted: lifetime 0 is accepted by the configuration and makes the first darray_add write outside the (empty) array. C02 covers 1..2^31-1."
  },
  {
   "property": "C04",
   "status": "proved",
   "theorems": [
    "C04_no_delta_iff_same_data",
    "C04_delta_exact",
    "C04_tables_are_sets"
   ],
   "note": ""
  },
  {
   "property": "C05",
   "status": "proved",
   "theorems": [
    "C05_incremental_updates_converge",
    "C05_history_unique"
   ],
   "note": ""
  },
  {
   "property": "C06",
   "status": "proved",
   "theorems": [
    "C06_serial_advances_iff_data_changes"
   ],
   "note": ""
  },
  {
   "property": "C07",
   "status": "partial",
   "theorems": [
    "C07_unknown_serial_resets_partial",
    "C07_unknown_serial_resets_refuted"
   ],
   "note": "The full statement is false for exactly one serial (serial+2^31 while no delta is stored); _partial excludes it, _refuted exhibits it."
  },
  {
   "property": "C08",
   "status": "proved",
   "theorems": [
    "C08_session_mismatch_gets_no_data",
    "C08_sessions_distinct_and_constant"
   ],
   "note": ""
  },
  {
   "property": "C09",
   "status": "partial",
   "theorems": [
    "C09_reset_query_eod_only_after_all_data",
    "C09_serial_query_refuted",
    "C09_short_write_refuted"
   ],
   "note": "Reset Query: proved for every socket behaviour modulo short writes. Serial Query: refuted (errors of the delta callbacks are swallowed by vrps_foreach_delta_since). Short writes: refuted for both (write() < len is treated as success)."
  },
  {
   "property": "C10",
   "status": "partial",
   "theorems": [
    "C10_reset_label_partial",
    "C10_reset_label_refuted"
   ],
   "note": "Refuted: serial and data are read in two critical sections. _partial: proved when nothing is published in between."
  },
  {
   "property": "C11",
   "status": "proved",
   "theorems": [
    "C11_serial_notify",
    "C11_cache_reset",
    "C11_cache_response",
    "C11_prefix",
    "C11_router_key",
    "C11_end_of_data",
    "C11_streams"
   ],
   "note": ""
  },
  {
   "property": "C12",
   "status": "partial",
   "theorems": [
    "C12_receive_is_total_partial",
    "C12_no_overread_short_length_refuted",
    "C12_no_overread_error_report_refuted"
   ],
   "note": "Proved when the PDU header announces at least the 8 header bytes' worth the reader needs; refuted for hdr.len<2 (out of bounds) and for Error Report PDUs whose inner lengths exceed the PDU (over-read)."
  },
  {
   "property": "C13",
   "status": "proved",
   "theorems": [
    "C13_delivered_as_sent"
   ],
   "note": ""
  },
  {
   "property": "C14",
   "status": "proved",
   "theorems": [
    "C14_one_version_per_connection",
    "C14_wrong_version_ends_connection"
   ],
   "note": ""
  },
  {
   "property": "C15",
   "status": "proved",
   "theorems": [
    "C15_error_report_never_answered",
    "C15_err_pdu_send_is_silent_on_error_reports"
   ],
   "note": ""
  },
  {
   "property": "C16",
   "status": "proved",
   "theorems": [
    "C16_error_report",
    "C16_quotes_whole_pdu"
   ],
   "note": ""
  },
  {
   "property": "C17",
   "status": "proved",
   "theorems": [
    "C17_ipv4_prefix_decoding_exact",
    "C17_ipv6_prefix_decoding_exact",
    "C17_prefix_validate_exact"
   ],
   "note": ""
  },
  {
   "property": "C18",
   "status": "proved",
   "theorems": [
    "C18_ipv4_range_decoding_exact",
    "C18_ipv6_range_decoding_exact"
   ],
   "note": ""
  },
  {
   "property": "C19",
   "status": "proved",
   "theorems": [
    "C19_prefix_coverage_is_inclusion"
   ],
   "note": ""
  },
  {
   "property": "C20",
   "status": "proved",
   "theorems": [
    "C20_asn",
    "C20_ipv4",
    "C20_ipv6",
    "C20_absent"
   ],
   "note": ""
  },
  {
   "property": "C21",
   "status": "partial",
   "theorems": [
    "C21_chain",
    "C21_ee",
    "C21_held",
    "C21_accept4",
    "C21_rfc8360_refuted",
    "C21_accept",
    "C21_push",
    "C21_push_ta"
   ],
   "note": "Containment along every chain, what an accepted certificate holds, and acceptance iff (C21_accept: whole certificates, both families, AS numbers, inheritance, criticality, repetition; C21_push, C21_push_ta: the certificate stack). _refuted: under RFC 8360 a claim of a family the parent lacks rejects the certificate instead of being dropped."
  },
  {
   "property": "C22",
   "status": "proved",
   "theorems": [
    "C22_vrps",
    "C22_exact"
   ],
   "note": ""
  },
  {
   "property": "C23",
   "status": "partial",
   "theorems": [
    "C23_before_partial",
    "C23_single_partial",
    "C23_refuted",
    "C23_references_refuted"
   ],
   "note": "Refuted: payloads are registered one by one, so a ROA rejected at a later address, or because of its certificate's references, leaves payloads behind. _partial: proved for rejections before the content is handled and for single-address ROAs."
  },
  {
   "property": "C24",
   "status": "proved",
   "theorems": [
    "C24_vrp",
    "C24_key"
   ],
   "note": ""
  },
  {
   "property": "C25",
   "status": "partial",
   "theorems": [
    "C25_apply",
    "C25_total",
    "C25_short_key_refuted"
   ],
   "note": "Under the assumption that an accepted router public key has 91 bytes; _refuted: the program does not check it, and a shorter key (compressed EC point) is over-read."
  },
  {
   "property": "C26",
   "status": "partial",
   "theorems": [
    "C26_history",
    "C26_reload",
    "C26_none",
    "C26_duplicates_refuted"
   ],
   "note": "Exact for histories whose files have pairwise different contents; _refuted: replacing file B by a copy of file A is not noticed (sets are compared one way only)."
  },
  {
   "property": "C27",
   "status": "proved",
   "theorems": [
    "C27_contained",
    "C27_accepts",
    "C27_total",
    "C27_refuses"
   ],
   "note": "Contained, accepted and refused exactly as named. A URI without domain ('rsync:///') is accepted and maps to the scheme's directory itself (Example C27_no_domain)."
  },
  {
   "property": "C28",
   "status": "partial",
   "theorems": [
    "C28_places",
    "C28_direct",
    "C28_rrdp_apart",
    "C28_caged_partial",
    "C28_cages_refuted"
   ],
   "note": "Proved for directly fetched objects, between TALs, and between RRDP and the rest; within one RRDP repository (_partial). _refuted: two RRDP repositories can share files (the cage name is a prefix of the other)."
  },
  {
   "property": "C29",
   "status": "partial",
   "theorems": [
    "C29_exact",
    "C29_determined",
    "C29_join",
    "C29_bounded",
    "C29_pop_undoes",
    "C29_hex",
    "C29_reverse_partial",
    "C29_reverse_refuted"
   ],
   "note": "Append/pop/hex exact for every sequence. pb_reverse: proved for paths of ordinary components (_partial), wrong when the last component is empty (_refuted)."
  },
  {
   "property": "C30",
   "status": "proved",
   "theorems": [
    "C30_name",
    "C30_plain",
    "C30_uri",
    "C30_directory",
    "C30_accepts"
   ],
   "note": "Name accepted iff well formed; URI and local directory are the manifest's (if the manifest's own last segment is an ordinary component)."
  },
  {
   "property": "C31",
   "status": "proved",
   "theorems": [
    "C31_accept",
    "C31_sorted",
    "C31_total",
    "C31_notification",
    "C31_applies",
    "C31_prefers_deltas",
    "C31_gap",
    "C31_new_session",
    "C31_fallback"
   ],
   "note": "Sorting: accepted iff contiguous up to the announced serial, total, no out-of-bounds access. Applying: exactly the missing deltas in order, or the snapshot."
  },
  {
   "property": "C32",
   "status": "proved",
   "theorems": [
    "C32_exact",
    "C32_total",
    "C32_determined"
   ],
   "note": ""
  },
  {
   "property": "C33",
   "status": "partial",
   "theorems": [
    "C33_delta_partial",
    "C33_delta_accepted",
    "C33_delta_rejected",
    "C33_snapshot",
    "C33_blind_replace_refuted"
   ],
   "note": "_partial: hypotheses that a write reported as done is done (a failing fclose is ignored by the code). _refuted: a delta may replace a file without naming its hash."
  },
  {
   "property": "C34",
   "status": "partial",
   "theorems": [
    "C34_sync_partial",
    "C34_interrupted_refuted",
    "C34_stuck"
   ],
   "note": "_partial: from a synchronised start (or none) a successful update ends synchronised, whatever happened to the environment's other answers. _refuted: after a failed or interrupted update the next one can succeed and leave files missing; C34_stuck: an unreadable cached notification makes every later update fail."
  },
  {
   "property": "C35",
   "status": "partial",
   "theorems": [
    "C35_once_partial",
    "C35_first",
    "C35_clock_refuted"
   ],
   "note": "_partial: while the wall clock does not go back before the start of the run; C35_clock_refuted: otherwise a URL is fetched again. 'Same URL' means same local file (for rsync, same module)."
  },
  {
   "property": "C36",
   "status": "proved",
   "theorems": [
    "C36_fallback",
    "C36_first",
    "C36_determined"
   ],
   "note": "Exact order and outcome for every behaviour of the downloads and of the caller. Among alternatives equally good any may be taken."
  },
  {
   "property": "C37",
   "status": "partial",
   "theorems": [
    "C37_nodes",
    "C37_kept",
    "C37_fresh_partial",
    "C37_unknown",
    "C37_total",
    "C37_nested_refuted"
   ],
   "note": "_partial: for a fresh node whose paths are apart from the other nodes'. _refuted: an expired (failed) request for a URL above a fresh one, e.g. https://victim.net/, makes cleanup delete the fresh one's files."
  },
  {
   "property": "C38",
   "status": "proved",
   "theorems": [
    "C38_fifo",
    "C38_once",
    "C38_working",
    "C38_wait",
    "C38_destroy",
    "C38_no_lost_wakeup",
    "C38_terminates",
    "C38_progress",
    "C38_create_refuted",
    "C38_create"
   ],
   "note": "One thread pushes, waits and destroys (as in the program); tasks terminate. Every interleaving, wakeup choice and spurious wakeup. C38_create_refuted: when a thread cannot be created the pool is freed under the threads already created."
  },
  {
   "property": "C39",
   "status": "proved",
   "theorems": [
    "C39_walk",
    "C39_walk_unique",
    "C39_chain",
    "C39_once",
    "C39_depth"
   ],
   "note": "Every answer of the checks, every manifest content, cycles included; the walk is a separate inductive specification, shown unique. C39_once: as a multiset, what is looked at is the root plus what accepted certificates list."
  },
  {
   "property": "C40",
   "status": "partial",
   "theorems": [
    "C40_permutation_partial",
    "C40_empty_refuted",
    "C40_crash_refuted"
   ],
   "note": "_partial: a non-empty list; _refuted: an empty fileList is a division by zero (the process dies)."
  },
  {
   "property": "C41",
   "status": "proved",
   "theorems": [
    "C41_sound",
    "C41_complete",
    "C41_deterministic",
    "C41_shuffle",
    "C41_fault",
    "C41_mismatch",
    "C41_missing",
    "C41_name",
    "C41_handled"
   ],
   "note": "Soundness, completeness and independence of the shuffle, for every list (not empty: see C40), file state and incidence configuration."
  },
  {
   "property": "C42",
   "status": "partial",
   "theorems": [
    "C42_text",
    "C42_text_total",
    "C42_order",
    "C42_window_partial",
    "C42_unreadable",
    "C42_total",
    "C42_nonexistent_refuted",
    "C42_february_refuted"
   ],
   "note": "_partial: for dates that exist the window is exactly the stated one; _refuted: dates that do not exist (minute 61, 31 February) are accepted, and compared as if they were normalised."
  },
  {
   "property": "C43",
   "status": "proved",
   "theorems": [
    "C43_reflow"
   ],
   "note": "For every size announced and every content; the text is reformatted in place of memory of the computed size."
  },
  {
   "property": "C44",
   "status": "partial",
   "theorems": [
    "C44_union_partial",
    "C44_file",
    "C44_none",
    "C44_spawn_refuted",
    "C44_readdir_refuted"
   ],
   "note": "_partial: as long as every TAL gets its thread and the directory can be read; otherwise (_refuted) the threads already running are freed under their feet, or one is freed twice."
  },
  {
   "property": "C45",
   "status": "proved",
   "theorems": [
    "C45_router_key_range_exact"
   ],
   "note": ""
  },
  {
   "property": "C46",
   "status": "proved",
   "theorems": [
    "C46_text_is_longest_utf8_prefix"
   ],
   "note": ""
  },
  {
   "property": "C47",
   "status": "proved",
   "theorems": [
    "C47_tokens",
    "C47_equals",
    "C47_option"
   ],
   "note": "For every string, separator and memory behind the string. The path tokeniser of URIs is part of C27."
  },
  {
   "property": "C48",
   "status": "partial",
   "theorems": [
    "C48_encode_partial",
    "C48_encode_refuted",
    "C48_decode",
    "C48_roundtrip_partial"
   ],
   "note": "Relative to OpenSSL's base64 being RFC 4648's (a decoder is shown to exist). _partial/_refuted: the encoder looks for '=' in a buffer which is not NUL-terminated, so lengths that are multiples of 3 are over-read (the program only encodes 20 and 91 bytes)."
  },
  {
   "property": "C49",
   "status": "partial",
   "theorems": [
    "C49_argv",
    "C49_decimal",
    "C49_negative_refuted",
    "C49_json"
   ],
   "note": "Exact for JSON and for digit strings. C49_argv says exactly which texts are taken; _refuted: negative numbers are taken too, modulo 2^64."
  },
  {
   "property": "C50",
   "status": "proved",
   "theorems": [
    "C50_serial_query_wire_converges",
    "C50_reset_query_wire_full_data"
   ],
   "note": ""
  },
  {
   "property": "C51",
   "status": "partial",
   "theorems": [
    "C51_notify_partial",
    "C51_notify_refuted"
   ],
   "note": "Refuted for clients that have not negotiated a version yet (version octet 255); proved for the others."
  },
  {
   "property": "C52",
   "status": "partial",
   "theorems": [
    "C52_integer",
    "C52_asn",
    "C52_negative_refuted"
   ],
   "note": "Exact for non-negative integers; refuted for negative ones (AS -1 is read as AS 255)."
  },
  {
   "property": "C53",
   "status": "partial",
   "theorems": [
    "C53_no_crash_partial",
    "C53_no_inherit",
    "C53_ta_inherit_refuted"
   ],
   "note": "Proved for every certificate that has a parent, and for every certificate which does not inherit; refuted for a trust anchor certificate saying inherit (pr_crit)."
  },
  {
   "property": "C54",
   "status": "partial",
   "theorems": [
    "C54_grammar",
    "C54_conflicts",
    "C54_lax_prefix_refuted",
    "C54_prefix_text"
   ],
   "note": "Accepted iff well formed, with the prefix text read as the program reads it; every RFC text is read right, but _refuted: texts such as '10.0.0.0/8 (mine)/16' are accepted too."
  },
  {
   "property": "C55",
   "status": "partial",
   "theorems": [
    "C55_no_crash_partial",
    "C55_empty_prefix_refuted"
   ],
   "note": "_partial: the only crash is a prefix text made of slashes only (or empty); _refuted exhibits it."
  },
  {
   "property": "C56",
   "status": "partial",
   "theorems": [
    "C56_module",
    "C56_inside_partial",
    "C56_dotdot_refuted"
   ],
   "note": "_partial: without '..' segments; _refuted: rsync://a/b/../c/d.cer is looked up outside of the fetched module."
  },
  {
   "property": "C57",
   "status": "proved",
   "theorems": [
    "C57_roundtrip",
    "C57_total"
   ],
   "note": "The calendar functions are parameters; the index's times are assumed writable and readable back."
  },
  {
   "property": "C58",
   "status": "proved",
   "theorems": [
    "C58_grammar",
    "C58_total"
   ],
   "note": "Exact for every file; the key's base64 decoding is a parameter."
  },
  {
   "property": "C59",
   "status": "partial",
   "theorems": [
    "C59_length",
    "C59_length_complete",
    "C59_tag",
    "C59_tag_complete",
    "C59_der_length",
    "C59_der_tag",
    "C59_roundtrip",
    "C59_primitive_refuted"
   ],
   "note": "Exact in both directions; _refuted: in a primitive value the octet 0x80 (forbidden by X.690) is taken as length zero."
  },
  {
   "property": "C60",
   "status": "partial",
   "theorems": [
    "C60_skip",
    "C60_unambiguous",
    "C60_stack_refuted"
   ],
   "note": "Exact in both directions against an inductive grammar, for every nesting, given a stack as deep as the buffer is long; _refuted: the recursion has no limit where FORT calls it, so no stack suffices for every value (the decoder that runs before does limit it)."
  },
  {
   "property": "C61",
   "status": "partial",
   "theorems": [
    "C61_covers",
    "C61_accepted",
    "C61_refused",
    "C61_indefinite_refuted",
    "C61_overread_refuted"
   ],
   "note": "Exact for signed attributes of definite length inside the object; _refuted: with the indefinite length only the byte 0x31 is digested, so the attributes are not covered; an overlong length is read past the object (the decoder that runs before refuses that one)."
  },
  {
   "property": "C62",
   "status": "partial",
   "theorems": [
    "C62_arcs",
    "C62_unambiguous",
    "C62_is_oid_partial",
    "C62_overflow_refuted",
    "C62_text",
    "C62_equal"
   ],
   "note": "Exact for every byte sequence, arcs modulo 2^32. _partial: comparison right when no subidentifier reaches 2^32; _refuted: an arc of 2^32+24 is taken for 24, so a foreign content type is taken for a ROA's."
  },
  {
   "property": "C63",
   "status": "proved",
   "theorems": [
    "C63_accepted",
    "C63_signed",
    "C63_no_crash",
    "C63_file",
    "C63_algorithms"
   ],
   "note": "Exact in both directions. The ASN.1 decoder, SHA-256 and the certificate checks are parameters; identifiers are compared with arcs modulo 2^32 (C62), and the signature covers the attributes when their length is definite (C61)."
  },
  {
   "property": "C64",
   "status": "proved",
   "theorems": [
    "C64_decoder_exact",
    "C64_decoder_in_bounds",
    "C64_unambiguous",
    "C64_trailing_ignored"
   ],
   "note": "Exact in both directions against an inductive grammar of encodings; the tables generated by asn1c are data, checked by computation. asn_check_constraints, which runs after the decoder, is not part of it."
  },
  {
   "property": "C65",
   "status": "partial",
   "theorems": [
    "C65_decoder_ends_partial",
    "C65_ASIdentifiers_ends_partial",
    "C65_ASIdentifiers_hang_refuted"
   ],
   "note": "_partial: eight of the nine types, for every input; ASIdentifiers when no octet is 0x80. _refuted: a certificate whose AS resources are 30 06 A0 80 05 00 00 01 keeps the decoder in its loop for ever."
  },
  {
   "property": "C66",
   "status": "partial",
   "theorems": [
    "C66_unchecked",
    "C66_manifest",
    "C66_content_info",
    "C66_object_identifier",
    "C66_ip_blocks",
    "C66_never_crashes",
    "C66_constraints_refuted"
   ],
   "note": "Exact per type: what is accepted is said by C66_unchecked, C66_manifest, C66_content_info, C66_object_identifier and C66_ip_blocks; never a crash. _refuted: the full property; SEQUENCE_constraint returns at the first member without a constraint of its own, so most constraints are never checked (ROA without addresses, manifest whose nextUpdate is not a time)."
  },
  {
   "property": "C67",
   "status": "proved",
   "theorems": [
    "C67_roa",
    "C67_manifest",
    "C67_ip_blocks",
    "C67_as_ids",
    "C67_signed_data",
    "C67_signed_data_pkcs7",
    "C67_content_info",
    "C67_primitives",
    "C67_roa_complete",
    "C67_manifest_complete",
    "C67_resources_complete",
    "C67_signed_data_complete"
   ],
   "note": "Encoders of the RFCs' grammars are in ObjectsSpec.v, independent of the generated tables. The views (cast of the decoded structure to the record) are in Objects.v."
  },
  {
   "property": "C68",
   "status": "partial",
   "theorems": [
    "C68_any_bytes",
    "C68_roa",
    "C68_negative_refuted"
   ],
   "note": "C68_any_bytes for all bytes, C68_roa for DER. _refuted: a negative asID is not refused; -1 is read as AS 4294967295."
  },
  {
   "property": "C69",
   "status": "partial",
   "theorems": [
    "C69_chain",
    "C69_no_crash_partial",
    "C69_ip4",
    "C69_accept"
   ],
   "note": "C69_accept: acceptance iff for whole certificates whose extensions are DER. _partial: no crash is proved for certificates below the first one (see C53: a trust anchor that inherits is the remaining case)."
  },
  {
   "property": "C70",
   "status": "partial",
   "theorems": [
    "C70_exact",
    "C70_signed_partial",
    "C70_no_crash",
    "C70_der",
    "C70_indefinite_refuted"
   ],
   "note": "_partial: attributes with the indefinite length are the exception: the signature is then checked against the single octet 0x31 (C70_indefinite_refuted: any content gets through with a signature of that octet)."
  },
  {
   "property": "C71",
   "status": "partial",
   "theorems": [
    "C71_extensions",
    "C71_sound",
    "C71_no_crash",
    "C71_ca_references",
    "C71_ee_references",
    "C71_crldp_refuted"
   ],
   "note": "X509V3_EXT_d2i() and SHA-1 are parameters. The \"accepted if\" direction (C71_extensions) needs access locations that fit in a path buffer. C71_crldp_refuted: the comparison of the CRL distribution point with the manifest's CRL stops at an embedded NUL."
  },
  {
   "property": "C72",
   "status": "partial",
   "theorems": [
    "C72_certificate_partial",
    "C72_sound",
    "C72_no_crash",
    "C72_serials",
    "C72_names_refuted"
   ],
   "note": "libcrypto's accessors are the fields of the model's certificates. The exact characterisation (C72_certificate_partial) is for names in which no attribute repeats and without NULs: C72_names_refuted shows that names with several CommonNames are accepted and that the comparison stops at a NUL; C72_sound says what holds for all names. The bits of the program that only log are left out."
  },
  {
   "property": "C73",
   "status": "partial",
   "theorems": [
    "C73_crl_partial",
    "C73_crl_sound",
    "C73_no_crash",
    "C73_once"
   ],
   "note": "As C72 for the issuer's name (C73_crl_partial; C73_crl_sound for all names). libcrypto's decoding and signature check of the CRL are not part of this (chain validation is a parameter)."
  },
  {
   "property": "C74",
   "status": "proved",
   "theorems": [
    "C74_sound",
    "C74_hashed",
    "C74_keeps",
    "C74_references_refuted"
   ],
   "note": "The outside is a parameter: file contents per moment, clock, download outcome, libcrypto (decoding of certificates and CRLs, X509_verify_cert, signatures, digests), about which `sane` assumes only well-typedness, memory for the files and nonzero errno. The ghostbusters files don't affect the table and are not traversed. The resource claims with negative AS numbers are those of C52/C69. C74_references_refuted: the references of a ROA's certificate are checked after its VRPs were added, so a ROA that is reported as rejected can leave its VRPs (all of them authorised otherwise); the same holds for a ROA with an error in the middle (C54)."
  },
  {
   "property": "C75",
   "status": "proved",
   "theorems": [
    "C75_terminates",
    "C75_deterministic"
   ],
   "note": "Number of rounds of the loop over deferred certificates; that each round ends is part of the model's functions being total (C42, C65, C67... for the decoders). Downloads are assumed to end."
  },
  {
   "property": "C76",
   "status": "partial",
   "theorems": [
    "C76_no_crash_partial",
    "C76_empty_refuted",
    "C76_inherit_refuted"
   ],
   "note": "Two exceptions, both refuted with worlds that meet every other hypothesis: C76_empty_refuted (a manifest without entries: zero-sized shuffle array, C40) and C76_inherit_refuted (a trust anchor that inherits, C53). `sane` assumes memory for each file and well-typed results of libcrypto. Crashes inside libcrypto/libcurl, and in ghostbusters records (which are not traversed), are outside of the model; so is the print-only path of the decoders."
  },
  {
   "property": "C77",
   "status": "proved",
   "theorems": [
    "C77_isolated",
    "C77_order"
   ],
   "note": "C77_isolated: VRPs of a run = initial VRPs + those of the paths (`alone`, TreeAloneSpec.v). C77_order: corollary for two runs with other random numbers. `still`: files, clock, downloads and X509_verify_cert() give the same at every moment; C74-C76 do not need it."
  },
  {
   "property": "C78",
   "status": "proved",
   "theorems": [
    "C78_descriptors",
    "C78_clients"
   ],
   "note": "C78_descriptors (history) and C78_clients (one round). `kernel`: accept() returns a descriptor that is not open. `answered`: poll() answers for each descriptor."
  },
  {
   "property": "C79",
   "status": "partial",
   "theorems": [
    "C79_listening_partial",
    "C79_broken",
    "C79_accept_refuted",
    "C79_signal_refuted"
   ],
   "note": "Partial: C79_listening_partial needs `uneventful`. Missing part is false: C79_accept_refuted (ECONNABORTED, EMFILE: the socket is closed and no later history accepts anybody), C79_signal_refuted (EINTR ends the thread)."
  },
  {
   "property": "C80",
   "status": "partial",
   "theorems": [
    "C80_answers_partial",
    "C80_reuse_refuted",
    "C80_file_refuted",
    "C80_shutdown_refuted"
   ],
   "note": "Partial: C80_answers_partial needs `patient`. Missing part is false: C80_reuse_refuted (the next client gets the answer), C80_file_refuted (a file gets it), C80_shutdown_refuted (a client that half-closes is disconnected before its answer)."
  },
  {
   "property": "C81",
   "status": "partial",
   "theorems": [
    "C81_turns_partial",
    "C81_refuted"
   ],
   "note": "Partial: C81_turns_partial needs `one_at_a_time`. Missing part is false: C81_refuted."
  },
  {
   "property": "C82",
   "status": "partial",
   "theorems": [
    "C82_notify_partial",
    "C82_uninitialised_refuted",
    "C82_freed_refuted"
   ],
   "note": "Partial: C82_notify_partial needs `exclusive`. Missing part is false: C82_uninitialised_refuted, C82_freed_refuted. Sequentially consistent memory, one step per access; contents of the PDU: C11."
  },
  {
   "property": "C83",
   "status": "partial",
   "theorems": [
    "C83_files_list_the_data",
    "C83_one_reading",
    "C83_files_are_what_routers_get",
    "C83_json_truncated",
    "C83_csv_truncated_refuted",
    "C83_base64url"
   ],
   "note": "Partial because the part about cut CSV files is false: C83_csv_truncated_refuted. The rest is proved for all valid tables. The readers (CSV, JSON grammar, addresses, base64url) are in OutputSpec.v and NtopSpec.v. inet_ntop() is modelled from glibc, libcrypto's base 64 from RFC 4648; VRPs hold the address as a number."
  },
  {
   "property": "C84",
   "status": "partial",
   "theorems": [
    "C84_download_partial",
    "C84_retries",
    "C84_attempts",
    "C84_flush_refuted",
    "C84_redirect_refuted",
    "C84_unsolicited_refuted",
    "C84_direct_refuted"
   ],
   "note": "Partial: C84_download_partial needs `flushed` (fclose never fails); without it it is false (C84_flush_refuted). libcurl is an oracle per attempt: chunks, results, response code; partial flushes of the temporary file before fclose() are not shown; rename() is atomic; no power loss."
  },
  {
   "property": "C85",
   "status": "partial",
   "theorems": [
    "C85_arguments",
    "C85_success",
    "C85_descriptors",
    "C85_children_partial",
    "C85_zombie_refuted",
    "C85_kill_partial",
    "C85_interrupted_refuted",
    "C85_time_partial",
    "C85_timeout_refuted"
   ],
   "note": "Partial: the absence of zombies needs waitpid() not to fail (C85_zombie_refuted otherwise); the child is left alone only if no signal interrupts poll() (C85_interrupted_refuted); the timeout only bounds the reading (C85_timeout_refuted). System calls are oracles; log_buffer's line splitting isn't modelled."
  },
  {
   "property": "C86",
   "status": "partial",
   "theorems": [
    "C86_mkdir_partial",
    "C86_mkdir_success",
    "C86_mkdir_refuted",
    "C86_delete",
    "C86_repository_refuted",
    "C86_roundtrip",
    "C86_write_failed"
   ],
   "note": "Partial: if stat() fails with something other than ENOENT, mkdir_p() reports success without having made the directory (C86_mkdir_refuted); a local-repository with a trailing slash can be removed itself (C86_repository_refuted). Paths with '..' are excluded (C56 deals with them); no symbolic links, no permissions other than as faults of the calls; no other process changes the tree."
  },
  {
   "property": "C87",
   "status": "partial",
   "theorems": [
    "C87_exit_status",
    "C87_success",
    "C87_modules",
    "C87_server",
    "C87_threads_partial",
    "C87_threads_refuted"
   ],
   "note": "Partial: the RTR threads are still running when the database is destroyed if the first validation fails (C87_threads_refuted). The modules' initialisations are oracles; sleep() and the log aren't modelled; -EINTR from a cycle, the only way out of the main loop, is excluded from C87_server and handled in C87_modules/C87_threads_partial."
  },
  {
   "property": "C88",
   "status": "proved",
   "theorems": [
    "C88_defaults",
    "C88_configuration",
    "C88_effect"
   ],
   "note": "Full. incid-obj-not-der-encoded is accepted and never consulted (documented as deprecated)."
  },
  {
   "property": "C89",
   "status": "proved",
   "theorems": [
    "C89_vcard",
    "C89_rfc6493_refuted"
   ],
   "note": "Full for what the program asks for (C89_vcard); C89_rfc6493_refuted: the program asks for more than RFC 6493 does. strncasecmp() in the C locale; allocations don't fail (the process ends otherwise)."
  },
  {
   "property": "C90",
   "status": "proved",
   "theorems": [
    "C90_authorised",
    "C90_router",
    "C90_exact",
    "C90_own_key"
   ],
   "note": "Full for the model: composes C44, C58, C74, C77, C25, C26, C05 and C50 over histories of cycles that don't crash (C76 and C44 tell when they do). Assumes that libcrypto's values are typed (TreeSpec.v sane), that jansson rejects repeated members, that inet_pton() gives 4 or 16 bytes, and that router keys' SPKIs are 91 bytes long (C25 tells what happens otherwise)."
  },
  {
   "property": "C91",
   "status": "partial",
   "theorems": [
    "C91_started",
    "C91_starts",
    "C91_init",
    "C91_help",
    "C91_refused",
    "C91_defined",
    "C91_ranges",
    "C91_ignored",
    "C91_null_refuted",
    "C91_disabled_refuted",
    "C91_unknown_refuted",
    "C91_documented_refuted"
   ],
   "note": "Partial: a file with null in place of one of a list of words (mode, log.level, ...) passes NULL to strcmp() (C91_null_refuted), so the refusal of wrong files assumes there is none. Other surprises: --work-offline=false enables the protocols (C91_disabled_refuted), unknown names and files that aren't objects are ignored (C91_ignored, C91_unknown_refuted), thread-pool.validation.max accepts 0 (C91_documented_refuted); -c always takes a value. getopt_long() is glibc's without POSIXLY_CORRECT; jansson's parser isn't modelled (its result is an input, without repeated names); memory allocation doesn't fail."
  },
  {
   "property": "C92",
   "status": "proved",
   "theorems": [
    "C92_started",
    "C92_failed",
    "C92_starts",
    "C92_refused",
    "C92_documented_refuted"
   ],
   "note": "getaddrinfo() is an arbitrary function. C92_documented_refuted: the documentation's example \"localhost, ::1#8324\" asks for a host named \" ::1\", since the elements aren't trimmed."
  },
  {
   "property": "C93",
   "status": "partial",
   "theorems": [
    "C93_version",
    "C93_kept",
    "C93_cleared",
    "C93_completed",
    "C93_ready",
    "C93_tmpfile",
    "C93_tmpfile_unique",
    "C93_undeletable_refuted",
    "C93_interrupted_refuted",
    "C93_rm_rf"
   ],
   "note": "The version theorem assumes that what is inside the directory can be deleted: the result of file_rm_rf() is ignored, so otherwise the old files are used (C93_undeletable_refuted). cache.json is emptied before being written: an interruption then costs the whole cache (C93_interrupted_refuted), as does one during the first cycle. The validation is any change to anything but cache.json. Not modelled: symbolic links (if local-repository is one, file_rm_rf() removes the link), other processes; jansson is any parser that reads what Fort writes."
  },
  {
   "property": "C94",
   "status": "partial",
   "theorems": [
    "C94_no_use_after_free",
    "C94_no_leak",
    "C94_consistent",
    "C94_all_consistent",
    "C94_history",
    "C94_progress",
    "C94_reader_progress",
    "C94_stalled_refuted",
    "C94_starved_refuted"
   ],
   "note": "Refuted for routers that stop reading: send_response() polls without a timeout while the table's lock is held, so one router that doesn't read and doesn't hang up keeps every later update from being published (C94_stalled_refuted); and the lock prefers readers, so overlapping questions can do it too (C94_starved_refuted). C94_progress says that the update can be published, not that a fair scheduler does it. Memory is sequentially consistent under the lock; objects are identities here, their contents are C01-C10's."
  },
  {
   "property": "C95",
   "status": "proved",
   "theorems": [
    "C95_no_use_after_free",
    "C95_no_leak"
   ],
   "note": "The objects are identities with reference counts; those that libcrypto, asn1c and the resources keep inside themselves (an X509's members, a Manifest's lists, a sarray's array) are one object each, and the temporaries of single functions (BIOs, buffers, X509_STORE_CTXs) are omitted. The copy of the CRL that verify_cert_crl_stale() makes isn't shown. The answers of the checks are arbitrary, so nothing here depends on what they verify (C40-C77)."
  },
  {
   "property": "C96",
   "status": "partial",
   "theorems": [
    "C96_sanitized",
    "C96_safe",
    "C96_decoder",
    "C96_contents_partial",
    "C96_any_layout",
    "C96_publish",
    "C96_leading_blanks_refuted",
    "C96_chars_refuted"
   ],
   "note": "BIO_f_base64() is a parameter: any function from strings to bytes (with any errors and partial reads); what the contents theorems need from it is that it decodes RFC 4648 with white space in lines of up to 80 characters (LibreSSL's limit, which the code is about). False: a text of at most 65 characters is passed as it is, leading blanks included, so its line may be too long; isspace() of characters that aren't ASCII (signed char)."
  },
  {
   "property": "C97",
   "status": "partial",
   "theorems": [
    "C97_guess_complete",
    "C97_guess_sound_partial",
    "C97_objects",
    "C97_transparent",
    "C97_print",
    "C97_object_partial",
    "C97_overread_refuted",
    "C97_uninitialised_refuted",
    "C97_object_refuted"
   ],
   "note": "Not modelled: filename2bio() and its downloads, the JSON encoders (*_encode_json, Certificate_bio2json, CRL_bio2json) and the dump; the parsers are arbitrary programs that read, never with a buffer of no bytes. False: a file shorter than 32 octets is classified with what hdrbuf (uninitialised) had; one whose header's last field ends at octet 32 has octet 33 looked at; bio2ci() doesn't give back to ber_decode() what RC_WMORE left unconsumed (the first chunk is always the 32 octets), so objects in which octet 32 falls within a header, as those of 64 KiB or more, can't be printed: shown for a decoder with ber_decode()'s documented contract, since asn1c's restarts aren't in the model of C64-C67. A version 1 certificate (which the RPKI doesn't have) looks like a CRL."
  },
  {
   "property": "C98",
   "status": "partial",
   "theorems": [
    "C98_whole",
    "C98_complete",
    "C98_progress",
    "C98_syslog_closed",
    "C98_files",
    "C98_no_files",
    "C98_rsync_lines",
    "C98_rsync_nul",
    "C98_teardown",
    "C98_rsync_refuted",
    "C98_truncated_refuted",
    "C98_crypto_refuted",
    "C98_critical_refuted",
    "C98_results"
   ],
   "note": "Not modelled: printf()'s expansion (a message is the expanded text), strftime(), failures of the mutex, signal handlers, backtrace(); pr_crit()'s exit() isn't a step (whatever follows it is allowed to happen). False: syslog gets 1023 characters of a message; libcrypto's errors are several messages, and those of several threads mix; pr_crit()'s stack trace is printed without the lock and gets in the middle of other lines; what rsync prints after the last newline of each read of 4096 is lost."
  },
  {
   "property": "C99",
   "status": "partial",
   "theorems": [
    "C99_integer",
    "C99_hex",
    "C99_text",
    "C99_time",
    "C99_utctime_partial",
    "C99_utctime_refuted",
    "C99_unknown_oid_refuted",
    "C99_roa",
    "C99_roa_maxlength_refuted",
    "C99_manifest",
    "C99_manifest_number_refuted",
    "C99_object",
    "C99_no_crash",
    "C99_roa_object",
    "C99_manifest_object",
    "C99_no_content_refuted",
    "C99_short_date",
    "C99_crl",
    "C99_signer",
    "C99_whole_object"
   ],
   "note": "The certificates (Certificate_any2json, by libcrypto) and libcrypto's object table are arguments, certificates assumed not to crash in C99_no_crash; allocations succeed; json_dumpf() isn't modelled. C99_object starts at the decoded ContentInfo (C67, C97). False: an object without eContent crashes (C99_no_content_refuted); a ROA one of whose prefixes has no maxLength, and a manifest whose number is 2^63 or more, can't be shown; UTCTimes of 1950 to 1959 are shown as 2050 to 2059; the identifiers that libcrypto doesn't know are all UNDEF."
  },
  {
   "property": "C100",
   "status": "proved",
   "theorems": [
    "C100_load_sound",
    "C100_load_code",
    "C100_load_still",
    "C100_load_short",
    "C100_hash_sound",
    "C100_hash_still",
    "C100_hash_blocks",
    "C100_hash_endless",
    "C100_mft_sound",
    "C100_mft_complete",
    "C100_mft_missing",
    "C100_checked_loaded",
    "C100_file",
    "C100_release",
    "C100_buffer",
    "C100_manifest",
    "C100_torn_refuted",
    "C100_checked_refuted",
    "C100_errno_refuted"
   ],
   "note": "stdio's fread() is modelled from POSIX read() answers (any lengths, any errors, a file that changes); FIFOs (fopen() blocks) aren't. libcrypto's digests are functions of the bytes. C100_manifest discharges the hypothesis of C41. False: a file overwritten in place while it's loaded gives a mixture (C100_torn_refuted); a file replaced between the manifest's check and its load isn't the checked one (C100_checked_refuted); read()'s errno is lost: ferror()'s value is returned instead (C100_errno_refuted). A file that grows as fast as it's read is hashed forever (C100_hash_endless)."
  },
  {
   "property": "C101",
   "status": "partial",
   "theorems": [
    "C101_callback",
    "C101_sound",
    "C101_complete",
    "C101_restored",
    "C101_all",
    "C101_anchor",
    "C101_tolerance_refuted",
    "C101_lost_refuted"
   ],
   "note": "X509_verify_cert() is modelled as its list of checks in order (the path's are arguments; the CRL's dates, signature and serials are modelled); stacks of one CRL, which is what rpp_crl() makes. False: with a libcrypto that encodes again the CRL whose nextUpdate FORT edits (newer OpenSSL), stale CRLs can't be tolerated (C101_tolerance_refuted); if the CRL can't be pushed back it's lost and the rest of the publication point is rejected (C101_lost_refuted)."
  },
  {
   "property": "C102",
   "status": "partial",
   "theorems": [
    "C102_certificate_partial",
    "C102_crl_partial",
    "C102_integers",
    "C102_qualifier_refuted",
    "C102_amended_refuted",
    "C102_empty_refuted",
    "C102_overflow_refuted",
    "C102_address_refuted",
    "C102_algorithm_refuted"
   ],
   "note": "libcrypto's structures are records; its decoding, table of objects and text of dates are arguments. Partial: for certificates whose identifiers have at most 63 characters, whose addresses have the size of their family, whose policies have no qualifiers and whose two algorithms agree. Refuted otherwise: a policy qualifier (C102_qualifier_refuted), an RFC 8360 extension (C102_amended_refuted) or an empty unknown extension (C102_empty_refuted) hide the whole certificate; long addresses and identifiers overflow buffers (C102_overflow_refuted); wrong addresses are shown (C102_address_refuted); tbsCertificate's algorithm isn't the one that's shown (C102_algorithm_refuted)."
  },
  {
   "property": "C103",
   "status": "partial",
   "theorems": [
    "C103_daemon",
    "C103_failures",
    "C103_logs",
    "C103_daemon_logs_partial",
    "C103_status_refuted",
    "C103_descriptors_refuted",
    "C103_container_refuted",
    "C103_syslog_refuted"
   ],
   "note": "The system calls are modelled as far as daemonize() uses them, glibc's syslog() too; process groups and stdio's buffers are not. Refuted: failures after the first fork are reported as success (C103_status_refuted); descriptors beyond sysconf's limit stay open (C103_descriptors_refuted); a process whose parent is process 1 doesn't detach and ignores the configuration of the logs (C103_container_refuted); syslog's connection is closed behind its back, so the first message may be sent to a router or close the server's socket (C103_syslog_refuted; C103_logs and C103_daemon_logs_partial are the cases in which it isn't)."
  },
  {
   "property": "C104",
   "status": "partial",
   "theorems": [
    "C104_init_tals",
    "C104_deleted_refuted",
    "C104_rest_refuted",
    "C104_nothing_refuted"
   ],
   "note": "The path builder and the HTTP fetch are the models of C29 and C84; stdio's buffers and strerror()'s texts are not modelled. Refuted: a failed download deletes the TAL that was there (C104_deleted_refuted); one failure stops the rest (C104_rest_refuted); an answer without a document is a success without a file (C104_nothing_refuted)."
  },
  {
   "property": "C105",
   "status": "partial",
   "theorems": [
    "C105_requests",
    "C105_limits_partial",
    "C105_found",
    "C105_plain_refuted",
    "C105_timeout_refuted"
   ],
   "note": "libcurl is a model: the options FORT sets, what curl_easy_setopt() refuses, and how a transfer goes (redirects, verification, limits); user agent, encodings, proxies, authentication and the errors of the transport are not in it. Refuted: redirects to plain HTTP are followed, because CURLOPT_REDIR_PROTOCOLS isn't set (C105_plain_refuted); timeouts of more than 2147483 seconds, which the configuration allows, are refused by libcurl, and there is no timeout (C105_timeout_refuted)."
  },
  {
   "property": "C106",
   "status": "partial",
   "theorems": [
    "C106_text",
    "C106_late",
    "C106_reads",
    "C106_roundtrip",
    "C106_index",
    "C106_accepts_partial",
    "C106_nonexistent_refuted",
    "C106_shape_refuted",
    "C106_minus_one_refuted"
   ],
   "note": "C106_accepts_partial says what texts are accepted, and as what times. The calendar functions are a model of glibc's: gmtime_r(), strftime(), strptime() (including its leniency) and timegm(); other C libraries are not modelled. Refuted: dates which don't exist are accepted (C106_nonexistent_refuted), and so are texts of another form (C106_shape_refuted); the last second of 1969 is written but not read (C106_minus_one_refuted)."
  },
  {
   "property": "C107",
   "status": "proved",
   "theorems": [
    "C107_shown",
    "C107_null_ambiguous"
   ],
   "note": "printf() of a NULL string is glibc's \"(null)\". The messages are those handed to the log; whether they are written is C98's (by default log.level is warning: they aren't). Not claimed: no value is shown like the text \"(null)\", so different configurations can look the same (C107_null_ambiguous)."
  },
  {
   "property": "C108",
   "status": "proved",
   "theorems": [
    "C108_queue",
    "C108_same_as_PduStream"
   ],
   "note": "Taking more than is held isn't covered: pdustream_next() does it with the PDUs of C12's refutations. C108_same_as_PduStream: PduStream.v's update_buffer(), which C12 to C15 are about, is this one without the memory."
  },
  {
   "property": "C109",
   "status": "proved",
   "theorems": [
    "C109_key",
    "C109_safe",
    "C109_any_size"
   ],
   "note": "libcrypto's base64 decoder is a parameter: of C109_key any one which decodes base64 with lines of up to 80 characters; of C109_safe any. A file that becomes shorter than what was already read isn't modelled (pmalloc() of a wrapped size ends the program)."
  },
  {
   "property": "C110",
   "status": "proved",
   "theorems": [
    "C110_days_ago",
    "C110_old",
    "C110_recent"
   ],
   "note": "localtime_r() and mktime() are a model of glibc's, of zones with two offsets: mktime() uses the offset that tm_isdst says, also when another is in use. Zones whose winter time itself changed within the week aren't modelled. That paths may be inside of others, and then files of the last days are lost, is C37_nested_refuted."
  }
 ]
}