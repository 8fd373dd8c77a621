{"id": "C01", "title": "Serial comparison is RFC 1982 order", "statement": "serial_lt(a,b) is true exactly when b is reached from a by adding some n with 0<n<2^31 modulo 2^32; hence it is irreflexive, asymmetric, and leaves exactly the pairs at distance 2^31 incomparable in both directions.", "quantifier": "every pair of 32-bit serials, including all wrap-around pairs", "why_tests_cant": "2^64 pairs; the interesting ones are at the wrap and at distance 2^31.", "anchors": ["src/types/serial.c: serial_lt"]}
{"id": "C02", "title": "Delta history is a faithful sliding window", "statement": "After any sequence of additions to a delta array with capacity c>=1, it holds min(k,c) deltas and iterating 'since n' visits exactly the n most recent deltas, oldest first, each once, never touching a slot outside the allocation; n larger than the stored count is refused.", "quantifier": "every capacity c with 1<=c<2^31, every sequence of additions (any length), every n", "why_tests_cant": "The index arithmetic is modular over an unbounded history; a test reaches only a few (capacity, history length, n) triples.", "anchors": ["src/rtr/db/deltas_array.c: darray_create, darray_add, darray_foreach_since"]}
{"id": "C03", "title": "A delta lifetime the configuration accepts is safe", "statement": "For every value of server.deltas.lifetime that the configuration accepts, storing a delta never touches memory outside the delta array.", "quantifier": "every configured lifetime in the accepted range [0, UINT_MAX]", "why_tests_cant": "The accepted range has 2^32 values and the failure needs two changed validation cycles.", "anchors": ["src/config.c: server.deltas.lifetime", "src/rtr/db/deltas_array.c: darray_add"]}
{"id": "C04", "title": "The difference between two validation results is exact and minimal", "statement": "The delta computed between an old and a new result set announces exactly the payloads that are new and withdraws exactly those that disappeared, each once; it is empty (no delta) iff both sets are equal; applying it to the old set gives the new set.", "quantifier": "every pair of VRP/router-key tables", "why_tests_cant": "Set-level law over unbounded tables.", "anchors": ["src/rtr/db/db_table.c: compute_deltas, add_roa_deltas, add_router_key_deltas", "src/rtr/db/delta.c: deltas_foreach"]}
{"id": "C05", "title": "Incremental updates converge to the server's data", "statement": "For every history of validation cycles, a router holding exactly the data the server had at serial s, with s still in the delta window, and applying in order the announcements/withdrawals the server sends for 'since s', ends up with exactly the server's current data; no withdrawal names a record it lacks, no announcement one it already has (RFC 8210 duplicate/unknown-withdrawal errors never occur), and the serial it is told is the current one.", "quantifier": "every sequence of validation results (any length, including failures and no-change cycles, and serial wrap-around), every delta lifetime >=1, every client serial in the window", "why_tests_cant": "Quantifies over unbounded histories and the cancellation filter's behaviour over them.", "anchors": ["src/rtr/db/vrps.c: __vrps_update, vrps_foreach_delta_since, vrp_ovrd_remove, router_key_ovrd_remove"]}
{"id": "C06", "title": "The serial advances exactly when the data changes", "statement": "A validation cycle either publishes a new data set and increments the serial by one (mod 2^32), or leaves data, serial and delta history untouched; the latter happens exactly when validation failed, SLURM processing failed, or the new data equals the old.", "quantifier": "every state and every cycle outcome, along every history", "why_tests_cant": "Property of all histories, including failing cycles.", "anchors": ["src/rtr/db/vrps.c: __vrps_update"]}
{"id": "C07", "title": "Serials outside the window trigger a cache reset", "statement": "A Serial Query is answered from deltas iff its serial is one of the serials the server still has deltas for (or the current one); every other serial yields Cache Reset.", "quantifier": "every server history, every 32-bit client serial", "why_tests_cant": "2^32 serials for each history; the counterexample is one serial at distance exactly 2^31.", "anchors": ["src/rtr/db/vrps.c: vrps_foreach_delta_since", "src/rtr/pdu_handler.c: handle_serial_query_pdu"]}
{"id": "C08", "title": "Session identifiers separate protocol versions and never change", "statement": "At start-up the v0 and v1 session ids are 16-bit and different; they stay constant for the process's life; a serial query bearing another session id never receives data.", "quantifier": "every start-up time, every history, every query", "why_tests_cant": "All 65536 clock residues and every history.", "anchors": ["src/rtr/db/vrps.c: vrps_init, get_current_session_id", "src/rtr/pdu_handler.c: handle_serial_query_pdu"]}
{"id": "C09", "title": "End of Data follows only a complete transmission", "statement": "In the reply to a Serial or Reset Query, End of Data is sent only if every payload PDU before it was handed to the socket successfully.", "quantifier": "every data set, every pattern of send failures", "why_tests_cant": "Needs fault injection at each possible send.", "anchors": ["src/rtr/pdu_handler.c", "src/rtr/db/vrps.c: vrps_foreach_delta_since, vrps_foreach_base"]}
{"id": "C10", "title": "A full reset is labelled with the serial of the data it carries", "statement": "The payloads sent in reply to a Reset Query are exactly the data set of the serial announced in the closing End of Data, whatever the validation thread does meanwhile.", "quantifier": "every interleaving of a Reset Query with validation cycles", "why_tests_cant": "Schedule-dependent: window between two lock acquisitions.", "anchors": ["src/rtr/pdu_handler.c: handle_reset_query_pdu", "src/rtr/db/vrps.c: get_last_serial_number, vrps_foreach_base"]}
{"id": "C11", "title": "Every transmitted PDU is well formed", "statement": "Every PDU serialised by the server, read back by the RFC 6810/8210 format, has the intended version, type, session/flags and payload fields, and its length field equals the number of bytes produced.", "quantifier": "all field values, both protocol versions, all PDU types the server sends", "why_tests_cant": "All 32-bit/128-bit field values.", "anchors": ["src/rtr/pdu_sender.c", "src/rtr/primitive_writer.c", "src/rtr/pdu.h"]}
{"id": "C12", "title": "The PDU receiver is memory-safe and terminates on any byte stream", "statement": "For every byte stream and every way the network fragments it, receiving keeps its buffer within 1024 bytes, always makes progress and terminates, consumes exactly the bytes of the PDUs it accepts, and never reads beyond the bytes received.", "quantifier": "every byte stream, every fragmentation, every sequence of receive calls", "why_tests_cant": "Unbounded adversarial input and fragmentation.", "anchors": ["src/rtr/pdu_stream.c: pdustream_next, update_buffer, load_*"]}
{"id": "C13", "title": "Requests are delivered as sent, whatever the fragmentation", "statement": "A well-formed query sent by a client is delivered to the handler with exactly its fields, independently of how the bytes were split into reads, when it is the last one in its batch.", "quantifier": "every well-formed query, every fragmentation", "why_tests_cant": "All splits of all messages.", "anchors": ["src/rtr/pdu_stream.c: pdustream_next"]}
{"id": "C14", "title": "Protocol version is negotiated once per connection", "statement": "The first PDU with version 0 or 1 fixes the connection's version; from then on only PDUs with that version are delivered; any other version produces the specified error code (4 before negotiation, 8 after) and the end of the connection.", "quantifier": "every sequence of PDUs on a connection", "why_tests_cant": "All sequences.", "anchors": ["src/rtr/pdu_stream.c: validate_rtr_version"]}
{"id": "C15", "title": "An Error Report is never answered with an Error Report", "statement": "Whatever PDU causes an error, if it is itself an Error Report then nothing is sent in response.", "quantifier": "every received byte sequence", "why_tests_cant": "All malformed inputs.", "anchors": ["src/rtr/err_pdu.c: err_pdu_send", "src/rtr/pdu_stream.c"]}
{"id": "C16", "title": "Error Reports quote the offending PDU within bounds", "statement": "An Error Report never reads beyond the stored offending bytes, quotes at most 123 bytes of them, quotes a prefix of the PDU, and its length fields are consistent.", "quantifier": "every offending PDU buffer and every message", "why_tests_cant": "All buffers and lengths, including lying length fields.", "anchors": ["src/rtr/pdu_sender.c: send_error_report_pdu, compute_error_pdu_len", "src/rtr/err_pdu.c"]}
{"id": "C17", "title": "Resource prefixes decode exactly when canonical", "statement": "Decoding an RFC 3779 address prefix succeeds iff the bit string fits the family and no host bit is set, and yields the denoted address and length.", "quantifier": "every bit string (bytes, size, unused bits), IPv4 and IPv6", "why_tests_cant": "Unbounded inputs.", "anchors": ["src/types/address.c: prefix4_decode, prefix6_decode, ipv4_prefix_validate, ipv6_prefix_validate"]}
{"id": "C18", "title": "Address ranges decode exactly when ordered and not expressible as a prefix", "statement": "Decoding an RFC 3779 range yields min = lower bits padded with 0, max = upper bits padded with 1, and succeeds iff min<=max and no single prefix denotes [min,max].", "quantifier": "every pair of bit strings, IPv4 and IPv6", "why_tests_cant": "2^64 / 2^256 pairs.", "anchors": ["src/types/address.c: range4_decode, range6_decode, check_order4/6, check_encoding4/6"]}
{"id": "C19", "title": "Prefix coverage is set inclusion", "statement": "The covering test used for SLURM and ROA checks holds iff the address set of the second prefix is included in that of the first.", "quantifier": "every pair of canonical prefixes, both families", "why_tests_cant": "All addresses and lengths.", "anchors": ["src/types/address.c: ipv4_covered, ipv6_covered, ipv6_suffix_mask, u32_suffix_mask", "src/types/vrp.c: vrp_prefix_cov"]}
{"id": "C20", "title": "Resource sets stay sorted, disjoint and non-adjacent, and membership is exact", "statement": "After any sequence of additions, a resource array is strictly increasing with gaps; additions violating that are rejected without effect; a membership query answers true iff every number of the queried range belongs to some stored range.", "quantifier": "every sequence of additions of any length, every query range; ASN, IPv4 and IPv6 element types", "why_tests_cant": "Unbounded arrays; binary-search boundary cases.", "anchors": ["src/sorted_array.c: sarray_add, sarray_contains", "src/resource/asn.c", "src/resource/ip4.c", "src/resource/ip6.c"]}
{"id": "C21", "title": "A certificate never holds resources its issuer lacks", "statement": "Along every issuance chain of any length, every IPv4/IPv6/AS resource held by an accepted certificate is held by every ancestor up to the trust anchor; under RFC 6487 policy a certificate claiming anything else is rejected, under RFC 8360 policy exactly the overclaiming items are dropped.", "quantifier": "every chain of certificates, any resource extensions, both policies, inheritance included", "why_tests_cant": "Unbounded chains and sets.", "anchors": ["src/resource.c: resources_add_ip, resources_add_asn, add_prefix4/6, add_range4/6, inherit_aors, add_asn, inherit_asiors"]}
{"id": "C22", "title": "Every VRP comes from resources its ROA's certificate holds", "statement": "Every IPv4/IPv6 payload emitted while processing a ROA has a prefix contained in the EE certificate's resources, with prefix length <= maxLength <= 32/128 and the ROA's AS number < 2^32.", "quantifier": "every ROA content and every EE resource set", "why_tests_cant": "Unbounded adversarial ROA contents.", "anchors": ["src/object/roa.c: ____handle_roa_v4, ____handle_roa_v6, __handle_roa, roa_traverse"]}
{"id": "C23", "title": "An invalid ROA contributes nothing", "statement": "If a ROA is rejected, none of its payloads reach the validated data.", "quantifier": "every ROA content", "why_tests_cant": "Depends on which item is invalid and on everything before it.", "anchors": ["src/object/roa.c: __handle_roa, roa_traverse", "src/rtr/db/db_table.c: rtrhandler_handle_roa_v4/6"]}
{"id": "C24", "title": "SLURM filters remove exactly the matching entries", "statement": "A VRP (router key) is removed iff some prefix (BGPsec) filter matches it by RFC 8416: every attribute present in the filter (prefix covering, ASN / ASN, SKI) matches.", "quantifier": "every table and every set of filters", "why_tests_cant": "Unbounded sets.", "anchors": ["src/slurm/db_slurm.c: db_slurm_vrp_is_filtered, prefix_filtered_by, bgpsec_filtered_by", "src/slurm/slurm_loader.c: slurm_apply, slurm_pfx_filters_apply"]}
{"id": "C25", "title": "SLURM output is (validated minus filtered) plus assertions", "statement": "After applying SLURM the data is exactly the unfiltered validated payloads together with every local assertion (a missing maxPrefixLength meaning the prefix length); assertions are never filtered.", "quantifier": "every table and SLURM content", "why_tests_cant": "Set-level law over unbounded inputs.", "anchors": ["src/slurm/slurm_loader.c: slurm_apply, prefix_assertion_add, bgpsec_assertion_add"]}
{"id": "C26", "title": "A change in the SLURM files is noticed, a broken one keeps the last good version", "statement": "The SLURM database is reloaded whenever the set of files (by checksum) differs from the loaded one; a load error keeps the previous valid SLURM in force; no files means no SLURM.", "quantifier": "every previous and current list of file checksums, every load outcome", "why_tests_cant": "Multiset comparison over all lists.", "anchors": ["src/slurm/slurm_loader.c: update_slurm, are_csum_lists_equals, slurm_apply"]}
{"id": "C27", "title": "Cached files never land outside the cache directory of their TAL and protocol", "statement": "For every accepted URI the local path is at or below <repository>/<tal>/<rsync|https|rrdp> and contains no '.' or '..' component, so no download can write elsewhere.", "quantifier": "every URI byte string, every TAL name, plain and RRDP-caged mappings", "why_tests_cant": "Adversarial strings of any length.", "anchors": ["src/types/uri.c: append_guri, map_simple, map_caged, path_next"]}
{"id": "C28", "title": "Different objects have different local paths", "statement": "Two accepted URIs with different normalised components map to different local files; in particular files published under one RRDP notification never overwrite those of another.", "quantifier": "all pairs of URIs / (notification, URI) pairs", "why_tests_cant": "Injectivity over unbounded strings.", "anchors": ["src/types/uri.c: map_simple, map_caged"]}
{"id": "C29", "title": "Path building is bounded and exact", "statement": "Any sequence of appends produces the components joined by single '/', NUL-terminated, within the 4096-byte capacity, or fails with ENOSPC leaving no overflow; pop removes exactly the last component and reverse mirrors the component order.", "quantifier": "every sequence of appends/pops of any component sizes", "why_tests_cant": "Unbounded sequences and sizes.", "anchors": ["src/data_structure/path_builder.c"]}
{"id": "C30", "title": "A manifest entry names a file in the manifest's own directory", "statement": "An accepted manifest file name contains only [A-Za-z0-9_-], one '.', and a three-letter extension: no separators or dot segments; the resulting URI is the manifest's directory plus that name.", "quantifier": "every IA5String", "why_tests_cant": "Adversarial strings.", "anchors": ["src/types/uri.c: validate_mft_file, ia5str2global"]}
{"id": "C31", "title": "RRDP delta lists are applied only when contiguous, in order, from the right serial", "statement": "A notification's delta list is accepted iff its serials are exactly a contiguous range ending at the announced serial, in any order; it is then in increasing order, and updating from serial s applies exactly s+1..current in order.", "quantifier": "every delta list of any length and order, every local serial", "why_tests_cant": "Permutations of unbounded lists; the in-place sort's termination and bounds.", "anchors": ["src/rrdp.c: sort_deltas, swap_until_sorted, handle_deltas"]}
{"id": "C32", "title": "Hash attributes are parsed exactly", "statement": "A SHA-256 attribute is accepted iff it is exactly 64 hexadecimal digits, and yields the denoted 32 bytes.", "quantifier": "every string", "why_tests_cant": "All strings.", "anchors": ["src/rrdp.c: hexstr2sha256, hash_b2c"]}
{"id": "C33", "title": "RRDP publish/withdraw respect the hash discipline", "statement": "In a delta, the hash attribute, when required or present, must match the file being replaced or withdrawn, otherwise the delta is rejected; the resulting file set is the one RFC 8182 prescribes.", "quantifier": "every sequence of publish/withdraw elements", "why_tests_cant": "All element sequences and file states.", "anchors": ["src/rrdp.c: handle_publish, handle_withdraw, parse_publish, parse_withdraw, write_file, delete_file"]}
{"id": "C34", "title": "An interrupted RRDP update is repaired by the next one", "statement": "If an RRDP update fails or the process dies at any point, a later successful update ends with the server's current files.", "quantifier": "every crash point, every update history", "why_tests_cant": "Crash points between file writes.", "anchors": ["src/rrdp.c: rrdp_update, handle_snapshot, handle_deltas, get_metadata"]}
{"id": "C35", "title": "Each URI is downloaded at most once per validation run", "statement": "Within a validation run, a URI whose download has been attempted is not attempted again; its earlier result is returned.", "quantifier": "every sequence of download requests", "why_tests_cant": "All sequences.", "anchors": ["src/cache/local_cache.c: cache_download, was_recently_downloaded"]}
{"id": "C36", "title": "Download fallback honours priority, then cache", "statement": "Of several alternative URIs, the protocol with higher priority is tried first, the first success wins, and only when all fail is the freshest successfully cached alternative used.", "quantifier": "every list of URIs, every outcome, every configuration of priorities", "why_tests_cant": "All outcome combinations.", "anchors": ["src/cache/local_cache.c: download_uris, cache_download_alt, __cache_recover, choose_better"]}
{"id": "C37", "title": "Cache cleanup never deletes fresh content", "statement": "Cleanup keeps every file or directory that belongs to (is at, above or below) a node kept in the index and every node attempted successfully since the expiry threshold.", "quantifier": "every index and file tree", "why_tests_cant": "All trees.", "anchors": ["src/cache/local_cache.c: cleanup_node, is_cached, delete_unknown_files"]}
{"id": "C38", "title": "Thread pool executes every task exactly once", "statement": "Until stopped, each submitted task is executed exactly once, tasks are claimed in submission order, waiting returns only when no task is queued or running, and no wakeup is lost (an idle worker and a queued task never coexist forever).", "quantifier": "every number of workers, every schedule, every submission pattern, spurious wakeups", "why_tests_cant": "Interleavings.", "anchors": ["src/thread/thread_pool.c"]}
{"id": "C39", "title": "Tree traversal visits every listed certificate once, under its own issuer chain", "statement": "Depth-first traversal with the deferred stack processes each certificate listed by accepted manifests exactly once and, at that moment, the certificate stack consists exactly of its issuer chain up to the trust anchor.", "quantifier": "every (finite) repository tree and every pattern of certificate failures", "why_tests_cant": "All trees.", "anchors": ["src/cert_stack.c", "src/rpp.c: __cert_traverse, rpp_traverse", "src/object/tal.c: handle_tal_uri"]}
{"id": "C40", "title": "Manifest processing survives any file list", "statement": "Randomising a manifest's file list yields a permutation of it, for every list including the empty one, without crashing.", "quantifier": "every file list length and every random sequence", "why_tests_cant": "All lengths and random seeds.", "anchors": ["src/object/manifest.c: build_rpp"]}
{"id": "C41", "title": "A publication point has exactly one CRL or is rejected", "statement": "Building a publication point from a manifest succeeds only if every existing listed file matches its hash (modulo configured incidences) and exactly one CRL is listed among the present files; listed .cer/.roa/.gbr files are then exactly the ones traversed.", "quantifier": "every manifest content and file state", "why_tests_cant": "All lists.", "anchors": ["src/object/manifest.c: build_rpp", "src/rpp.c: rpp_add_crl"]}
{"id": "C42", "title": "Manifest validity window", "statement": "A manifest is accepted by date iff thisUpdate <= nextUpdate, thisUpdate <= now and (now <= nextUpdate or staleness is configured as ignored); the comparison is the chronological order.", "quantifier": "every triple of normalised calendar times", "why_tests_cant": "All dates.", "anchors": ["src/object/manifest.c: validate_dates, tm_cmp", "src/incidence/incidence.c"]}
{"id": "C43", "title": "TAL key text is normalised without loss", "statement": "Re-wrapping the TAL's base64 body preserves all non-newline characters in order, keeps lines short enough for the decoder (< 80), and never overruns its buffer.", "quantifier": "every file body of any length", "why_tests_cant": "Off-by-one behaviour depends on length mod 65 and newline positions.", "anchors": ["src/object/tal.c: base64_sanitize"]}
{"id": "C44", "title": "Validation results are the union of all TALs or nothing", "statement": "A validation run's result is the union of the results of every TAL; if any TAL fails there is no result at all (the previous data stays).", "quantifier": "every number of TALs and failure pattern", "why_tests_cant": "All patterns.", "anchors": ["src/object/tal.c: perform_standalone_validation", "src/rtr/db/db_table.c: db_table_join"]}
{"id": "C45", "title": "A BGPsec certificate's AS ranges expand to exactly their members", "statement": "A router key is emitted exactly once for each AS number in the certificate's ranges, including ranges ending at 2^32-1, and no other.", "quantifier": "every list of AS ranges", "why_tests_cant": "Overflow at the top of the range.", "anchors": ["src/rtr/db/vrps.c: handle_router_key", "src/object/bgpsec.c: asn_cb", "src/resource.c: resources_foreach_asn"]}
{"id": "C46", "title": "UTF-8 diagnostic text is truncated on character boundaries", "statement": "The text shown from a received Error Report is a prefix of the received bytes, well-formed UTF-8, ends at a character boundary, and is the longest such prefix ending before the first malformed sequence.", "quantifier": "every byte string", "why_tests_cant": "All byte strings.", "anchors": ["src/rtr/pdu_stream.c: place_null_character, read_string, is_utf8_*"]}
{"id": "C47", "title": "URI/path tokenisation is exact", "statement": "Tokenising a path yields exactly its maximal separator-free substrings, in order, reading only inside the string.", "quantifier": "every string and separator", "why_tests_cant": "All strings.", "anchors": ["src/str_token.c: string_tokenizer_next, token_count", "src/types/uri.c: path_next"]}
{"id": "C48", "title": "base64url conversions", "statement": "Encoding drops padding and maps the alphabet per RFC 4648 section 5; decoding adds the right padding so that decoding an encoded value gives the value back.", "quantifier": "every byte string", "why_tests_cant": "All lengths mod 3.", "anchors": ["src/crypto/base64.c: base64url_decode, base64url_encode, to_base64url"]}
{"id": "C49", "title": "Integer options respect their declared range", "statement": "An unsigned integer option given on the command line or in JSON is accepted iff it is a whole decimal number within [min,max]; the stored value is that number.", "quantifier": "every argument string / JSON integer", "why_tests_cant": "All strings.", "anchors": ["src/config/uint.c: parse_argv_uint, parse_json_uint"]}
{"id": "C50", "title": "Incremental and full synchronisation converge on the wire", "statement": "When the socket accepts every write, the bytes a router receives in reply to a Serial Query (for a serial in the window) or a Reset Query decode by the RFC format to Cache Response, payloads and End of Data with the current serial, and applying the payloads turns the router's data for the quoted serial (resp. nothing) into exactly the server's current data; router keys are sent in version 1 only.", "quantifier": "every history of validation cycles, every lifetime, every serial in the window, both protocol versions, every in-range payload", "why_tests_cant": "Composes the database, the delta filtering and the serialisers over unbounded histories.", "anchors": ["src/rtr/pdu_handler.c: handle_serial_query_pdu, handle_reset_query_pdu", "src/rtr/pdu_sender.c", "src/rtr/db/vrps.c"]}
{"id": "C51", "title": "Serial Notify is well formed for its client", "statement": "The Serial Notify sent to a client after a change carries the client's protocol version, that version's session id and the current serial.", "quantifier": "every history and every client state (negotiated or not)", "why_tests_cant": "Requires a client that is connected but silent at the time of an update.", "anchors": ["src/rtr/rtr.c: rtr_notify", "src/rtr/pdu_sender.c: send_serial_notify_pdu"]}
{"id": "C52", "title": "ASN.1 integers are read as their value", "statement": "A decoded ASN.1 INTEGER used as an AS number, a maximum length, a version or a manifest size is read as the number it denotes, or refused.", "quantifier": "every INTEGER encoding, of any length", "why_tests_cant": "All byte strings, including leading zeros and negative numbers.", "anchors": ["src/asn1/asn1c/INTEGER.c: asn_INTEGER2umax, asn_INTEGER2ulong", "src/resource.c: ASId2u32"]}
{"id": "C53", "title": "No certificate crashes resource extraction", "statement": "Whatever a certificate's IP/AS resource extensions contain, extracting them ends with an accepted or rejected certificate, never with a crash.", "quantifier": "every certificate, every stack of ancestors", "why_tests_cant": "All certificates and all ancestor chains.", "anchors": ["src/resource.c: resources_add_ip, resources_add_asn, inherit_aors", "src/object/certificate.c: __certificate_get_resources", "src/cert_stack.c: init_resources"]}
{"id": "C54", "title": "A SLURM file is accepted exactly when it is well formed", "statement": "Alone, a SLURM file is accepted iff it follows the grammar of RFC 8416 section 3 (members, types, ranges, at least one selector per filter, no unknown member); files whose prefixes overlap, or whose BGPsec rules share an AS number, are not loaded together.", "quantifier": "every JSON document, every list of files", "why_tests_cant": "All documents.", "anchors": ["src/slurm/slurm_parser.c: slurm_parse, handle_json, load_single_prefix, load_single_bgpsec", "src/slurm/db_slurm.c: db_slurm_add_*", "src/json_util.c"]}
{"id": "C55", "title": "No SLURM file crashes the validator", "statement": "Whatever JSON a SLURM file contains, reading it ends with rules or an error.", "quantifier": "every JSON document", "why_tests_cant": "All documents.", "anchors": ["src/slurm/slurm_parser.c: set_prefix, load_single_prefix, load_single_bgpsec"]}
{"id": "C56", "title": "An rsync URI is fetched through its module, which contains it", "statement": "For an rsync URI what is fetched is the module it belongs to (host and first path segment), and the file is then looked up inside the directory that module is fetched to; rsync URIs that name no module are refused.", "quantifier": "every rsync URI", "why_tests_cant": "All URIs, including dot segments and repeated slashes.", "anchors": ["src/cache/local_cache.c: get_url, cache_download"]}
{"id": "C57", "title": "The download index survives a restart", "statement": "Writing the index of downloads and loading it again yields the same index (URLs, last attempts and results, last successes); no content of the index file makes the program fail, ill-formed entries being skipped.", "quantifier": "every index; every JSON document", "why_tests_cant": "All indexes and documents.", "anchors": ["src/cache/local_cache.c: node2json, build_tal_json, json2node, load_tal_json", "src/json_util.c"]}
{"id": "C58", "title": "TAL files are read exactly by their grammar", "statement": "A TAL file is accepted iff it consists of zero or more '#' comment lines, then one or more rsync/https URI lines, then an empty line, then the key; the trust anchor's URIs are exactly those lines, in the file's order, whatever mixture of LF and CRLF is used; no file content (NULs, missing newline, empty file) makes the reader misbehave.", "quantifier": "every file content", "why_tests_cant": "All byte sequences.", "anchors": ["src/object/tal.c: read_uris, add_uri", "src/line_file.c: lfile_read"]}
{"id": "C59", "title": "BER headers are decoded to what they say, and nothing outside the buffer is read", "statement": "Decoding an ASN.1 length or tag from a buffer yields the number of bytes and the value X.690 assigns to them whenever a complete, representable header is there; asks for more only if the header is incomplete; refuses only what cannot be represented; never reads past the announced size. The DER serialisers write the shortest encoding, never past the announced size, and decoding gives the number back.", "quantifier": "every buffer, announced size, length and tag", "why_tests_cant": "All byte sequences, including headers cut anywhere and numbers of any size.", "anchors": ["src/asn1/asn1c/ber_tlv_length.c: ber_fetch_length, der_tlv_length_serialize", "src/asn1/asn1c/ber_tlv_tag.c: ber_fetch_tag, ber_tlv_tag_serialize"]}
{"id": "C60", "title": "Skipping an ASN.1 value consumes exactly that value", "statement": "Skipping the length and contents of a BER value succeeds iff the buffer starts with one, consumes exactly its bytes at any depth of nesting and mixture of definite and indefinite lengths, and always ends without reading past the buffer.", "quantifier": "every buffer and announced size", "why_tests_cant": "All byte sequences and nesting depths.", "anchors": ["src/asn1/asn1c/ber_tlv_length.c: ber_skip_length"]}
{"id": "C61", "title": "The signature of a signed object covers its signed attributes", "statement": "Verifying a signed object's signature checks it, with the certificate's key, against exactly the DER SET OF encoding (tag 0x31) of the signed attributes found in the object, as RFC 5652 5.4 demands; objects without that shape are refused, and nothing outside of the object is read.", "quantifier": "every byte sequence handed as SignedData; every signature; every behaviour of the cryptographic library", "why_tests_cant": "All encodings, well-formed or not.", "anchors": ["src/object/certificate.c: find_signedAttrs, skip_t, skip_tl, skip_tlv, certificate_validate_signature"]}
{"id": "C62", "title": "Object identifiers are read, compared and printed right", "statement": "The bytes of an OBJECT IDENTIFIER are accepted iff they are whole subidentifiers; 'is this the identifier X' answers yes iff the bytes encode X; its printed form is the dotted decimal one, given up only when longer than 63 characters.", "quantifier": "every byte sequence; every identifier", "why_tests_cant": "All byte sequences and arc values.", "anchors": ["src/asn1/asn1c/OBJECT_IDENTIFIER.c: OBJECT_IDENTIFIER_get_single_arc, OBJECT_IDENTIFIER_get_arcs, OBJECT_IDENTIFIER_to_literal", "src/asn1/oid.c: oid2arcs, __arcs_equal, oid_equal"]}
{"id": "C63", "title": "A signed object is accepted exactly when RFC 6488's conditions hold", "statement": "A ROA, manifest or ghostbusters object is accepted iff it is a CMS SignedData of version 3 with one SHA-256 digest algorithm, the expected content type, no CRLs and exactly one signer, of version 3, identified by a key identifier, with SHA-256, RSA, no unsigned attributes, and the signed attributes content-type, message-digest and signing-time exactly once each and no others, the first being the content's type and the second the content's SHA-256; and with exactly one certificate, without trailing bytes, passing all of its checks, whose key verifies the signature over the signed attributes.", "quantifier": "every decoded object, every behaviour of the decoder, the hash and the certificate checks, every incidence configuration", "why_tests_cant": "All combinations of fields, attribute orders, repetitions and values.", "anchors": ["src/asn1/signed_data.c: signed_data_validate, validate_signed_attrs, handle_sdata_certificate, get_content_type_attr, signed_data_decode", "src/object/signed_object.c: signed_object_decode, signed_object_validate", "src/asn1/content_info.c", "src/algorithm.c: validate_cms_hashing_algorithm, validate_cms_signature_algorithm", "src/crypto/hash.c: hash_validate"]}
{"id": "C64", "title": "ASN.1 objects are decoded to what their bytes say", "statement": "Decoding a ROA, manifest, RFC 3779 extension, CMS ContentInfo or SignedData, object identifier or message digest succeeds iff the bytes start with a BER encoding of a value of that type, yields exactly that value and length, and never reads outside of the buffer; no bytes encode two values; what follows the encoding is ignored.", "quantifier": "every byte sequence, for each of the nine types decoded", "why_tests_cant": "All byte sequences: lengths, forms (primitive, constructed, definite, indefinite), nestings and truncations.", "anchors": ["src/asn1/asn1c/ber_decoder.c: ber_decode, ber_check_tags", "src/asn1/asn1c/constr_SEQUENCE.c: SEQUENCE_decode_ber", "src/asn1/asn1c/constr_SET_OF.c: SET_OF_decode_ber", "src/asn1/asn1c/constr_CHOICE.c: CHOICE_decode_ber", "src/asn1/asn1c/OCTET_STRING.c: OCTET_STRING_decode_ber", "src/asn1/asn1c/asn_codecs_prim.c: ber_decode_primitive"]}
{"id": "C65", "title": "Decoding an ASN.1 object ends", "statement": "Decoding any byte sequence as any of the types received from repositories ends.", "quantifier": "every byte sequence, for each of the nine types decoded", "why_tests_cant": "Termination on all inputs.", "anchors": ["src/asn1/asn1c/constr_CHOICE.c: CHOICE_decode_ber", "src/asn1/asn1c/OCTET_STRING.c: OCTET_STRING_decode_ber", "src/asn1/asn1c/constr_SET_OF.c: SET_OF_decode_ber"]}
{"id": "C66", "title": "Decoded objects satisfy the constraints of their ASN.1 modules", "statement": "After decoding, an object is refused iff it breaks one of the constraints (sizes, ranges, time formats, alphabets, empty identifiers) its ASN.1 module puts on it; checking never kills the process.", "quantifier": "every byte sequence, for each of the nine types decoded", "why_tests_cant": "All values of the types, at all depths.", "anchors": ["src/asn1/decode.c: asn1_decode, validate", "src/asn1/asn1c/constr_SEQUENCE.c: SEQUENCE_constraint", "src/asn1/asn1c/constr_SET_OF.c: SET_OF_constraint", "src/asn1/asn1c/constr_CHOICE.c: CHOICE_constraint", "src/asn1/asn1c/UTCTime.c: UTCTime_constraint"]}
{"id": "C67", "title": "RPKI objects written in DER are read as the records they encode", "statement": "The DER encodings (RFC 6482, 6486, 3779, 5652) of a ROA, a manifest, IP and AS resources, a SignedData and a ContentInfo are decoded to exactly the version, numbers, times, addresses, files, attributes and signatures encoded; trailing bytes don't matter. Conversely whatever is accepted is a complete structure all of whose fields are bytes, with no missing mandatory member.", "quantifier": "every record of those types, of any size, and every byte sequence", "why_tests_cant": "All values and all byte strings; tests decode a handful of objects.", "anchors": ["src/asn1/decode.c: asn1_decode", "src/asn1/asn1c/RouteOriginAttestation.c", "src/asn1/asn1c/Manifest.c", "src/asn1/asn1c/IPAddrBlocks.c", "src/asn1/asn1c/ASIdentifiers.c", "src/asn1/asn1c/SignedData.c", "src/asn1/asn1c/ContentInfo.c"]}
{"id": "C68", "title": "From the bytes of a ROA to the VRP table", "statement": "Whatever bytes the content of a ROA is made of, processing never crashes; it is accepted iff the encoded ROA is valid (version 0, AS number below 2^32, known families, non-empty lists, good prefixes and maxLengths covered by the EE certificate), and then the table gains exactly the payloads it announces; nothing not covered by every certificate above is ever added.", "quantifier": "every byte sequence, every certificate chain and every table", "why_tests_cant": "All byte strings and chains.", "anchors": ["src/object/roa.c: decode_roa, __handle_roa, roa_traverse", "src/asn1/decode.c: asn1_decode_octet_string"]}
{"id": "C69", "title": "Certificate resources, from the bytes of the extensions", "statement": "Whatever bytes the IP and AS resource extensions of the certificates consist of, no certificate of the chain ends up holding anything its ancestors don't hold, and no such certificate crashes the process; a certificate whose resource extensions are DER is accepted iff they are what its policy calls for (each once, critical, IPv4 before IPv6, no rdi) and something of each can be granted or inherited.", "quantifier": "every sequence of certificates, every content of their extensions", "why_tests_cant": "All byte strings and chains.", "anchors": ["src/object/certificate.c: handle_ip_extension, handle_asn_extension, __certificate_get_resources, certificate_get_resources", "src/resource.c"]}
{"id": "C70", "title": "Signed objects, from the bytes of the file", "statement": "Whatever the file contains, reading and validating it as a signed object never crashes; a DER object is accepted iff it satisfies RFC 6488, its signature being verified over the SET OF encoding of the signed attributes; and in any accepted object the attributes that were compared with the content are the ones the signature covers.", "quantifier": "every byte sequence, every outcome of libcrypto and of the certificate checks", "why_tests_cant": "All byte strings; two independent readers of the same bytes (the decoder and the search for the signed attributes) must agree.", "anchors": ["src/object/signed_object.c: signed_object_decode, signed_object_validate", "src/asn1/content_info.c: content_info_decode", "src/asn1/signed_data.c: signed_data_decode, validate", "src/object/certificate.c: certificate_validate_signature, find_signedAttrs"]}
{"id": "C71", "title": "The extensions of certificates and CRLs", "statement": "The extensions of a trust anchor, CA certificate, EE certificate or CRL are accepted exactly when they are those RFC 6487 asks for (each at most once, with the right criticality, no unknown critical one, all required ones, key identifiers that are the hashes of the keys, exactly the key usages of the profile, one policy, at most one usable URI per access method), whatever their order; the URIs and the policy remembered are the ones they state; and validation never crashes nor ends the process because a reference was not recorded.", "quantifier": "every list of extensions, in every order, for each of the four profiles; every key, parent key, cache configuration", "why_tests_cant": "Unbounded lists of extensions in any order; the handlers share a mutable record.", "anchors": ["src/extension.c: handle_extensions, handle_aki, validate_public_key_hash", "src/object/certificate.c: certificate_validate_extensions_ta/_ca/_ee, handle_ad, handle_cdp, handle_ku, handle_cp", "src/object/crl.c: validate_extensions", "src/certificate_refs.c"]}
{"id": "C72", "title": "Certificates conform to their profile", "statement": "A certificate is accepted as trust anchor, CA, router or EE certificate exactly if it is a version 3 certificate with a serial number, SHA-256 with RSA as its signature algorithm, a subject and an issuer made of one CommonName and at most one serialNumber, an issuer equal to the subject of its parent (unless it is the trust anchor), and a right public key (RSA of at least 2048 bits and exponent 65537; P-256 for routers); the trust anchor's key is that of the TAL and signs the certificate. Reused serial numbers are reported exactly for siblings. Validation never crashes.", "quantifier": "every certificate of each type, every parent, every TAL key, every sequence of serial numbers", "why_tests_cant": "Unbounded names and keys; the issuer comparison relates two certificates.", "anchors": ["src/object/certificate.c: certificate_validate_rfc6487, validate_public_key, validate_spki, spki_cmp", "src/object/name.c: x509_name_decode, x509_name_equals, validate_issuer_name", "src/algorithm.c", "src/cert_stack.c: x509stack_store_serial"]}
{"id": "C73", "title": "CRLs conform to their profile and are loaded once per publication point", "statement": "A CRL is accepted exactly if it has version 2, the right algorithm, its issuer's name, only revoked entries with a serial number, a date and no extensions, and exactly the authority key identifier and CRL number extensions; and all requests for the CRL of a publication point get the same answer as the first, whatever happens to the files meanwhile.", "quantifier": "every CRL, parent certificate and sequence of requests, with any changes of the files between them", "why_tests_cant": "Unbounded revocation lists and request histories.", "anchors": ["src/object/crl.c: crl_validate, validate_revoked, crl_load", "src/rpp.c: rpp_crl, add_crl_to_stack"]}
{"id": "C74", "title": "Every VRP is authorised from the trust anchor down", "statement": "Whatever the repositories contain, a VRP that the validation of a trust anchor adds to the table is announced by a ROA that is listed in its issuer's manifest, signed by an end entity certificate that libcrypto verified against the path of certificates from that trust anchor (whose key is the TAL's), each of which is listed in the current manifest of its own issuer, conforms to the certificate profile and holds the VRP's prefix; the path is not longer than the configured maximum. VRPs that were in the table stay, none is repeated, and router keys are not touched.", "quantifier": "every content of every file at every moment of the validation (files may change while being validated), every result of clock, downloads and libcrypto, every configuration, trees of any shape", "why_tests_cant": "The claim relates every byte of an unbounded tree of files to the final table, for arbitrary adversarial repositories.", "anchors": ["src/object/tal.c: handle_tal_uri", "src/object/certificate.c: certificate_traverse, certificate_validate_chain, get_certificate_type, download_rpp", "src/cert_stack.c: x509stack_push, x509stack_cancel, deferstack_pop", "src/object/manifest.c: handle_manifest", "src/object/roa.c: roa_traverse", "src/rpp.c: rpp_traverse, rpp_crl"]}
{"id": "C75", "title": "The validation of a trust anchor ends", "statement": "The validation of a trust anchor's tree ends, whatever is published: also if certificates publish themselves or each other, or if the files change during the validation.", "quantifier": "every content of every file at every moment of the validation, every configuration of the maximum depth", "why_tests_cant": "Non-termination needs adversarial, possibly cyclic or ever changing repositories; no finite test shows its absence.", "anchors": ["src/object/tal.c: handle_tal_uri", "src/object/certificate.c: certificate_traverse", "src/cert_stack.c: deferstack_push, deferstack_pop"]}
{"id": "C76", "title": "Nothing published crashes the validation", "statement": "Whatever the repositories contain, and however the files change during the validation, the validation of a trust anchor comes to a regular end (success or rejection of the tree): no out of bounds access, NULL dereference, signed overflow or failed internal assertion. Holds except for a manifest without entries and for a trust anchor that inherits its resources; each of these two crashes the validator.", "quantifier": "every content of every file at every moment of the validation, every result of clock, downloads and libcrypto, every configuration, trees of any shape", "why_tests_cant": "The crash needs one adversarial byte string among all possible ones, in a tree of any shape.", "anchors": ["src/object/tal.c: handle_tal_uri", "src/object/certificate.c: certificate_traverse", "src/object/manifest.c: handle_manifest, build_rpp", "src/object/roa.c: roa_traverse", "src/resource.c: resources_add_ip", "src/cert_stack.c: x509stack_push"]}
{"id": "C77", "title": "What one publication point holds neither adds to nor takes away from another's VRPs, and the order does not matter", "statement": "When files, clock and downloads stand still during a validation, the VRPs added for a trust anchor are exactly those that each path of certificates from the trust anchor would add if it were validated by itself, with nothing else in the table, in the stack or in the queue. So whatever a sibling publishes (invalid, huge, hostile or nothing) does not change what the others contribute, and the random order in which the publication points are visited never changes the result.", "quantifier": "every content of the files, every tree shape, every sequence of random numbers, every initial table", "why_tests_cant": "Isolation relates the run over the whole tree to all runs over single paths, for every order of the files and every behaviour of the others.", "anchors": ["src/object/tal.c: handle_tal_uri", "src/object/certificate.c: certificate_traverse", "src/cert_stack.c: deferstack_pop", "src/rpp.c: rpp_traverse", "src/object/manifest.c: build_rpp", "src/resource.c: resources_add_ip"]}
{"id": "C78", "title": "RTR connections: none is lost, closed twice, or used after being closed", "statement": "Whatever poll(), accept() and the clients do, in any history of the server thread: no descriptor is closed twice, written to, or handed to a worker after it was closed; the descriptors open at any time are exactly the listening sockets and those of the connected clients. After each round the clients are the ones there were, in order, minus those that hung up, erred or whose stream cannot go on, plus those just accepted; and the requests handed to the workers are exactly those that were read, each from the client it came from.", "quantifier": "every history of poll() results, accepted descriptors and bytes read, any number of clients and sockets", "why_tests_cant": "A leaked or doubly closed descriptor shows up only after some particular mix of arrivals and departures in the same round.", "anchors": ["src/rtr/rtr.c: fddb_poll, accept_new_client, apply_pollfds, delete_dead_clients, server_cb"]}
{"id": "C79", "title": "No RTR client can stop the server from listening", "statement": "Whatever the clients do, the server keeps its listening sockets and its thread. (Holds while accept() only fails with the errors the code retries; refuted: ECONNABORTED, which a client causes by giving up, or EMFILE close the listening socket for good.)", "quantifier": "every history of poll() results, every errno of accept()", "why_tests_cant": "It ranges over all histories and all failures of accept().", "anchors": ["src/rtr/rtr.c: handle_accept_result, fddb_poll, apply_pollfds"]}
{"id": "C80", "title": "An answer is received by the router that asked, whole, and by nobody else", "statement": "Everything a worker writes in response to a query is received, in order, by the connection the query came from, and by no other connection or file. (Holds while no connection is closed with an unfinished request; refuted: the poll thread closes the descriptor of a client that leaves, or that only shuts down its sending side, while a worker is still using it, so the answer goes to whoever gets the descriptor next, or is lost.)", "quantifier": "every interleaving of the poll thread, the workers and the rest of the process, any number of connections and requests", "why_tests_cant": "It depends on the schedule between threads and on which descriptors the kernel reuses.", "anchors": ["src/rtr/rtr.c: handle_client_request, __handle_client_request, fddb_poll", "src/rtr/pdu_stream.c: create_request, pdustream_next, pdustream_destroy", "src/rtr/pdu_sender.c: send_response"]}
{"id": "C81", "title": "The answers to a router's queries are not mixed up", "statement": "When a router sends several queries, the answers are written one after the other, in order. (Holds if the router waits for each answer before asking again; refuted: two queries are given to two workers, which write to the connection at the same time.)", "quantifier": "every interleaving of the poll thread and the workers", "why_tests_cant": "It is a property of all schedules.", "anchors": ["src/rtr/rtr.c: __handle_client_request, handle_client_request", "src/thread/thread_pool.c: thread_pool_push"]}
{"id": "C82", "title": "When there is new data, each connected router is notified once", "statement": "Each notification is sent once to each of the clients that are connected, and to nobody else, however many come and go; the list of clients holds those that came and have not left, in order, and no memory is misused as it grows. (Holds if no client is added while others are being notified; refuted: the poll thread adds clients without the lock the notifier holds, so the notifier may follow an uninitialised pointer or read an array that was moved.)", "quantifier": "every sequence of arrivals and departures, every interleaving of the two threads, any number of clients", "why_tests_cant": "It is a data race: it depends on the schedule between single memory accesses.", "anchors": ["src/rtr/rtr.c: rtr_notify, accept_new_client, apply_pollfds", "src/data_structure/array_list.h: DEFINE_ARRAY_LIST_FUNCTIONS"]}
{"id": "C83", "title": "The output files list exactly the validated data routers get", "statement": "The files written to output.roa and output.bgpsec, as CSV or as JSON, can be read by a program that knows the format, in one way only, and list every VRP (AS, prefix, maximum length; any IPv4 or IPv6 address in any of inet_ntop's notations) and every router key (AS, SKI, SPKI) exactly once, and nothing else; after any history of validation cycles they list what routers are being served; printing never reads beyond a buffer; a JSON file cut anywhere (crash, full disk) is either unreadable or lists everything. (Refuted for CSV: a cut file can be read as a smaller table, and nothing notices because results of fprintf() and fclose() are ignored and the file is overwritten in place.)", "quantifier": "every table of valid VRPs and router keys, both formats, every history of cycles, every point at which writing stops", "why_tests_cant": "Addresses have 2^128 values and several notations each; the claim is about all tables and every crash point.", "anchors": ["src/output_printer.c: output_print_data, print_roas, print_router_keys, print_roa_csv, print_roa_json, print_router_key_csv, print_router_key_json", "src/crypto/base64.c: base64url_encode, to_base64url", "src/rtr/db/vrps.c: __vrps_update", "src/rtr/db/db_table.c: db_table_foreach_roa, db_table_foreach_router_key"]}
{"id": "C84", "title": "An HTTP download replaces a file completely or not at all", "statement": "Whatever the server answers, however local operations fail and wherever the process dies: the file is what it was or the complete document of the first answer that had one, no bigger than http.max-file-size; the download says it changed if and only if it did; no temporary file is left; nothing else is touched. Temporary trouble (time-outs, unresolved names, 408, 429, 5xx) is retried, no more than http.retry.count times. (Holds if fclose() doesn't fail; refuted otherwise: a truncated document is taken. Also refuted: only documents of successful answers are taken (a 3xx without Location is); after success there is a file (unsolicited 304); and http_direct_download keeps the old file on failure.)", "quantifier": "every server behaviour on every attempt, every retry count, every failure of fopen, fwrite, fclose, mkdir, rename, every crash point", "why_tests_cant": "Servers are adversarial and failures can come at any point of any attempt.", "anchors": ["src/http/http.c: http_download, http_fetch, do_retries, write_callback, validate_file_size, handle_http_response_code, get_ims, http_direct_download"]}
{"id": "C85", "title": "rsync is run as configured, cleaned up after, and its exit code decides", "statement": "Running rsync executes the configured program with the configured arguments, the URL and the local path in place of $REMOTE and $LOCAL; it succeeds if and only if a run, preceded by no more failed runs than rsync.retry.count, exits with 0. However pipes, fork, poll, read, waitpid behave: descriptors are closed exactly once and none leaks; signals are only sent to own children that haven't been waited for; FORT never starts more than rsync.retry.count + 1 children. (Refuted: no zombies remain (EINTR in waitpid leaves one); a child that closes its streams properly isn't sent SIGTERM (EINTR in poll makes it be); the transfer timeout bounds the download (a child that closes its streams and lives on is waited for forever).)", "quantifier": "every configuration, every sequence of results of the system calls, every behaviour of the child", "why_tests_cant": "The child is an external program driven by an adversarial server, and each system call can fail or be interrupted at any point.", "anchors": ["src/rsync/rsync.c: rsync_download, prepare_rsync, create_pipes, exhaust_read_fds, exhaust_pipes"]}
{"id": "C86", "title": "Directories are made and removed where they should be, and nowhere else", "statement": "Making the directories of a path leaves every existing entry unchanged and only adds empty directories above that path, whatever fails; if it succeeds the directory is there; it succeeds if nothing fails and no file is in the way. Withdrawing a file removes that file and exactly those directories between the local repository and it that become empty, nothing else, whatever fails; publishing a new file and then withdrawing it leaves the file system as it was. (Refuted: success means the directory is there (a file in the way is taken for it); the repository itself is never removed (it is if its configured path ends in a slash and it becomes empty).)", "quantifier": "every file system, path and result of the system calls", "why_tests_cant": "Any remote repository chooses the paths; the file system can hold anything and each call can fail.", "anchors": ["src/common.c: mkdir_p, create_dir, dir_exists, delete_dir_recursive_bottom_up", "src/rrdp.c: write_file, delete_file"]}
{"id": "C87", "title": "The process ends with a meaningful status and an orderly shutdown; the server outlives failed validations", "statement": "The exit status is in 0-125, 0 if and only if there was no error, and the errno when that is in 1-125; it is 0 if and only if every module started and the only validation of a standalone run succeeded (or the file was printed). Modules start in order and, when the process ends, those that hold something have been cleaned up once, in the opposite order, after everything else. Once the first validation has succeeded, the server goes on whatever later validations fail, always serves the data of the last that succeeded, and notifies the routers once for each change, with its serial. (Refuted: the RTR threads are stopped before the data they read is destroyed: not if the first validation fails.)", "quantifier": "every result of every module's initialisation and of every validation cycle, in any number", "why_tests_cant": "Start-up failures, failing cycles and their order can't be enumerated; the server is meant to run forever.", "anchors": ["src/main.c: main, fort_standalone, fort_server, convert_to_result", "src/rtr/db/vrps.c: vrps_update"]}
{"id": "C88", "title": "Incidences lead to what the configuration says", "statement": "Without configuration, each incidence leads to the action the documentation says. A configuration of incidences is accepted if and only if it is an array whose elements each name a documented incidence and a documented action; then each incidence leads to the last action said of it, or else its default; and an error of that kind fails the object's validation if and only if the action is 'error'.", "quantifier": "every JSON value", "why_tests_cant": "Arbitrary arrays, with repetitions and any mix of types.", "anchors": ["src/incidence/incidence.c: incidence_init, incidence_update, init_action, name2id, incidence_get_action", "src/log.c: incidence", "docs/incidence.md"]}
{"id": "C89", "title": "Ghostbusters records are checked without misusing memory", "statement": "Whatever bytes a Ghostbusters record carries, checking it never reads or writes outside its buffers nor uses uninitialised memory; and it's accepted if and only if it consists of CRLF-terminated lines (unfolded) BEGIN:VCARD, VERSION:4.0, one or more FN, ORG, ADR, TEL, EMAIL lines of which at least one FN: and one other, END:VCARD and nothing more, in either case. (Refuted: every vCard that RFC 6493 allows is accepted: TEL: and ADR: without parameters aren't.)", "quantifier": "every sequence of bytes", "why_tests_cant": "Lines, folds, lengths and reallocations are unbounded and chosen by the remote repository.", "anchors": ["src/object/vcard.c: handle_ghostbusters_vcard, line_next, analyze_pos, add_chara, line_validate, line_starts_with", "src/object/ghostbusters.c: handle_vcard"]}
{"id": "C90", "title": "What routers are told is what the published objects and the local SLURM files authorise", "statement": "Whatever the validation cycles of a process meet, at every moment the data it serves is that of one cycle (every later one failed, or found the same data); each VRP of it is authorised by a valid path of certificates, manifests, CRLs and a ROA from one of that cycle's TALs and isn't matched by a filter of the SLURM files in force, or is asserted by these; its router keys are exactly the asserted ones; all that is asserted is there; and routers end with exactly that data after a Reset Query, or a Serial Query about any recent data. If what the cycle met doesn't change meanwhile, then nothing is missing: every VRP of the tree of the first of each TAL's URIs that works is there unless filtered.", "quantifier": "every history of cycles: TALs, trees of files changing at any moment, downloads, SLURM files; every serial a router may have", "why_tests_cant": "It's the composition of everything: a unit test sees neither arbitrary trees of bytes nor arbitrary histories.", "anchors": ["src/rtr/db/vrps.c: __vrps_update, vrps_update", "src/object/tal.c: perform_standalone_validation, do_file_validation, handle_tal_uri", "src/slurm/slurm_loader.c: slurm_apply, update_slurm", "src/rtr/pdu_handler.c: handle_reset_query_pdu, handle_serial_query_pdu"]}
{"id": "C91", "title": "The configuration is what the command line and the configuration file ask for", "statement": "However the options are written (full, abbreviated, short, joined to their value or not, mixed with operands) and whatever the file contains, if Fort starts then each value the program reads is what the last mention of its option said, in the command line or in the file at that point of it, or else its documented default; numbers are within their documented ranges, the expire interval is at least refresh and retry, the TAL (and the SLURM) exist; neither protocol is used offline; a daemon only logs to syslog; each incidence leads to the last action said of it. All such requests are served; --help and the like, and --init-tals, end the program with the right status; anything else is refused with an error, without starting.", "quantifier": "all command lines, all JSON files and file system contents", "why_tests_cant": "The space of option spellings, orders and JSON documents is infinite; tests try a few.", "anchors": ["src/config.c: handle_flags_config, handle_opt, validate_config, set_default_values, construct_getopt_options, options", "src/json_handler.c: set_config_from_file, json_to_config, find_json", "src/config/str.c, src/config/uint.c, src/config/boolean.c, src/config/string_array.c, src/config/mode.c, src/config/log_conf.c, src/config/work_offline.c, src/config/incidences.c: parse functions"]}
{"id": "C92", "title": "The RTR server listens exactly where it is told to", "statement": "If the RTR server starts, it listens (non-blocking, with the configured backlog) on every address that each element of server.address resolves to, at the port written after its last '#' or else server.port (with no elements: at the wildcard addresses), and on no other; and these are the sockets it polls. If an element has an empty port or does not resolve, or a system call fails at any point, it does not start and leaves no socket open. It starts if everything resolves and the system allows it.", "quantifier": "all lists of addresses, resolver answers and failures of any system call", "why_tests_cant": "The failing call can be any of those made for any of the addresses; tests can't make each fail.", "anchors": ["src/rtr/rtr.c: rtr_start, init_server_fds, init_server_fd, create_server_socket, set_nonblock, parse_address, destroy_db", "src/config/string_array.c: string_array_parse_argv"]}
{"id": "C93", "title": "Fort keeps the cache it made and never uses that of another version", "statement": "Whatever versions of Fort used the cache directory before, and at whichever point each of their cycles was interrupted, once a cycle has set the cache up all the files in it were written by the running version; if cache.json mentions this version nothing that was there changes, otherwise everything in the directory is deleted and nothing outside it; setting up succeeds and leaves the temporary directory if nothing fails; a finished cycle leaves a cache.json that mentions its version. Temporary file names are distinct for up to 2^32 requests by any threads.", "quantifier": "all histories of cycles of all versions, with interruptions at every file system operation and failures of them, and all directory contents", "why_tests_cant": "Each crash point of each cycle in a history of several versions is a different disk state; tests can't produce them.", "anchors": ["src/cache/local_cache.c: cache_setup, init_cache_metafile, init_tmp_dir, init_cachedir_tag, cache_teardown, write_simple_file, cache_tmpfile", "src/file.c: file_rm_rf, rm, file_exists", "src/common.c: mkdir_p"]}
{"id": "C94", "title": "The data can be updated while routers are being answered", "statement": "However the updating thread, any number of threads that answer routers, and the routers interleave: no thread uses a table or a group of deltas that has been freed, nothing is freed twice and nothing is lost; each answer (the whole table, the deltas and the serial they lead to, the serial alone, the statistics in the log) comes from what one update left, the last published one at that moment, never from a mixture; the number of groups of deltas kept never exceeds deltas.lifetime; and as long as no router stops reading, what the updater has found can be published and whoever asks can get the answer.", "quantifier": "all interleavings of the updater and any number of answering threads at the granularity of accesses to shared memory and the lock, all behaviours of routers, all lifetimes >= 1", "why_tests_cant": "Races and deadlocks depend on the schedule; tests only see those the scheduler happens to produce.", "anchors": ["src/rtr/db/vrps.c: __vrps_update, vrps_update, vrps_foreach_base, vrps_foreach_delta_since, get_last_serial_number", "src/rtr/db/deltas_array.c: darray_add", "src/common.c: rwlock_read_lock, rwlock_write_lock, rwlock_unlock", "src/rtr/pdu_sender.c: send_response"]}
{"id": "C95", "title": "Validating a tree neither leaks nor reuses memory", "statement": "Whatever the files of a trust anchor's tree contain, and wherever validation gives up: no URI, publication point, certificate, CRL, decoded object or set of resources is used, referenced or released once it's been freed (nor is a pr_crit() reached because some extension or CRL is missing), and when the validation of the trust anchor ends everything it allocated has been freed and everything else has exactly as many references as before.", "quantifier": "all sequences of outcomes of every check, decoder and download (hence all trees, of any depth and size, and all points of failure), all depth limits, and every moment of the traversal", "why_tests_cant": "The reference counts have to balance on every one of the combinations of early exits; tests and leak checkers see only those that their files produce.", "anchors": ["src/rpp.c: rpp_refget, rpp_refput, rpp_crl, rpp_traverse", "src/cert_stack.c: deferstack_push, deferstack_pop, x509stack_push, x509stack_cancel, certstack_destroy", "src/certificate_refs.c: refs_cleanup, refs_validate_ca, refs_validate_ee", "src/object/certificate.c: certificate_traverse", "src/object/manifest.c: handle_manifest, build_rpp, cage", "src/object/roa.c: roa_traverse", "src/object/ghostbusters.c: ghostbusters_traverse", "src/object/tal.c: handle_tal_uri", "src/types/uri.c: uri_refget, uri_refput"]}
{"id": "C96", "title": "What RRDP publishes is what gets written", "statement": "The text of an RRDP snapshot's or delta's <publish> element may have white space anywhere (RFC 8182, XML Schema's base64Binary): whatever the layout, what's stored is the object whose base64 the other characters are, whole, however libcrypto splits its reads; a blank text, or one that libcrypto can't decode, is refused. No byte out of the buffers involved is read or written, whatever the text and the decoder's answers.", "quantifier": "all texts (of any length, with any white space), all objects, all decoders that are right on lines of at most 80 characters, all schedules of partial reads and all failures of libcrypto", "why_tests_cant": "The sizes of two buffers depend on where the text's lines happen to be cut; tests have a few texts with regular lines.", "anchors": ["src/rrdp.c: ltrim, base64_sanitize, base64_read", "src/crypto/base64.c: base64_decode"]}
{"id": "C97", "title": "Printing finds out what a file is without losing any of it", "statement": "--mode=print without --file-type tells certificates, CRLs and signed objects apart by their first 32 octets: whatever their sizes, a SEQUENCE with an OBJECT IDENTIFIER is given to the signed objects' parser, one with a SEQUENCE whose second element is an INTEGER to the certificates', and if it's a SEQUENCE, to the CRLs'; anything else is refused. The parser then reads the whole file, from its beginning, whatever the sizes of its reads and those that the file or pipe gives. No octet out of the 32 is looked at.", "quantifier": "all files, all encodings of the lengths, all parsers (seen as programs that read), all schedules of partial reads and failures, all contents of uninitialised memory", "why_tests_cant": "There's an unbounded number of ways of reading a file in pieces, and what an uninitialised or overrun buffer has changes from run to run.", "anchors": ["src/print_file.c: skip_sequence, skip_integer, guess_file_type, bio2ci, __print_file, print_file", "src/types/bio_seq.c: bioseq_read, BIO_new_seq", "src/asn1/asn1c/ber_tlv_length.c: ber_fetch_length"]}
{"id": "C98", "title": "Log messages come out whole, in the place and with the severity that were asked for", "statement": "With the operation and validation logs configured in any way, each message of the API goes, if its log is enabled and the message is at least as severe as the log's level, to that log's output and nowhere else: to syslog as one record with the log's facility, or to the console as one line (to the standard error if it's a warning or an error) with its date, severity, tag and the file that its thread was working on. However many threads log, and wherever the process is stopped, what's come out is whole messages, each thread's in its order, and at most the beginning of one more; what isn't being written isn't in a buffer either. Logging never deadlocks, and what the caller does next (its returned value) never depends on the logs' configuration.", "quantifier": "all configurations of the two logs, all sets of threads and sequences of calls, all interleavings of their steps (and of stdio's flushes), all crash points; all sequences of pushes and pops of file names; all outputs of rsync", "why_tests_cant": "Interleavings of several threads' prints can't be enumerated, and a race on a shared buffer rarely shows in a test.", "anchors": ["src/log.c: log_setup, log_start, log_disable_syslog, __vfprintf, __syslog, PR_SIMPLE, print_stack_trace, crypto_err, enomem_panic, pr_crit, incidence", "src/thread_var.c: fnstack_init, fnstack_push, fnstack_peek, fnstack_pop", "src/rsync/rsync.c: log_buffer"]}
{"id": "C99", "title": "Print mode shows a signed object's contents as they are", "statement": "Print mode's JSON of a signed object has, at content.encapContentInfo.eContent, the ROA or manifest that the object's bytes encode: the integers' values, each IPv4 and IPv6 prefix as an address in text and a length which denote the same prefix, the files' names as they are and their hashes in hexadecimal, the dates' fields; a ghostbusters record as its text; anything else as its bytes in hexadecimal. What can't be shown (an integer of more than 64 bits, a text which isn't UTF-8, a date or prefix which isn't one) prevents the printing; nothing is shown wrong. Printing never crashes, whatever the bytes of the file.", "quantifier": "all ROAs, manifests and signed objects (any number of blocks, addresses, files; any values; any trailing bytes), all byte strings", "why_tests_cant": "A test compares the JSON of a few objects; a wrong digit, prefix or crash can depend on any value of any field of the input.", "anchors": ["src/asn1/asn1c/json_encoder.c: json_encode, ber2json", "src/asn1/asn1c/ROAIPAddressFamily.c: prefix4_to_json, prefix6_to_json, AddrBlock2json, ROAIPAddressFamily_encode_json", "src/asn1/asn1c/INTEGER.c: INTEGER_encode_json, asn_INTEGER2imax", "src/asn1/asn1c/OCTET_STRING.c: OCTET_STRING_encode_json, OCTET_STRING_encode_json_utf8, OCTET_STRING_to_json", "src/asn1/asn1c/GeneralizedTime.c: GeneralizedTime_encode_json, asn_tm2str", "src/asn1/asn1c/UTCTime.c: UTCTime_encode_json, asn_UT2time", "src/asn1/asn1c/constr_SEQUENCE.c: SEQUENCE_encode_json", "src/asn1/asn1c/constr_SET_OF.c: SET_OF_encode_json", "src/asn1/asn1c/constr_CHOICE.c: CHOICE_encode_json", "src/asn1/asn1c/EncapsulatedContentInfo.c: EncapsulatedContentInfo_encode_json", "src/asn1/asn1c/ContentInfo.c: ContentInfo_encode_json", "src/asn1/asn1c/CMSAttribute.c: CMSAttribute_encode_json", "src/json_util.c: json_object_add, json_array_add"]}
{"id": "C100", "title": "What is loaded and hashed is what the file has", "statement": "A file that is loaded yields exactly as many bytes as it had when it was opened, each of which it had at that place at some time during the call; if nobody modifies those bytes meanwhile (others may append), the result is exactly them, and a file that shrinks is an error. The digest of a file is that of all of its bytes, however the kernel splits them and whatever the size of the blocks they are read in. The check of a manifest's file is 0 only if the file has a digest which is the manifest's, unless the user tolerates that incidence, and positive only if the file is missing (or forbidden) and the user tolerates that. What was checked is what is loaded afterwards, if nobody changes the file in between. Files are closed and buffers freed whatever happens.", "quantifier": "all contents and histories of the file while it's read, all splits of the read()s, block sizes, errors of the kernel and of libcrypto, configured incidences", "why_tests_cant": "A test reads files nobody is writing, in one block; short reads, I/O errors and concurrent writers need particular schedules.", "anchors": ["src/file.c: file_open, file_load", "src/crypto/hash.c: hash_local_file, hash_matches, hash_validate_mft_file, hash_validate_file, hash_buffer, hash_validate"]}
{"id": "C101", "title": "Certificates are checked against their issuer's CRL, also when it's stale", "statement": "A certificate that isn't a trust anchor is accepted only if libcrypto finds nothing wrong with its path other than critical extensions it doesn't know, and the CRL of the publication point is its issuer's, is genuine, has begun, doesn't list the certificate's serial number, and hasn't expired unless the user tolerates stale CRLs; a tolerated CRL revokes all the same. If nothing fails, those certificates are accepted. Any number of certificates may be validated with the same CRL: each validation leaves it as it was and releases what it allocated, whatever fails, and a CRL that's lost makes certificates be rejected, not accepted.", "quantifier": "all certificates, CRLs (dates, serials), moments, sequences of validations of a publication point, failures of libcrypto and the clock", "why_tests_cant": "A test has a few CRLs and no allocation failures; a CRL stack that's left wrong shows only in the certificates that are validated afterwards.", "anchors": ["src/object/certificate.c: certificate_validate_chain, verify_cert_crl_stale, update_crl_time, complain_crl_stale", "src/state.c: cb, validation_prepare"]}
{"id": "C102", "title": "Print mode shows certificates and CRLs as they are", "statement": "In --mode=print, a certificate (also one inside a signed object) or a CRL is shown as a JSON tree that has each of its fields under its own name, with its own value: version, serial number of any size (no two are shown alike), algorithms, names, dates, public key, unique identifiers, each extension in order with its identifier, its criticality and its decoded value (key usages bit by bit, URIs, policies, IP prefixes as address/length, AS numbers), the bytes of the extensions that aren't known, the signature; in a CRL, each revoked certificate. Otherwise nothing is shown, because a field can't be; the program doesn't crash.", "quantifier": "all certificates and CRLs libcrypto decodes, all tables of objects", "why_tests_cant": "Tests print a few certificates; the extensions, the families, the sizes of integers and identifiers and the failures combine without bound.", "anchors": ["src/libcrypto_util.c: oid2json, asn1int2json, asn1str2json, asn1time2json, name2json, gn2json, gns2json, pubkey2json, ext2json, exts2json", "src/extension.c: bc2json, ski2json, aki2json, ku2json, cdp2json, aia2json, cp2json, ir2json, ar2json, cn2json, eku2json, ext_metadatas", "src/asn1/asn1c/Certificate.c: x509_to_json, tbsCert2json", "src/asn1/asn1c/CRL.c: crl2json, tbsCertList2json, revokedCerts2json"]}
{"id": "C103", "title": "--daemon leaves exactly one process, detached from the user's session", "statement": "With --daemon the process the user started ends, and exactly one process goes on: it has no terminal and can't get one, its parent is init, it has none of the user's descriptors, SIGHUP doesn't end it, it's in the same directory, its umask is 0 and its logs are configured. If it can't get that far nothing goes on, and the user is told by the exit status. What it logs from then on gets to the log, and only there, whatever files and sockets it opens and closes.", "quantifier": "all processes, failures of each system call, limits of descriptors, histories of opened, closed descriptors and log messages", "why_tests_cant": "Failures of fork(), setsid() and chdir() can't be provoked in a unit test; whether a log message is sent to a socket depends on which descriptors were opened before it.", "anchors": ["src/daemon.c: daemonize", "src/config.c: handle_flags_config", "src/log.c: log_start, log_setup"]}
{"id": "C104", "title": "--init-tals downloads exactly the TALs asked for, and its exit status tells whether it could", "statement": "With --init-tals and/or --init-as0-tals, the TALs of the five registries and/or the two AS0 TALs are downloaded to the --tal directory under their own names, and the process ends. The status is 0 if and only if all of them were downloaded; the user reads a message per TAL, which says where it is or why not; no other file changes, whatever the servers answer. A TAL that can't be downloaded leaves the one there is alone, and doesn't stop the others.", "quantifier": "all directories and files in them, answers of the servers, failures of the disk, lengths of paths, and points at which the process dies", "why_tests_cant": "The function needs seven servers on the internet; there is no unit test of it.", "anchors": ["src/init.c: download_tals, download_tal0s, fetch_url", "src/http/http.c: http_direct_download, http_fetch", "src/config.c: handle_flags_config"]}
{"id": "C105", "title": "HTTP requests go to verified servers, with the date of the file, within the configured limits", "statement": "Whatever the configuration and the servers, no request is sent over HTTPS to a server that didn't prove its identity with a certificate of http.ca-path's CAs; at most http.max-redirs redirects are followed; all requests have the If-Modified-Since date of the file there is, and none if there's none. A document is only taken if connecting, transferring and the announced size stayed within http.connect-timeout, http.transfer-timeout, http.low-speed-* and http.max-file-size; one that can be had within the limits is taken. Documents are not taken from servers whose identity wasn't verified.", "quantifier": "all configurations, URLs, networks of servers, chains of redirects, durations and sizes", "why_tests_cant": "The options of a handle can't be read back from libcurl; unit tests don't use the network.", "anchors": ["src/http/http.c: http_easy_init, http_fetch, setopt_str, setopt_long", "src/config.c: options (http.*)"]}
{"id": "C106", "title": "The index's timestamps are UTC dates, and are read back", "statement": "Every time from 1970 until the end of the year 9999 is written as its UTC date and time of day in the Gregorian calendar, in the form YYYY-MM-DDThh:mm:ssZ, and read back as the same time; later times are refused, without overflowing the buffer; an index written with such times is read back as it was. Only timestamps of existing dates, in this form, are accepted.", "quantifier": "all times, all dates of the years 0 to 9999, all indexes", "why_tests_cant": "The calendar has too many days: leap years, centuries and 400-year cycles, and two days around the end of the range.", "anchors": ["src/json_util.c: str2tt, tt2str, json_add_ts, json_get_ts", "src/cache/local_cache.c: node2json, json2node"]}
{"id": "C107", "title": "The configuration shown is the one in use", "statement": "When the program starts it shows (to whom asks for log level info) its version and every option, in the order of the manual, each with the value in use: the text one would say in the command line to get it, (null) when there's none, one line for each string of a list, and each kind of incidence with its action.", "quantifier": "all command lines and configuration files with which the program starts", "why_tests_cant": "It depends on every option, each with its type and its words, from files and command line; tests only look at a few of the values.", "anchors": ["src/config.c: print_config, is_rpki_config_field", "src/config/*.c: string_print, print_bool, print_uint, print_mode, print_log_level, print_log_output, print_log_facility, print_filename_format, print_output_format, print_file_type, string_array_print, incidences_print", "src/incidence/incidence.c: action2str, incidence_print"]}
{"id": "C108", "title": "The receive buffer is a queue, within its memory", "statement": "Whatever a client's socket gives, in whatever pieces, and whatever is taken of the buffer in between, receiving never touches memory outside of the client's 1024-byte buffer, however often what is left is moved to its beginning; the bytes are taken in the order in which they came, and none is lost, repeated or altered; receiving stops when the socket has nothing more, ended or failed, or 1024 bytes are held, and says which.", "quantifier": "all sequences of what read() gives, all interleavings of receiving and taking, all contents of the fresh memory", "why_tests_cant": "The places where the buffer wraps depend on the lengths of all messages and fragments before; tests send whole messages.", "anchors": ["src/rtr/pdu_stream.c: update_buffer, get_length, pdustream_create"]}
{"id": "C109", "title": "A TAL's key is what its base64 says", "statement": "Of a file made of comments, URIs, an empty line and the base64 of a key, on lines of any length and with any white space, the URIs and the key are read, the key whole and unaltered; any other file is refused, or its key is what the decoder makes of the characters after the empty line; no memory is overrun, even if the file's size changes while it's read.", "quantifier": "all files, all keys, all layouts of the base64, all decoders which take base64 of lines of 80 characters, all ways in which they give their result in pieces", "why_tests_cant": "The re-wrapping depends on where each line feed is, modulo 65; the sizes of the memory are estimates that must hold for every layout.", "anchors": ["src/object/tal.c: read_spki, get_spki_alloc_size, get_spki_orig_size, base64_sanitize, tal_init", "src/crypto/base64.c: base64_decode"]}
{"id": "C110", "title": "Cached files are kept for seven days", "statement": "Whenever the cleanup runs, and whatever the time zone, also when summer time begins or ends in between: what was last downloaded or tried seven times 24 hours ago, or earlier, is forgotten, and what was tried later stays in the index, with its files (as long as their paths aren't inside those of others).", "quantifier": "all times from 1970-01-09 to the year 9999, all time zones with a winter and a summer time, all caches and file systems", "why_tests_cant": "The week is computed by subtracting from the day of the month of a local date; tests run today, in one zone.", "anchors": ["src/cache/local_cache.c: get_days_ago, cache_cleanup, cleanup_node, is_node_fresh"]}
