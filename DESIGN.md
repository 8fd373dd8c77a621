# Formal model of FORT-validator in Coq 8.16 — design

## 1. Approach

The C code in /repo/src is modelled function by function as total, computable
Gallina functions.  Conventions:

* machine words: Coq `Z`, with wrap-around written explicitly (`wrap32`), only
  where the C type can wrap; bytes are `Z` in 0..255, strings `list Z`;
* a function that mutates through a pointer returns the new value;
* C error codes are modelled by an `outcome`/`result` type; memory errors
  (out-of-bounds access, NULL dereference, division by zero) are a *distinct*
  outcome `UB`, never totalised away;
* loops become structural recursion or folds, or recursion on fuel whose
  exhaustion is a distinct outcome excluded by a theorem;
* libraries (OpenSSL, jansson, libxml2, curl, uthash, pthreads) and the OS are
  not modelled; where a modelled function depends on their answer, the answer
  is a universally quantified argument (an oracle: a function or a list of
  outcomes), so theorems hold for every behaviour of the library.
* concurrency is modelled by a small-step relation over threads whose atomic
  steps are the critical sections of the C code.

Layout of /verif/rocq/theories, per topic T: `T.v` (model; every definition
cites file:lines), `TSpec.v` (independent specification, when it is not a
couple of lines), `TProofs.v` (lemmas), `TProps.v` (only the property
theorems, each `exact`-ing a lemma, with `Print Assumptions` and non-vacuity
`Example`s).

## 2. Trusted base

* Coq 8.16.1's kernel (and its VM for `vm_compute`).
* `Print Assumptions` of each theorem: see section 5.
* The reading of the C code into Gallina (no extraction, no execution).
* The statements (spec files) themselves.

## 3. Plan per property

| id | model | proof |
|---|---|---|
| C01 | Serial.v: serial_lt on Z mod 2^32 | arithmetic (lia) |
| C02, C03 | DArray.v: ring buffer with slots, unsigned wrap, UB outcome | invariant by induction over additions; refutation for lifetime 0 |
| C04 | HashSet.v, DbTable.v: uthash tables as insertion-ordered duplicate-free lists; compute_deltas | set algebra |
| C05, C06, C07 | Vrps.v: state machine over validation outcomes | history invariant: ring = deltas between consecutive published bases; refutation of C07's corner |
| C08 | Vrps.v, PduHandler.v | arithmetic, invariance |
| C09, C10, C50, C51 | PduHandler.v, PduWire.v: handlers as output traces, with a client automaton as specification | refutations by witness; positive theorems for the parts that hold; composition |
| C11, C16 | PduWire.v encoders; RFC decoder as spec | byte lemmas |
| C12-C15 | PduStream.v: the receive loop over arbitrary read() results | induction over the buffer; refutations for short lengths and truncated error reports |
| C17-C19 | Address.v | bit-level arithmetic |
| C20 | SArray.v | binary-search invariant |
| C21, C52, C53 | Asn1.v (INTEGER), Resources.v | induction over chains |
| C22, C23 | Roa.v | induction over items; refutation for C23 |
| C24-C26, C54, C55 | Slurm.v, CLib.v (strtoul, strtok...) | list/set reasoning; refutation for checksum lists |
| C27-C30, C56 | PathBuilder.v (path builder and URIs) | induction on tokens; refutation for caged collisions |
| C31-C34 | Rrdp.v: file system as a map, with a crash point | permutation reasoning for the in-place sort; crash refutation |
| C35-C37, C57 | LocalCache.v: tree state machine; JSON save/load | invariants; refutations for clock steps and nested nodes |
| C38 | ThreadPool.v: small-step relation over threads | interleaving invariant |
| C39 | CertStack.v | induction on trees |
| C40-C42 | Manifest.v | permutation, list induction; refutation for the empty list |
| C43, C44, C58 | Tal.v | list induction |
| C45 | Vrps.v: handle_router_key | arithmetic |
| C46-C49 | CString.v, Text.v | induction on bytes |
| C59-C61 | Ber.v: tags, lengths, skipping; find_signedAttrs | inductive grammar of BER values, exactness in both directions |
| C62 | Oid.v | exactness in both directions |
| C63 | SignedData.v: RFC 6488 checks with the decoder, hash and certificate checks as oracles | exactness |
| C64, C65 | Asn1Dec.v (asn1c BER decoder), Asn1Types.v (the tables asn1c generated, as data) | inductive grammar of encodings; soundness, completeness, no fault, termination by induction on types |
| C66 | Asn1Check.v (constraint functions), Asn1Constraints.v (as data) | shape lemma + case analysis; refutation |
| C67 | Objects.v: the C structures as records, read out of decoded values | encoders written from the RFCs (ObjectsSpec.v), completeness of C64 in one direction, shape inversion in the other |
| C68 | RoaBytes.v: C64's decoder composed with Roa.v | composition of C67 and C22; refutation for negative numbers |
| C69 | CertBytes.v: C64's decoder composed with Resources.v | composition of C67 and C21/C53 |
| C70 | SignedObject.v: SignedData.v with C64's decoders for its oracles | the decoder's grammar and the search's grammar agree on where the attributes are (SignedObjectProofs2.v); composition of C61, C63, C67 |
| C71 | Extensions.v: the generic loop over extensions and handlers, every handler of the four profiles, certificate_refs.c | the loop is order-independent: a run relation over marked handlers (ExtensionsProofs2.v), per-callback soundness, completeness and frame (Proofs3), uniqueness of the record (Proofs4) |
| C72 | CertProfile.v: name.c, algorithm.c, certificate_validate_rfc6487() and its helpers, x509stack_store_serial() | case analysis of the checks; the loop over a name's attributes by induction |
| C73 | CertProfile.v: crl_validate() (with C71's extensions), rpp_crl() | composition with C71; induction over the sequence of requests |
| C74 | Tree.v: handle_tal_uri(), certificate_traverse(), handle_manifest(), roa_traverse(), rpp_traverse() made of the functions of C40, C53, C63-C73, in a `world` of files, clock, downloads and libcrypto that changes with time | invariant over the loop (stack of certificates = valid path; deferred certificates are published by the path; table = old + authorised), by composition of the modules' theorems |
| C75 | Tree.v | well-founded induction on the room left below the maximum depth, then on the deferred certificates |
| C76 | Tree.v, TreeCrash.v | the no-crash theorems of the modules (C63, C65-C73) composed along the loop's invariant; the two exceptions by running the model on small worlds |
| C77 | Tree.v, ResourcesSim.v, TreeAlone*.v | a simulation between the run over the tree and the run over one path: resources of the stacks equal up to heap positions, files of a publication point equal up to permutation; soundness and completeness by induction on the rounds of the loop |
| C78, C79 | Rtr*.v | the loops of fddb_poll over arbitrary answers of poll()/accept()/read(); descriptors as a multiset (Permutation) through each loop; induction on the history |
| C80, C81 | RtrRun*.v | interleavings of the poll thread's actions (Rtr.v), workers' writes and the rest of the process; ghost connection numbers; invariant: the descriptor of an unfinished task still belongs to the connection that asked |
| C82 | RtrNotify*.v | the array list in a heap of blocks (freed, uninitialised), one step per shared access of either thread; invariant at each program point |
| C83 | Ntop*.v, Output*.v, JsonProofs.v | printf-level model of the printers and of inet_ntop; independent readers (CSV, RFC 8259 grammar, RFC 4291 addresses, RFC 4648 base64url); round trip, unambiguity of the grammar by mutual induction, prefix-freeness; joined with C05's history model |
| C84 | Http*.v | write_callback, http_fetch, do_retries, http_download over a file map, with the trace of states as crash points; libcurl and system calls are oracles; induction on chunks and on retries |
| C85 | Rsync*.v | prepare_rsync, create_pipes, exhaust_read_fds, rsync_download over oracles for the system calls, with a log of opened/closed descriptors, forks, signals, waits; induction on the poll events and on the retries |
| C86 | Dirs*.v | a file system as a finite map from lists of names to Dir/File; stat, mkdir, rmdir, remove on it with path resolution and faults; mkdir_p, delete_dir_recursive_bottom_up, rrdp.c's write_file/delete_file; induction on the components of the path |
| C87 | Main*.v | main(), fort_server(), convert_to_result() over oracles for the modules, with a log of events, and Vrps.v's cycles; induction on the cycles |
| C88 | Incidence*.v | the table of incidences, incidence_update() on JSON values; induction on the array |
| C89 | VCard*.v | vcard.c with its growing buffer as memory that may be uninitialised; the grammar as an inductive relation; induction on the text and on the lines |
| C90 | Cycle*.v | a cycle as the composition of the modules (TAL threads, trees, SLURM, tables, PDUs); inductive histories of cycles; invariants over them that discharge the hypotheses of C05, C25, C26, C50, C74 and C77 |
| C91 | Config*.v | the option table, getopt_long(), the parsers, the file's traversal, validate_config(); the specification has the manual as a table and inductive relations between spellings and settings; soundness and completeness by induction on the arguments; the table against the manual by computation |
| C92 | Listen*.v | the sockets' creation against a system where any call can fail and descriptors are arbitrary; the addresses wanted are an inductive relation; invariant: open sockets = those before + one per address |
| C93 | CacheDir*.v | cache_setup() and cache_teardown() over C86's file systems, with the states they go through; histories are an inductive relation with a writer per path; invariant: if cache.json mentions a version, all files are that version's |
| C94 | VrpsLock*.v | the updater and any number of answering threads as an interleaving step relation over the shared data, a readers-writer lock and a heap of object identities; invariant: live and freed objects together are a permutation of all created ones, readers' views are the current data, and the ghost history of publications ends with the current data when nobody is writing |
| C95 | Refs*.v | the functions that allocate, reference and release during a traversal, as programs in a state monad over a heap of counted objects whose checks answer arbitrarily; a weakest-precondition calculus with the invariant that each count is the number of references held by the stacks, by live publication points and by the functions in progress; one lemma per function, framed by whatever its callers own |
| C96 | Publish*.v | ltrim(), base64_sanitize(), base64_read() and base64_decode()'s loop over blocks with bounds and unwritten bytes; induction over the pieces, with the block as what's been written plus what's left; composed with C33's publish_of |
| C97 | Print*.v | guess_file_type() over C59's length decoder: its answers characterised by the shapes of headers; the sequence BIO simulated by a plain one for every reading program (induction on the program); bio2ci() over an abstract restartable decoder |
| C98 | Log*.v | Calls compiled to steps (lock, print, flush, format into the static buffer, syslog, unlock); a small-step semantics of threads over them; invariant on who has the lock, what's been written and what's left, by induction on runs; the steps of every call shown to be critical sections that emit the specification's blocks |
| C99 | JsonEnc*.v | The JSON encoders over the decoder's values (a table of names per type, encoders of their own as functions), jansson's UTF-8 check; each shown to be sound and complete against a relation between values and JSON (text read back with C83's readers), composed with C64/C67's decoding of DER; no crash by an agreement relation between the encoders' tables and the decoder's types |
| C100 | FileIO*.v | stdio over arbitrary answers of read(), file_open/file_load and the hash functions with libcrypto's failures; the file as a function of time; invariant: delivered ++ buffered = what the reads got; termination by the bytes left |
| C101 | Chain*.v | certificate_validate_chain and the stale CRL's hack over libcrypto's list of checks and callback, with every failure as an argument; exact characterisation of result 0, invariant of the CRL stack (the CRL, or empty) over any sequence of calls |
| C102 | CertJson*.v | the JSON functions of libcrypto_util.c, extension.c, Certificate.c and CRL.c over records of libcrypto's structures; a specification of the tree with three combinators (fields, each, absent_or), outcome (shown exactly, or can't be) by composition; injectivity of the integers' text |
| C103 | Daemon*.v | daemonize() as a function from a process and the system's answers to the list of processes and their fates; glibc's syslog() over a table of descriptors, invariant of its connection over any history of operations |
| C104 | Init*.v | the calls of fetch_url() over the path builder of C29 and the fetch of C84; proved for a list of TALs by induction, then for the lists of the code |
| C105 | HttpOpts*.v | the calls of curl_easy_setopt() over a model of libcurl's handle; a transfer follows redirects over a network of servers, as a function of the handle; induction on the redirects |
| C106 | Calendar*.v | str2tt() and tt2str() over closed forms of gmtime_r() and timegm(), and models of strftime() and strptime(); the specification counts days, one after the other, from 1970-01-01; proved equal by computing the 400 years of a cycle and the days of a year, and shifting them |
| C107 | Shown*.v | print_config() with the printer of each type, over Config.v's state; the specification says what a line for each option of ConfigSpec's manual is, with the value's text one which the command line would read as that value; built on C91's proofs of what the settings mean |
| C108 | PduBuffer*.v | update_buffer() with its buffer, pointers as offsets, memmove() and read() which are UB outside of the buffer; the specification is a queue and what it's seen to do over any history; proved by induction on the history, and PduStream.v's update_buffer() is shown to be its abstraction |
| C109 | TalKey*.v | read_spki() made of Tal.v's base64_sanitize(), and Publish.v's base64_decode() with its memory; C43, C58 and C96's lemmas composed into one theorem of the whole file |
| C110 | Week*.v | get_days_ago() over Calendar.v's gmtime_r() and timegm() and a zone with two offsets; composed with C37's theorems of the cleanup |

OpenSSL-backed checks (signatures, X.509 extension decoding, CRL revocation),
XML/JSON parsing, HTTP/rsync transfer cannot be expressed in a model of this
repository's code: they live in libraries.  They enter as oracles.

## 4. What is modelled, and what is not

Modelled (by /repo/src file; each definition of the model cites its lines):

| file | modelled | left out |
|---|---|---|
| types/serial.c, types/address.c, types/vrp.c, types/router_key.c | comparison, prefix/range decoding, coverage, parsing | printing |
| rtr/db/deltas_array.c, rtr/db/delta.c, rtr/db/db_table.c, rtr/db/vrps.c | all that decides contents, serials and sessions | reference counts, allocation failure |
| rtr/pdu_stream.c, rtr/pdu_handler.c, rtr/pdu_sender.c, rtr/err_pdu.c, rtr/primitive_writer.c | the receive loop, negotiation, handlers, encoders, error reports | logging |
| resource.c, resource/*.c, sorted_array.c | all but printing | printing |
| asn1/decode.c, asn1/asn1c/{ber_decoder,ber_tlv_tag,ber_tlv_length,asn_codecs_prim,NULL,BOOLEAN,OCTET_STRING,constr_SEQUENCE,constr_SET_OF,constr_CHOICE,constraints,INTEGER,OBJECT_IDENTIFIER,GeneralizedTime}.c | BER decoding and constraint checks, the generated type tables (as data), integer and OID conversions, times | DER/XER/JSON encoders but the header serialisers, PER/OER, printing, restartable decoding |
| asn1/signed_data.c, asn1/content_info.c, asn1/oid.c, algorithm.c, object/signed_object.c | all checks | OpenSSL |
| object/roa.c, object/manifest.c, object/tal.c, line_file.c, rpp.c, cert_stack.c | traversal, validity, file lists, CRL slots, TAL grammar, deferred stack | ghostbusters' vCard, printing |
| object/certificate.c | resources, deferral, signature input (find_signedAttrs) | OpenSSL's decoding of extensions; see the oracles named in the definitions' comments |
| slurm/*.c | JSON shape checks, parsing, tables, checksums | jansson's tokeniser (JSON values are given) |
| cache/local_cache.c, types/uri.c, data_structure/path_builder.c | all decisions | rsync and HTTP transfer (oracles) |
| rrdp.c | notification, snapshot, delta handling over an abstract file system | libxml2 (element sequence given), curl |
| thread/thread_pool.c | small-step semantics of the pool | pthread failure other than thread creation |
| config/uint.c, config/string_array.c, str_token.c, crypto/base64.c, json_util.c, common.c, file.c, crypto/hash.c | the functions the above use | the rest of the configuration, process set-up, signal handling |

Simplifications that apply everywhere: allocation succeeds (the code aborts on
failure: src/alloc.c); log output is not an effect; locks are the atomic steps
of the concurrent models and absent from the sequential ones; files shorter
than 2^31 bytes.

## 5. Assumptions of the theorems

Every *Props.v file ends with `Print Assumptions` for each of its theorems.
All print "Closed under the global context": no axiom, neither ours nor the
standard library's, is used by any theorem.  (vcheck's list of axioms *loaded*
contains Coq.ssr.ssrunder.Under_rel.*, which the standard library's ZifyBool
brings in; no theorem depends on them.)

## 6. Refutations

Where the code does not have the property, the strongest part that holds is
proved with the suffix `_partial` and the full property is refuted on the
model with an explicit witness (`_refuted`); MANIFEST.json's note of the
property says what the witness is.  Each was found by failing to prove the
property, and re-checked against the C text before being written down.

## 7. Mutation testing

/verif/seeded/LOG.jsonl: one line per edited model (tools/mutate.py makes a
scratch copy, edits, rebuilds, and records the first theorem that fails).
