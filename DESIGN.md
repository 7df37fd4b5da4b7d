# Formal model of bgpkit-parser: design

The model is written in Rocq (Coq 8.16.1) under `rocq/theories`. The code in /repo is read as text; nothing of it is run.

## Conventions

* Bytes are `list N`; `bytes_ok l` says every element is below 256. Machine integers are `N` with explicit `mod 2^k` where Rust casts or wraps.
* Rust `Result` is `res A = Ok a | Err e | Panic`. `Panic` stands for any abort (slice out of range, arithmetic underflow in debug mode, `unwrap` on `None`, `unreachable!`).
* A function with `&mut Bytes` becomes `bytes -> res (A * bytes)`.
* Error strings are dropped; the error kind is kept because the iterators dispatch on it.
* Loops are structural recursion or recursion on fuel equal to the number of input bytes; running out of fuel is a separate error value proved unreachable.
* A byte source (`Read`) is the list of what it will do: deliver a piece, be interrupted, fail (`Stream.v`). Theorems over sources hold for every such list, so for every way the bytes are cut into pieces.
* `HashMap` is an association list; where the order of iteration shows, the theorem ranges over every permutation.
* `f64` is the standard library's `spec_float` (binary64), `f32` its bit pattern. Kernel floats and kernel integers are not used.
* `Asn` is its number: the flag that remembers the width does not take part in `PartialEq`.
* Strings are their UTF-8 octets (in `Dissect.v` Coq strings).

## File layout

* `X.v` holds model definitions only. Each definition carries the file and lines it models, and says where it simplifies.
* `XSpec.v` holds the small vocabulary in which properties are stated. It avoids the parsers and encoders of the model, except where a property compares two paths through the library.
* `XFacts.v` (and further files named there) hold the proofs.
* `PropX.v` holds the property theorems, named `Cnn_…`, each followed by `Print Assumptions`, with an `Example` that meets the hypotheses, and the findings `Cnn_…_refuted`.

## Trusted base

* The kernel of Coq 8.16.1, including its virtual machine (`vm_compute` is used for examples and finite sweeps). No plugin outside the standard distribution is loaded; nothing is extracted.
* No axiom, parameter, variable, admitted proof, functor or module type is declared in `theories/`.
* `Print Assumptions` says "Closed under the global context" for every theorem `C…` except these: `C69_time`, `C87_meaning`, `C87_records`, `C71_time`, `C96_per_peer`, `C95_bandwidths`, `C95_bandwidths_only`, `C95_loss`, `C95_loss_order`, `C90_times`, `C90_json`, `C90_psv`, `C83_elements`, `C83_near`, `C84_agree`, `C70_order`, `C70_back`, `C70_filter`. These go through Flocq, and `Print Assumptions` lists four axioms of the standard library for them: `ClassicalDedekindReals.sig_not_dec`, `ClassicalDedekindReals.sig_forall_dec`, `FunctionalExtensionality.functional_extensionality_dep`, `Classical_Prop.classic`.
* Loading Flocq and the standard library's `Reals` and `ssreflect` also brings opaque module constants that a checker may list (`Coq.Reals.Rdefinitions.RbaseSymbolsImpl.*`, `Coq.ssr.ssrunder.Under_rel.*`). No theorem depends on them as assumptions beyond the four above.
* That the model says what the Rust code does is not checked by machine. The citations in the comments are there to compare.
* Behaviour of crates the code calls is modelled where the code depends on it in detail (`bytes`, `num_enum`, UTF-8 checks, decimal numbers, the calendar of chrono, `Read` of the standard library), and is a universally quantified argument elsewhere (text forms of addresses and prefixes, regular expressions, the time formats of filters). Theorems with such arguments hold for any function in their place, or for any that meets the stated hypothesis.


## Per property: what is modelled and how it is proved

Model files are named without `.v`. For a model file `X` the specification vocabulary is in `XSpec.v`, the proofs in `XFacts.v` and further `X…Facts.v`. The theorem names are those of MANIFEST.json, with the file they are in.

* **C01 MRT framing is lossless.** Model: Stream, Framing. `chunk_mrt_record` over a source that delivers its bytes in arbitrary pieces, may be interrupted and may fail; induction on the source. Theorems (`PropFraming.v`): `C01_read_takes_raw_bytes`, `C01_records_partition_input`, `C01_reading_terminates`, `C01_delivery_irrelevant`, `C01_raw_bytes_replay`.
* **C02 Clean end of file is distinguished from truncation.** Model: Stream, Framing. Same reader; case analysis on what is left in the source. Theorems (`PropFraming.v`): `C02_clean_eof_iff_empty`, `C02_error_bytes_are_consumed_bytes`, `C02_truncation_is_an_error`.
* **C03 MRT common header codec.** Model: Framing. `parse_common_header`, `encode`; big-endian lemmas. Theorems (`PropFraming.v`): `C03_header_roundtrip`, `C03_header_parse_exact`, `C03_et_short_length_refused`, `C03_et_without_microseconds_refuted`.
* **C04 No input makes the parser panic.** Model: all codec files, MrtRecord. Every slice, advance, split, unwrap and checked subtraction that can panic in Rust is a partial primitive returning `Panic`. Result <> Panic for every byte string, layer by layer. Theorems (`PropMrtRecord.v`): `C04_no_panic`.
* **C05 Network prefix codec.** Model: Net. Addresses as N with a width; the specification masks bits. Theorems (`PropNet.v`): `C05_prefix_roundtrip`, `C05_prefix_roundtrip_canonical`, `C05_prefix_parse_exact`, `C05_prefix_length_refused`.
* **C06 NLRI list codec.** Model: Net. The list parser with the Add-Path guess as written. Theorems (`PropNet.v`): `C06_nlri_roundtrip`, `C06_nlri_parse_exact`, `C06_nlri_default_route_refuted`.
* **C07 AS_PATH wire codec.** Model: AsPath. Round trip by induction on segments. Theorems (`PropAsPath.v`): `C07_aspath_roundtrip`, `C07_aspath_encode_error_iff`.
* **C08 AS_PATH parser only accepts exact segment structure.** Model: AsPath. Parser characterised in both directions against an inductive wire grammar. Theorems (`PropAsPath.v`): `C08_aspath_parse_exact`, `C08_aspath_parse_total`.
* **C09 AS4_PATH reconciliation follows RFC 6793.** Model: AsPath. `merge_aspath_as4path`; `unreachable!` is `Panic`. Theorems (`PropAsPath.v`): `C09_as4_longer_is_ignored`, `C09_as4_merge_hops`, `C09_leading_confed_kept_refuted`, `C09_merged_path_encodes_refuted`.
* **C10 Coalescing AS paths.** Model: AsPath. Coalescing against the flattened sequence. Theorems (`PropAsPath.v`): `C10_coalesce_lossless`, `C10_coalesce_minimal`, `C10_coalesce_idempotent`, `C10_vector_loop_is_fold`.
* **C11 Prepend-insensitive AS path normalisation.** Model: AsPath. Prepend-insensitive normal form against a declarative one. Theorems (`PropAsPath.v`): `C11_dedup_coalesce_members`, `C11_dedup_coalesce_idempotent`, `C11_vector_loop_is_fold`, `C11_equivalent_routing_equivalence`, `C11_equivalent_routing_ignores`, `C11_equivalent_routing_same_members`, `C11_dedup_coalesce_units`, `C11_equivalent_routing_exact`, `C11_no_steps_refuted`.
* **C12 AS path equality treats sets as unordered.** Model: AsPath. Equality and hashing against `Permutation` of the sets. Theorems (`PropAsPath.v`): `C12_path_equality`, `C12_path_equality_equivalence`, `C12_equal_paths_hash_equal`.
* **C13 Route enumeration of an AS path is complete.** Model: AsPath. Mixed-radix enumeration against the cartesian product. Theorems (`PropAsPath.v`): `C13_routes_are_all_choices`, `C13_routes_defined`, `C13_variation_count_overflow_refuted`, `C13_empty_set_has_no_route_refuted`.
* **C14 Path attribute framing.** Model: Attr. Framing (flags, extended length) and all value codecs; round trip. Theorems (`PropAttr.v`): `C14_attributes_roundtrip`, `C14_attribute_encode`, `C14_attribute_too_large`, `C14_two_octet_as`, `C14_default_flags`.
* **C15 Malformed attributes never abort attribute parsing.** Model: Attr. Exact result for every block of bytes: attributes, warnings, presence bits. Theorems (`PropAttr.v`): `C15_every_block`, `C15_block_reported`, `C15_undecodable_warned`, `C15_refused_iff`, `C15_no_panic`, `C15_header_end_refuted`, `C15_cut_attribute_refuted`.
* **C16 Mandatory-attribute warnings are exact.** Model: Attr. Exact set of the missing mandatory attributes. Theorems (`PropAttr.v`): `C16_missing_exact`, `C16_parsed_missing`.
* **C17 Unknown and raw attributes survive re-encoding byte for byte.** Model: Attr. Byte-for-byte re-encoding of raw values. Theorems (`PropAttr.v`): `C17_raw_reencoded`, `C17_block_reencoded`, `C17_long_origin_refuted`.
* **C18 BGP message framing.** Model: BgpMsg. Acceptance characterised for every byte string. Theorems (`PropMsg.v`): `C18_framing_exact`, `C18_suffix`, `C18_no_panic`, `C18_length_beyond_data_refuted`, `C18_marker_refuted`.
* **C19 BGP message codec.** Model: BgpMsg. Round trip of all five message kinds. Theorems (`PropMsg.v`): `C19_encode_exact`, `C19_roundtrip`, `C19_update_encode`, `C19_refresh_exact`, `C19_notification_exact`, `C19_large_open_refuted`.
* **C20 OPEN optional parameters codec including RFC 9072.** Model: BgpMsg, Cap. Both layouts of the optional parameters. Theorems (`PropMsg.v`): `C20_encode_exact`, `C20_roundtrip`, `C20_parse_exact`, `C20_no_panic`, `C20_asn_truncated_refuted`, `C20_length_ignored_refuted`.
* **C21 NOTIFICATION error codes are preserved.** Model: BgpError. All pairs of octets by kernel computation over the finite domain. Theorems (`PropMsg.v`): `C21_codes_preserved`, `C21_notification`, `C21_deprecated`.
* **C22 End-of-RIB detection.** Model: BgpMsg. Characterisation of the messages that count as End-of-RIB. Theorems (`PropMsg.v`): `C22_exact`, `C22_markers`, `C22_wire`, `C22_malformed_refuted`, `C22_link_state_refuted`.
* **C23 BGP4MP message record codec.** Model: Bgp4mp. Round trip, exact encoder, exact parser. Theorems (`PropBgp4mp.v`): `C23_roundtrip`, `C23_encode_exact`, `C23_parse_exact`, `C23_zebra_distinct`, `C23_unknown_subtype`, `C23_no_panic`, `C23_asn_truncated_refuted`, `C23_mixed_families_refuted`, `C23_trailing_refuted`.
* **C24 BGP4MP state-change record codec.** Model: Bgp4mp. Same, with the Zebra state numbering. Theorems (`PropBgp4mp.v`): `C24_roundtrip`, `C24_parse_exact`, `C24_states`, `C24_zebra_exact`, `C24_normal_longer`, `C24_trailing_refuted`.
* **C25 Deprecated MRT type-5 record codec.** Model: Bgp4mp. Same, for the type-5 records. Theorems (`PropBgp4mp.v`): `C25_roundtrip`, `C25_encode_exact`, `C25_parse_exact`, `C25_trailing`, `C25_no_panic`.
* **C26 Peer index table codec.** Model: TableDump, Utf8. Round trip and exact parser; HashMap as association list, every iteration order. Theorems (`PropTableDump.v`): `C26_roundtrip`, `C26_parsed`, `C26_accepted`, `C26_encode_exact`, `C26_no_panic`, `C26_utf8`, `C26_name_dropped_refuted`, `C26_renumbered_refuted`, `C26_type_mismatch_refuted`.
* **C27 Peer registration is stable.** Model: TableDump. `add_peer` as a step function, invariant over all histories. Theorems (`PropTableDump.v`): `C27_history`, `C27_step`, `C27_parsed_table_refuted`.
* **C28 RIB entry record codec.** Model: TableDump. Round trip and exact parser of RIB entries, generic included. Theorems (`PropTableDump.v`): `C28_roundtrip`, `C28_parse_exact`, `C28_encode_exact`, `C28_no_panic`, `C28_fewer_entries_refuted`, `C28_path_id_missing_refuted`, `C28_prefix_path_id_refuted`, `C28_subtypes`.
* **C29 Elements of an UPDATE.** Model: Elem. Elements determined uniquely by a relation on the message. Theorems (`PropElem.v`): `C29_update_elems`, `C29_determined`, `C29_iterator`, `C29_defaults_refuted`, `C29_labeled_refuted`, `C29_second_reach_refuted`, `C29_as4_aggregator_refuted`.
* **C30 Elements of a RIB record.** Model: Elem. Elements of RIB records through a peer table. Theorems (`PropElem.v`, `PropFused.v`): `C30_rib_elems`, `C30_determined`, `C30_no_table`, `C30_unknown_peer`, `C30_known_after_unknown_refuted`, `C30_size_hint_refuted`, `C30_path_id_refuted`, `C30_stays_ended`.
* **C31 Filters combine by conjunction and negation.** Model: Filter. `match_filter` against a Prop semantics `holds`. Theorems (`PropFilter.v`): `C31_filter_meaning`, `C31_conjunction`, `C31_order`, `C31_negation`, `C31_multi`, `C31_route_agrees`, `C31_route_closed`, `C31_double_negation_refuted`.
* **C32 Prefix filter semantics.** Model: Filter. Range comparison against inclusion of address sets. Theorems (`PropFilter.v`): `C32_prefix_filter`, `C32_contains`, `C32_families`, `C32_host_bits_refuted`.
* **C33 Element iteration with filters equals filtering afterwards.** Model: Iter. Iterators as state machines over a source; filtered run = filter of the unfiltered run. Theorems (`PropIter.v`): `C33_filtered_elems`, `C33_filtered_records`, `C33_filtered_fallible`, `C33_elems_of_records`.
* **C34 Fallible and default iterators agree.** Model: Iter, Route. Default and fallible iterators compared on every source. Theorems (`PropIter.v`, `PropRoute.v`): `C34_records`, `C34_elems`, `C34_no_errors`, `C34_reads`, `C34_short_body_refuted`.
* **C35 Lightweight route iteration agrees with element iteration.** Model: Route. Route iteration compared with element iteration, record by record and over sources. Theorems (`PropRoute.v`): `C35_record`, `C35_stream`, `C35_refused_table`, `C35_unknown_peer_refuted`, `C35_dump_as4_refuted`, `C35_nlri_refuted`, `C35_dump_cut_refuted`, `C35_text_refuted`.
* **C36 Recovery accounts for every byte.** Model: Recovery. Window reader and scanner on every source; the reported ranges tile the input. Theorems (`PropRecovery.v`): `C36_records`, `C36_elems`, `C36_filtered`, `C36_text_dump`.
* **C37 Recovery is invisible on undamaged streams.** Model: Recovery. No gap on a concatenation of framed records that parse. Theorems (`PropRecovery.v`): `C37_records`, `C37_elems`.
* **C38 MPLS label stack and labeled prefix codec.** Model: Mpls. Round trips and exact parsers of label stacks. Theorems (`PropMpls.v`): `C38_labeled_roundtrip`, `C38_labeled_wire`, `C38_deep_stack_refused`, `C38_accepted`, `C38_withdrawal_roundtrip`, `C38_withdrawal_wire`, `C38_no_panic`, `C38_missing_path_id_refuted`, `C38_config`.
* **C39 FlowSpec NLRI codec.** Model: FlowSpec. Round trips and exact parsers of rules and operators. Theorems (`PropFlowSpec.v`): `C39_roundtrip`, `C39_wire`, `C39_too_long_refused`, `C39_disorder_refused`, `C39_accepted`, `C39_reencode`, `C39_constructors`, `C39_no_panic`, `C39_overread_refuted`, `C39_short_ipv6_refuted`, `C39_ipv6_offset_refuted`, `C39_value_length_panics_refuted`.
* **C40 RTR PDU codec.** Model: Rtr. PDU codec against a layout relation. Theorems (`PropRtr.v`): `C40_parse_iff`, `C40_roundtrip`, `C40_encode_wire`, `C40_no_panic`, `C40_incomplete`, `C40_end_of_data`, `C40_key_v0_refuted`, `C40_end_of_data_refuted`, `C40_prefix_length_refuted`.
* **C41 RTR stream reading.** Model: Rtr, Stream. Reading a stream of PDUs from any source. Theorems (`PropRtr.v`): `C41_sequence`, `C41_read_cases`, `C41_refused`, `C41_chunking`, `C41_no_panic`, `C41_large_report_refuted`.
* **C42 BMP message framing.** Model: Bmp. Framing of BMP messages for all byte strings. Theorems (`PropBmp.v`): `C42_frame`, `C42_only_frames`, `C42_short`, `C42_stream`, `C42_no_panic`.
* **C43 Community codecs.** Model: Community. Codecs of the four community kinds. Theorems (`PropCommunity.v`): `C43_regular_roundtrip`, `C43_large_roundtrip`, `C43_extended_roundtrip`, `C43_ipv6_extended_roundtrip`, `C43_regular_reencode`, `C43_large_reencode`, `C43_ipv6_extended_reencode`, `C43_extended_reencode`, `C43_lengths`, `C43_no_panic`, `C43_wide_asn_refuted`, `C43_well_known_alias_refuted`, `C43_reserved_bits_refuted`.
* **C44 RIB encoder output is a faithful dump.** Model: Encoder. RIB encoder fed with any sequence of elements, every hash order; output parsed back. Theorems (`PropEncoder.v`): `C44_records`, `C44_elems`, `C44_sized`, `C44_answers`, `C44_export`, `C44_history`, `C44_long_path_refuted`, `C44_withdrawal_refuted`, `C44_mixed_ids_refuted`, `C44_paths_refuted`.
* **C45 BGP role pairs.** Model: Cap. Finite domain. Theorems (`PropMsg.v`): `C45_role_pairs`, `C45_symmetric`, `C45_role_codes`.
* **C46 Capability codecs.** Model: Cap. Every capability value. Theorems (`PropMsg.v`): `C46_decode`, `C46_roundtrip`, `C46_decoders`, `C46_no_panic`, `C46_classes`, `C46_next_hop_queries`, `C46_enh_safi_refuted`, `C46_restart_time_refuted`.
* **C47 AS path accessors.** Model: AsPath. Accessors against the declarative meaning of paths. Theorems (`PropAsPath.v`): `C47_origin_unique`, `C47_origins_are_last_hops`, `C47_collector_is_first_hop`, `C47_flat_path_iff`, `C47_flat_path_is_the_route`, `C47_contains_asn`, `C47_required_width`.
* **C48 TLV-structured attributes codec.** Model: Tlv. Seven attribute kinds, parser and encoder exact. Theorems (`PropLsRates.v`, `PropTlv.v`): `C48_tunnel_accessors_only`, `C48_tunnels_by_type`, `C48_added_tunnel`, `C48_added_sub`, `C48_sfp_exact`, `C48_prefix_sid_exact`, `C48_bier_exact`, `C48_bfd_exact`, `C48_aigp_exact`, `C48_traffic_eng_exact`, `C48_tunnel_exact`, `C48_sfp_encode`, `C48_prefix_sid_encode`, `C48_bier_encode`, `C48_bfd_encode`, `C48_tunnel_encode`, `C48_aigp_encode`, `C48_roundtrip`, `C48_reencode`, `C48_no_panic`, `C48_metric`, `C48_metric_absent`, `C48_tunnel_accessors`, `C48_tunnel_reencode_refuted`, `C48_endpoint_rfc9012_refuted`.
* **C49 MP_REACH / MP_UNREACH NLRI codec.** Model: Nlri. MP_REACH and MP_UNREACH for plain, labelled, FlowSpec and Link-State. Theorems (`PropNlri.v`): `C49_reach_roundtrip`, `C49_reach_parse`, `C49_unreach_roundtrip`, `C49_link_local`, `C49_networks`, `C49_labeled_networks`, `C49_labeled_roundtrip`, `C49_labeled_id_refused`, `C49_labeled_withdrawal`, `C49_link_state`, `C49_reach_exact`, `C49_unreach_exact`, `C49_rib_abbreviated`, `C49_rib_full`, `C49_no_panic`, `C49_no_next_hop_refuted`, `C49_labeled_withdrawal_dropped_refuted`, `C49_flowspec_refuted`, `C49_link_state_encode_refuted`.
* **C50 BGP-LS attribute codec.** Model: LinkState. Attribute and NLRI descriptors, every hash order. Theorems (`PropLinkState.v`, `PropLsRates.v`): `C50_attr_exact`, `C50_roundtrip`, `C50_accessors`, `C50_nlri_framing`, `C50_node_nlri`, `C50_link_nlri`, `C50_prefix_nlri`, `C50_desc_cover`, `C50_no_panic`, `C50_link_router_id_refuted`, `C50_rfc7752_node_refuted`, `C50_ipv6_short_refuted`, `C50_accessors_only`.
* **C51 Attribute accessors report the attributes that are there.** Model: Attr. Accessors against membership in the list. Theorems (`PropAttr.v`): `C51_accessors`, `C51_aggregator`, `C51_effective_path`, `C51_iter_communities`, `C51_ipv6_ext_refuted`, `C51_built`.
* **C52 UPDATE sections and tolerance.** Model: BgpMsg. Sections of UPDATE for every byte string. Theorems (`PropMsg.v`): `C52_accepted`, `C52_reported`, `C52_no_panic`, `C52_refresh_warnings`.
* **C53 TABLE_DUMP records survive encoding and parsing, and inconsistent batches are refused.** Model: TableDump. TABLE_DUMP batches and single entries. Theorems (`PropTableDump.v`): `C53_roundtrip`, `C53_single_roundtrip`, `C53_parse_exact`, `C53_single_exact`, `C53_encode_exact`, `C53_no_panic`, `C53_truncated_refuted`.
* **C54 Geographic peer tables survive encoding and parsing.** Model: TableDump. GEO_PEER_TABLE. Theorems (`PropTableDump.v`): `C54_roundtrip`, `C54_parse_exact`, `C54_encode_exact`, `C54_no_panic`, `C54_name_refuted`.
* **C55 Whole MRT records survive writing and reading.** Model: MrtRecord. Whole records: header, length, body. Theorems (`PropMrtRecord.v`): `C55_roundtrip`, `C55_equal`, `C55_length_recomputed`, `C55_written`, `C55_bytes`, `C55_kind`, `C55_batch_of_one_refuted`, `C55_type_unchecked_refuted`, `C55_oversize_refuted`.
* **C56 Encoding never panics on what was read.** Model: MrtRecord. Encoding anything the parser returned. Theorems (`PropMrtRecord.v`): `C56_encode_panics_exact`, `C56_message_no_panic`, `C56_bgp_no_panic`, `C56_reencode`.
* **C57 The length correction for old table dumps is applied exactly when it is needed.** Model: Framing. The length correction against the declared prefix layout. Theorems (`PropMrtRecord.v`): `C57_exact`, `C57_encoded_untouched`, `C57_cut_recognised`.
* **C58 Elements of every record kind.** Model: Elem. All record kinds; times and order. Theorems (`PropElem.v`): `C58_record_elems`, `C58_no_panic`, `C58_time_exact`, `C58_dump_as4_refuted`.
* **C59 Element to attributes and back.** Model: Elem. Element to attributes and back. Theorems (`PropElem.v`): `C59_elem_roundtrip`, `C59_communities`, `C59_parsed`, `C59_atomic_refuted`.
* **C60 Filters given as text mean what they say.** Model: Text, Filter. Filter texts and values; each keyword against an inductive meaning. Theorems (`PropFilter.v`): `C60_negation`, `C60_refused`, `C60_keywords`, `C60_lists`, `C60_parts`, `C60_numbers`, `C60_asn_lists`.
* **C61 Raw, filtered raw, split and text iterators agree with record iteration.** Model: Iter. Raw, filtered raw, split and text iterators. Theorems (`PropIter.v`): `C61_raw`, `C61_filtered_raw`, `C61_elementor`, `C61_elementor_raw`, `C61_text`.
* **C62 The core dump holds the last failing record.** Model: Iter. The core dump file as a cell in the state. Theorems (`PropIter.v`): `C62_core_dump`, `C62_no_dump`.
* **C63 Route iteration terminates and filters faithfully.** Model: Route. Totality and filtering of the route iterators. Theorems (`PropRoute.v`): `C63_routes`, `C63_filtered`, `C63_filtered_fallible`.
* **C64 Recovery gaps tell the truth.** Model: Recovery. What gap reports say against the bytes. Theorems (`PropRecovery.v`): `C64_search`, `C64_gap`.
* **C65 Recovery does not depend on how the source delivers its bytes.** Model: Recovery. Two sources with the same bytes give the same results. Theorems (`PropRecovery.v`): `C65_records`, `C65_elems`, `C65_interrupted_refuted`.
* **C66 An isolated unreadable record costs only itself.** Model: Recovery. One unreadable record among intact ones. Theorems (`PropRecovery.v`): `C66_isolated`, `C66_tail_refuted`, `C66_close_refuted`.
* **C67 BMP contents are read by their layout.** Model: Bmp. Bodies of the seven message types. Theorems (`PropBmp.v`): `C67_content`, `C67_peer`, `C67_peer_size`, `C67_initiation`, `C67_session`, `C67_last_empty_refuted`, `C67_reason_length_refuted`, `C67_mirror_length_refuted`, `C67_local_rib_refuted`.
* **C68 OpenBMP headers are taken exactly.** Model: Bmp. OpenBMP header. Theorems (`PropBmp.v`): `C68_header`, `C68_message`, `C68_refused`.
* **C69 BMP route monitoring converts to an equivalent MRT record.** Model: Bmp, F64Real. Conversion to MRT; times through Flocq. Theorems (`PropBmp.v`): `C69_converts`, `C69_refused`, `C69_time`, `C69_survives`, `C69_microsecond_refuted`.
* **C70 Float times keep the order of records.** Model: Elem, F64Real. Binary64 rounding of times is monotone; through Flocq. Theorems (`PropTime.v`): `C70_order`, `C70_back`, `C70_filter`, `C70_overflow_refuted`.
* **C71 Updates encoder output is a faithful log.** Model: Encoder. Updates encoder output parsed back. Theorems (`PropEncoder.v`): `C71_records`, `C71_elems`, `C71_time`, `C71_export`, `C71_ipv6_hop_refuted`, `C71_path_id_refuted`, `C71_long_path_refuted`.
* **C72 Update iteration gives every announcement once, in order.** Model: Update. Update iterators over sources. Theorems (`PropUpdate.v`): `C72_updates`, `C72_elems`, `C72_times`, `C72_text`, `C72_filters_refuted`.
* **C73 Dissection annotates every message faithfully and never fails.** Model: Dissect. Dissection trees: ranges, cover, totality. Theorems (`PropDissect.v`): `C73_mrt`, `C73_record`, `C73_bgp`, `C73_find_all`, `C73_find`, `C73_update`, `C73_mrt_update`, `C73_trailing_refuted`, `C73_order_refuted`, `C73_aggregator_refuted`, `C73_gap_refuted`.
* **C74 Diagnostic iteration reports every record once and places every finding.** Model: Diagnostic. Diagnostic iterator over sources; findings placed in the tree. Theorems (`PropDiagnostic.v`): `C74_events`, `C74_fallible`, `C74_unfiltered`, `C74_text`, `C74_fused`, `C74_dissecting`, `C74_spans`, `C74_refresh`, `C74_whole`, `C74_stops_refuted`, `C74_filters_refuted`.
* **C75 A router's text table is read route by route, field by field.** Model: TextDump. A declarative layout of the table, printed and read back. Theorems (`PropTextDump.v`): `C75_dump`, `C75_header`, `C75_shifted_hop_refuted`, `C75_long_prefix_refuted`, `C75_metric_refuted`, `C75_internal_refuted`, `C75_set_refuted`.
* **C76 Reading a text table depends on its octets only, and ASCII never panics.** Model: TextDump, Utf8. Two deliveries of the same octets; ASCII sources. Theorems (`PropTextDump.v`): `C76_pieces`, `C76_no_panic`, `C76_panic_refuted`, `C76_failure_refuted`.
* **C77 Automatic detection never loses or alters what is read.** Model: TextDump. Detection on the first 128 octets and what follows. Theorems (`PropTextDump.v`): `C77_text`, `C77_mrt`, `C77_first`, `C77_pieces_refuted`, `C77_view_refuted`, `C77_cut_refuted`.
* **C78 Times are inferred from file names by the calendar.** Model: TextDump. Days against a `next_day` relation. Theorems (`PropTextDump.v`): `C78_time`, `C78_calendar`, `C78_hidden_refuted`.
* **C79 Elements of text tables are announcements that stand in the text.** Model: TextDump. Every element against the octets of the text. Theorems (`PropTextDump.v`): `C79_elements`.
* **C80 AS paths survive their JSON form.** Model: Json. Model the serializer's choice of form and the visitor that rebuilds the path over a JSON tree; induction over the segments with the last segment of the rebuilt path as invariant. Theorems (`PropJson.v`): `C80_roundtrip`, `C80_form`, `C80_in_range`, `C80_empty_refuted`, `C80_mixed_refuted`.
* **C81 Elements survive their JSON form.** Model: Json. Model the derived readers and writers of BgpElem and all community kinds over a JSON tree, with untagged variants tried in order; prove each reader inverts its writer and that earlier readers refuse the later kinds; range of accepted values by inversion. Theorems (`PropJson.v`): `C81_roundtrip`, `C81_community`, `C81_in_range`, `C81_finite`, `C81_names`, `C81_nan_refuted`.
* **C82 RIS Live JSON messages give exactly their routes.** Model: RisLive. Model the derived readers of the RIS Live message types over JSON trees (tags, flattened optional enumeration, duplicate keys) and the construction of elements; describe documents by relations on fields in any order and the result by an inductive relation of outcomes, proved total and deterministic. Theorems (`PropRisLive.v`): `C82_update`, `C82_other`, `C82_elements`, `C82_not_message`, `C82_no_panic`, `C82_silent_refuted`, `C82_origin_asns_refuted`.
* **C83 RIS Live raw messages give the elements of the BGP message at the document's time.** Model: RisLive. Model hexadecimal decoding, the two attempts at the BGP message and the pseudo record; show that errors do not depend on the AS number length; the time by bounds on rounding errors over the reals (Flocq), with a divisibility argument that excludes ties. Theorems (`PropRisLive.v`): `C83_elements`, `C83_any_time`, `C83_near`, `C83_only`, `C83_errors`, `C83_no_panic`, `C83_full`, `C83_full_errors`, `C83_two_octets_refuted`, `C83_early_refuted`.
* **C84 The JSON and the raw reading of a RIS Live message agree.** Model: RisLive. Relate JSON fields and attributes by a relation on documents; both readings are determined by C82 and C83, so agreement is by induction over the prefixes. Theorems (`PropRisLive.v`): `C84_agree`, `C84_ipv6_refuted`, `C84_well_known_refuted`.
* **C85 The web interface reads MRT data record by record as the native iterator does.** Model: Wasm. Model the module's state between calls, the record functions and the generator of index.js; a call that succeeded is not changed by bytes appended to the buffer, and one that failed may be repeated, so feeding in pieces equals reading the whole; relate to the native iterator through the framing facts. Theorems (`PropWasm.v`): `C85_readable`, `C85_records`, `C85_one`, `C85_total`, `C85_native`, `C85_pieces`, `C85_js`, `C85_sizes`, `C85_sized`, `C85_generator`, `C85_ended`, `C85_dissect`, `C85_short_refuted`, `C85_skip_refuted`, `C85_interleaved_refuted`.
* **C86 The web interface shows BMP, OpenBMP and BGP messages as the native parsers read them.** Model: Wasm. Model the result builders over the BMP, OpenBMP and BGP parsers; describe results by a relation on messages, proved total and deterministic; the frames answered with null by inversion of the header parser. Theorems (`PropWasm.v`): `C86_bmp`, `C86_openbmp`, `C86_no_panic`, `C86_one`, `C86_update`, `C86_full`, `C86_dissect`.
* **C87 Elements are totally ordered by time and then peer address.** Model: ElemOrd. Model both comparisons over binary64 values and addresses; show that the comparison of numbers is a lexicographic order of integer keys, so that the laws follow from those of the integers; the times of records are numbers by the conversion facts of C69. Theorems (`PropElemOrd.v`): `C87_panic`, `C87_total`, `C87_swap`, `C87_transitive`, `C87_equal_alike`, `C87_reflexive`, `C87_equal`, `C87_meaning`, `C87_record`, `C87_source`, `C87_records`, `C87_routes`, `C87_consistent_refuted`, `C87_nan_refuted`.
* **C88 A line of text has the columns of its header and tells the fields of an element.** Model: Psv. Model the text forms with those of std numbers and addresses as parameters; columns by the absence of separators in each text; communities by their kind from the parts between colons, lists by the number of words from the first word (a prefix code); paths by splitting at spaces. Theorems (`PropPsv.v`): `C88_header`, `C88_psv`, `C88_display`, `C88_route`, `C88_line`, `C88_psv_tells`, `C88_display_tells`, `C88_route_tells`, `C88_communities`, `C88_path`, `C88_debug`, `C88_path_id_refuted`, `C88_segments_refuted`, `C88_bandwidth_refuted`.
* **C89 An AS number is its number: registry, width, order, conversions, text and bytes.** Model: AsnNum. Model the number with its width flag; the predicates against a table of the registry by case analysis, the text form against a grammar by induction on the digits, the conversions by modular arithmetic, the bytes by the facts on big-endian numbers. Theorems (`PropAsnNum.v`): `C89_registry`, `C89_kinds`, `C89_width`, `C89_order`, `C89_convert`, `C89_text`, `C89_text_back`, `C89_parsed`, `C89_encode`, `C89_read`, `C89_plus_refuted`, `C89_truncates_refuted`, `C89_equal_bytes_refuted`.
* **C90 Whatever the octets, what is read from them is in range and can be written as text and JSON.** Model: RangeFacts. A predicate on parsers saying that from octets they give values in range, with a rule for each combinator, applied to every parser; then through the elementor by cases and through the iterators by their specification. Theorems (`PropRange.v`): `C90_message`, `C90_attributes`, `C90_record`, `C90_records`, `C90_elements`, `C90_times`, `C90_json`, `C90_psv`, `C90_nan_refuted`.
* **C91 The command line tool prints exactly what was asked for, and says so when it fails.** Model: Cli. Model option handling, filter building, the output loops and the sink, with clap's reading of arguments, JSON and text forms as parameters; the filters against the filter vocabulary, each run as a script of writes played to the sink, its items from the iterator theorems, and recovery with filters from a simulation between the filtered and the unfiltered iterator. Theorems (`PropCli.v`): `C91_format`, `C91_refused`, `C91_is`, `C91_is_not`, `C91_none_of`, `C91_absent`, `C91_one_meaning`, `C91_whole_times`, `C91_times`, `C91_elements`, `C91_records`, `C91_counts`, `C91_hex`, `C91_recovered_elements`, `C91_recovered_records`, `C91_hex_refused`, `C91_sink_fails`, `C91_sink_ok`, `C91_fraction_refuted`, `C91_comma_refuted`, `C91_regex_refuted`, `C91_count_refuted`, `C91_panic_refuted`, `C91_silent_refuted`, `C91_header_refuted`, `C91_println_refuted`, `C91_text_refuted`, `C91_less_refuted`.
* **C92 The layered text of a record shows what is in it, and can be read back.** Model: Render. Model the text as the code builds it, then as a list of lines; a separate reader by headings and indentation, whose results on each section follow from the absence of line feeds in parts and of deeper or equal headings around it; what lines tell by separators that do not occur in the parts before them. Theorems (`PropRender.v`): `C92_session`, `C92_kind`, `C92_update`, `C92_counts`, `C92_elements`, `C92_open`, `C92_states`, `C92_notification`, `C92_refresh`, `C92_peers`, `C92_rib`, `C92_dumps`, `C92_blocks`, `C92_hex`, `C92_names`, `C92_attr_tells`, `C92_warning_tells`, `C92_tells`, `C92_update_tells`, `C92_path_id_refuted`, `C92_rib_path_refuted`, `C92_next_hop_refuted`, `C92_octets_refuted`, `C92_geo_refuted`, `C92_map_order_refuted`, `C92_labeled_refuted`, `C92_empty_heading_refuted`.
* **C93 Cached sources: checksum and file name.** Model: Cache. Model the table, the loop and the naming function. Specify CRC-32 as long division of bit lists by the generator. Prove that one octet step is eight register turns by linearity of the turn, and that the register performs the division. A turn loses nothing, so a difference confined to 32 bits survives; the difference of two states does not depend on the state they started from. Names are taken apart at the last dot. Theorems (`PropCache.v`): `C93_crc`, `C93_digits`, `C93_name`, `C93_place`, `C93_shared`, `C93_burst`, `C93_four`, `C93_inside`, `C93_unique_refuted`, `C93_documented_refuted`.
* **C94 Messages sent to RIS Live.** Model: RisClient. Model the message types, the builder methods and serde_json's map and compact writer. Specify a JSON reader and the last call of each method; induction over trees for reading back, over the calls for the fields. Theorems (`PropRisClient.v`): `C94_json`, `C94_calls`, `C94_fields`, `C94_order`, `C94_others`, `C94_tells`.
* **C95 Names and rates in a link-state attribute.** Model: LsRates. Model the accessors with binary32 numbers as spec_float. Specify the IEEE 754 meaning of 32 bits over the real numbers. Decode by splitting the bits; the two roundings of the loss by the relative error bound of Flocq, monotonicity by that of rounding. Theorems (`PropLsRates.v`): `C95_names`, `C95_bandwidths`, `C95_bandwidths_only`, `C95_loss`, `C95_loss_only`, `C95_loss_order`, `C95_loss_distinct_refuted`.
* **C96 Equality, order and hashing of decoded values.** Model: Equal. Model the hand-written comparisons and the hash of per-peer headers. Equality with the octets follows from the injectivity of the encodings; the float times of read headers are shown to be plus zero or positive reals of the binary64 format, on which float equality is equality. Theorems (`PropEqual.v`): `C96_traffic_eng`, `C96_extended`, `C96_geo`, `C96_header`, `C96_equivalence`, `C96_per_peer`, `C96_attr_type`, `C96_attr_named`, `C96_hashed`, `C96_time_bits`, `C96_hash_refuted`, `C96_nan_refuted`, `C96_order_refuted`.
* **C97 One-line texts of records, headers and next hops.** Model: Summary. the three `Display` functions of models/mrt/mod.rs and the `Display`/`Debug` functions of nexthop.rs. A specification splits a line at its bars and says what each column is; columns are shown to contain no bar, so lines split uniquely, and each column to be injective, so equal lines mean equal values; parsed records are shown to be in range through the range lemmas of C90. Theorems (`PropSummary.v`): `C97_record`, `C97_header`, `C97_record_tells`, `C97_header_tells`, `C97_parsed`, `C97_distinguisher`, `C97_next_hop`.
* **C98 Attributes and BGP messages written as JSON are read back as the same attributes and messages.** Model: JsonMsg. serde's derived readers and writers of each type of a message over the JSON values of Json.v; maps written in an arbitrary order given by a function that permutes; one round-trip lemma per type composed through lists, options, objects and variants; a second induction over the readers for the ranges. Theorems (`PropJsonMsg.v`, `PropJsonNames.v`): `C98_message`, `C98_attributes`, `C98_nlri`, `C98_flags`, `C98_in_range`, `C98_again`, `C98_names`, `C98_families`, `C98_warnings_refuted`, `C98_mask_refuted`, `C98_bandwidth_refuted`, `C98_labels_refuted`, `C98_members`, `C98_codes`, `C98_map_keys`, `C98_errors`, `C98_variants`, `C98_words`.
* **C99 MRT records written as JSON are read back as the same records with the same elements.** Model: JsonRec. serde's derived readers and writers of each type of an MRT record over JsonMsg.v; the three kinds of hash maps are written in arbitrary permutations and read by repeated insertion; round-trip lemmas per type; two records that are the same are shown to give the same elements with elementors that know the same peers, by induction over the sequence of records. Theorems (`PropJsonNames.v`, `PropJsonRec.v`): `C99_members`, `C99_codes`, `C99_states`, `C99_record`, `C99_elements`, `C99_in_range`, `C99_again`, `C99_peer_type`, `C99_table`, `C99_index`, `C99_names`, `C99_private_place_refuted`, `C99_dangling_refuted`.
* **C100 Whatever octets are read, the messages and records are in range, and a whole file can go through JSON.** Model: Parsed. Range predicates of C98 and C99 as postconditions of every parser (the typing framework of C90, extended to all attribute values, NLRI families, capabilities and record bodies); composition with the JSON round trips and with the iterators of C33. Theorems (`PropParsed.v`): `C100_message`, `C100_attributes`, `C100_record`, `C100_records`, `C100_message_json`, `C100_file`.
* **C101 An unreadable body is never taken for the end of the source.** Model: BodyErr. a predicate on outcomes and parsers saying they fail only in the four ways, closed under the combinators and carried through every parser of a record body; attributes and NLRI sections turn errors into warnings; then induction over the framing of the source Theorems (`PropBodyErr.v`): `C101_kinds`, `C101_fallible`, `C101_default`, `C101_default_refuted`.
* **C102 Damage inside one record stays in that record, and joined files read as their parts.** Model: Local. framing consumes exactly the bytes of a record, whose number depends on the header alone except for TABLE_DUMP bodies four octets short; framing of a concatenation is the concatenation of the framings; the only state between records is the peer table, unchanged by any body that is not one Theorems (`PropLocal.v`): `C102_join`, `C102_join_elems`, `C102_join_default`, `C102_damage`, `C102_damage_elems`, `C102_dump_refuted`.

## Findings

Places where the code does not do what a user would expect. Each is a theorem `…_refuted` proved by computation on a concrete value in the same file as the property.

* C03: `C03_et_without_microseconds_refuted`. C03_et_without_microseconds_refuted records that an extended-timestamp header value without microseconds does not round-trip.
* C06: `C06_nlri_default_route_refuted`. C06_nlri_default_route_refuted records that, without Add-Path, a default route that is not last may be misread because of the Add-Path guess.
* C09: `C09_leading_confed_kept_refuted`, `C09_merged_path_encodes_refuted`. Findings: C09_leading_confed_kept_refuted, C09_merged_path_encodes_refuted.
* C11: `C11_no_steps_refuted`. C11_dedup_coalesce_units: the steps of the result (AS numbers in order, sets as sets, each inside or outside of a confederation) are those of the path with direct repetitions dropped; C11_equivalent_routing_exact: paths with any step are equivalent exactly when these agree. Finding: C11_no_steps_refuted (two paths without steps can differ).
* C13: `C13_empty_set_has_no_route_refuted`, `C13_variation_count_overflow_refuted`. Findings: C13_variation_count_overflow_refuted, C13_empty_set_has_no_route_refuted.
* C15: `C15_cut_attribute_refuted`, `C15_header_end_refuted`. Exact set of warnings, exact attributes and presence bits for every byte string; the one class of blocks that are refused (end inside a four-octet header) is characterised exactly. Findings: C15_header_end_refuted, C15_cut_attribute_refuted.
* C17: `C17_long_origin_refuted`. Finding: C17_long_origin_refuted (over-long fixed-length values decode and are not reproduced).
* C18: `C18_length_beyond_data_refuted`, `C18_marker_refuted`. Acceptance characterised exactly for all byte strings. Findings: C18_length_beyond_data_refuted (a length above the data is cut, not refused), C18_marker_refuted (the marker is never checked).
* C19: `C19_large_open_refuted`. All five kinds. same_message allows only the parser's warnings, the extended flag of OPEN and the presence mask to differ. Finding: C19_large_open_refuted (an OPEN above 4096 octets is written but refused by the parser).
* C20: `C20_asn_truncated_refuted`, `C20_length_ignored_refuted`. Findings: C20_asn_truncated_refuted (AS number above 65535 cut to 16 bits), C20_length_ignored_refuted (the declared length of the parameters is not used).
* C22: `C22_link_state_refuted`, `C22_malformed_refuted`. Findings: C22_malformed_refuted (an UPDATE whose withdrawn section cannot be read counts as End-of-RIB), C22_link_state_refuted (so does the withdrawal of BGP-LS NLRI).
* C23: `C23_asn_truncated_refuted`, `C23_mixed_families_refuted`, `C23_trailing_refuted`. Round trip, exact encoder, exact parser, unknown subtypes, no panic. Findings: 2-octet AS truncation, mixed address families, trailing octets (the _refuted theorems).
* C24: `C24_trailing_refuted`. Round trip, exact parser, state codes, Zebra detection. Finding: trailing octets ignored (C24_trailing_refuted).
* C26: `C26_name_dropped_refuted`, `C26_renumbered_refuted`, `C26_type_mismatch_refuted`. Round trip for peers numbered 0..n-1, exact parser in both directions, exact encoder for every table, no panic, UTF-8 check characterised. Findings: C26_name_dropped_refuted, C26_renumbered_refuted, C26_type_mismatch_refuted.
* C27: `C27_parsed_table_refuted`. Every history of registrations from a table without peers, as results plus final table, and a one-step form. Finding: C27_parsed_table_refuted (registering on a parsed table with a repeated address overwrites a peer).
* C28: `C28_fewer_entries_refuted`, `C28_path_id_missing_refuted`, `C28_prefix_path_id_refuted`. Round trip, exact parser (as many entries as announced or as can be read), exact encoder, subtype dispatch, no panic. Findings: C28_fewer_entries_refuted, C28_path_id_missing_refuted, C28_prefix_path_id_refuted.
* C29: `C29_as4_aggregator_refuted`, `C29_defaults_refuted`, `C29_labeled_refuted`, `C29_second_reach_refuted`. Update elems are determined uniquely by the spec. Findings: C29_defaults_refuted (absent MED/LOCAL_PREF become 0), C29_labeled_refuted, C29_second_reach_refuted, C29_as4_aggregator_refuted.
* C30: `C30_known_after_unknown_refuted`, `C30_path_id_refuted`, `C30_size_hint_refuted`. Findings: C30_known_after_unknown_refuted, C30_size_hint_refuted, C30_path_id_refuted.
* C31: `C31_double_negation_refuted`. match_filter on elements is the Prop semantics 'holds'; lists are conjunctions, independent of order; multi-value filters are disjunctions; route views agree with elements on the fields they have and fail closed otherwise. Finding: C31_double_negation_refuted.
* C32: `C32_host_bits_refuted`. For prefixes without host bits, exact/super/sub match exactly equality and inclusion of address sets (C32_contains). Finding: C32_host_bits_refuted shows none of the relations holds with host bits.
* C34: `C34_short_body_refuted`. usable = values before the first error that stops (source errors; with core dumps also ParseError). Finding: C34_short_body_refuted, a body cut inside an address counts as a source error, so later sound records are not reached.
* C35: `C35_dump_as4_refuted`, `C35_dump_cut_refuted`, `C35_nlri_refuted`, `C35_text_refuted`, `C35_unknown_peer_refuted`. Record-wise and over whole sources, under comparable/agreeing (known peers, well-formed NLRI, no AS4_PATH in TABLE_DUMP). Findings: C35_unknown_peer_refuted, C35_dump_as4_refuted, C35_nlri_refuted, C35_dump_cut_refuted, C35_text_refuted.
* C38: `C38_missing_path_id_refuted`. Finding: C38_missing_path_id_refuted.
* C39: `C39_ipv6_offset_refuted`, `C39_overread_refuted`, `C39_short_ipv6_refuted`, `C39_value_length_panics_refuted`. Rules with the plain prefix components. Findings: C39_overread_refuted, C39_short_ipv6_refuted, C39_ipv6_offset_refuted, C39_value_length_panics_refuted.
* C40: `C40_end_of_data_refuted`, `C40_key_v0_refuted`, `C40_prefix_length_refuted`. Findings: C40_key_v0_refuted, C40_end_of_data_refuted, C40_prefix_length_refuted (PDUs the API can build that do not survive).
* C41: `C41_large_report_refuted`. Finding: C41_large_report_refuted (accepted by the slice parser, refused by the reader).
* C43: `C43_reserved_bits_refuted`, `C43_well_known_alias_refuted`, `C43_wide_asn_refuted`. Findings: C43_wide_asn_refuted, C43_well_known_alias_refuted, C43_reserved_bits_refuted.
* C44: `C44_long_path_refuted`, `C44_mixed_ids_refuted`, `C44_paths_refuted`, `C44_withdrawal_refuted`. For every sequence of elements, accepted or refused, and every order in which the hash maps may be iterated; elements with fields of the widths the formats have, next hop of the family of the prefix, path identifiers on all or none of the routes of a prefix, records of at most 16 MiB (the reader's limit). Findings: attributes longer than 255 octets make the export fail and stay failing (C44_long_path_refuted), withdrawals come back as announcements (C44_withdrawal_refuted), mixed path identifiers lose routes (C44_mixed_ids_refuted), several paths of one peer to one prefix merge (C44_paths_refuted).
* C46: `C46_enh_safi_refuted`, `C46_restart_time_refuted`. Every capability value; decoders exact on all byte strings. Findings: C46_enh_safi_refuted (upper SAFI octet ignored), C46_restart_time_refuted (restart time above 4095 is cut). C46_classes gives the deprecated, reserved and experimental codes exactly.
* C48: `C48_endpoint_rfc9012_refuted`, `C48_tunnel_reencode_refuted`. Exact characterisation of every parser and encoder. Findings: C48_tunnel_reencode_refuted (unnamed sub-TLV types collapse to 0 and trailing octets vanish, so re-encoding is not the identity for tunnels), C48_endpoint_rfc9012_refuted (the endpoint accessor does not recognise the RFC 9012 layout).
* C49: `C49_flowspec_refuted`, `C49_labeled_withdrawal_dropped_refuted`, `C49_link_state_encode_refuted`, `C49_no_next_hop_refuted`. Round trips for plain, labelled and Link-State forms, exact characterisation of accepted announcements/withdrawals, RIB-dump abbreviation, no panic. Findings: C49_no_next_hop_refuted, C49_labeled_withdrawal_dropped_refuted, C49_flowspec_refuted, C49_link_state_encode_refuted.
* C50: `C50_ipv6_short_refuted`, `C50_link_router_id_refuted`, `C50_rfc7752_node_refuted`. Attribute parser characterised exactly, round trip proved for every iteration order of the three hash maps, accessors and NLRI descriptors characterised, no panic. Findings: C50_link_router_id_refuted, C50_rfc7752_node_refuted, C50_ipv6_short_refuted. The string and f32 accessors are in C95.
* C51: `C51_ipv6_ext_refuted`. Finding: C51_ipv6_ext_refuted.
* C53: `C53_truncated_refuted`. Batches and single entries; exact parser and encoder. Finding: C53_truncated_refuted.
* C54: `C54_name_refuted`. Round trip for ASCII names, exact parser and encoder. Finding: C54_name_refuted.
* C55: `C55_batch_of_one_refuted`, `C55_oversize_refuted`, `C55_type_unchecked_refuted`. Findings: C55_batch_of_one_refuted, C55_type_unchecked_refuted, C55_oversize_refuted (records above 16 MiB are written but not read).
* C58: `C58_dump_as4_refuted`. Finding: C58_dump_as4_refuted (AS4_PATH ignored in TABLE_DUMP). Time order is for headers without microseconds.
* C59: `C59_atomic_refuted`. Finding: C59_atomic_refuted.
* C65: `C65_interrupted_refuted`. Finding C65_interrupted_refuted: an interrupted read during a scan is not retried and ends the iteration.
* C66: `C66_close_refuted`, `C66_tail_refuted`. Findings: C66_tail_refuted (intact records at the end are swallowed when fewer than the confirmations remain after framing damage), C66_close_refuted (two unreadable records close together also cost the intact one between).
* C67: `C67_last_empty_refuted`, `C67_local_rib_refuted`, `C67_mirror_length_refuted`, `C67_reason_length_refuted`. Exact acceptance per layout. Findings: C67_last_empty_refuted, C67_reason_length_refuted, C67_mirror_length_refuted, C67_local_rib_refuted.
* C69: `C69_microsecond_refuted`. C69_time uses Flocq and so the standard library's real-number axioms. Finding: C69_microsecond_refuted.
* C70: `C70_overflow_refuted`. Uses Flocq and so the standard library's real-number axioms. Finding: C70_overflow_refuted (microseconds not checked).
* C71: `C71_ipv6_hop_refuted`, `C71_long_path_refuted`, `C71_path_id_refuted`. C71_time uses the stdlib axioms of the reals (through C70). Findings: IPv6 next hops come back as IPv4 (C71_ipv6_hop_refuted), path identifiers corrupt the prefix (C71_path_id_refuted), one long attribute blocks the export (C71_long_path_refuted).
* C72: `C72_filters_refuted`. C72_filters_refuted (finding): the filters set on the parser have no effect on update iteration.
* C73: `C73_aggregator_refuted`, `C73_gap_refuted`, `C73_order_refuted`, `C73_trailing_refuted`. The remarks bgp.truncated and bgp.trailing lie outside the range of the message's node or out of order, an AGGREGATOR of odd length shows octets of the router id, and a KEEPALIVE body has no node: C73_trailing_refuted, C73_order_refuted, C73_aggregator_refuted, C73_gap_refuted. Label text beyond the numbers shown is not modelled.
* C74: `C74_filters_refuted`, `C74_stops_refuted`. Theorems C74_* in PropDiagnostic.v. C74_fallible holds of every source, since no body fails with the error that stands for the end (C101_kinds). Findings: C74_stops_refuted (an unknown record type ends diagnostic iteration although the fallible iterator goes on), C74_filters_refuted (filters are not applied).
* C75: `C75_internal_refuted`, `C75_long_prefix_refuted`, `C75_metric_refuted`, `C75_set_refuted`, `C75_shifted_hop_refuted`. Parsers for addresses and prefixes (std, ipnet) are parameters that accept only their characters (sane); ex_ps is one. Findings: C75_shifted_hop_refuted (a route one place left whose next hop without its first digit is an address is dropped, with the further routes of the prefix), C75_long_prefix_refuted (prefix longer than its column: routes go to the previous prefix), C75_metric_refuted (metric of 8+ digits drops the route), C75_internal_refuted (flag i in the fourth place drops routes), C75_set_refuted ({a,b} lost).
* C76: `C76_failure_refuted`, `C76_panic_refuted`. Findings: C76_panic_refuted (a multi-byte character across the next-hop column panics), C76_failure_refuted (a failing source ends the elements without an error).
* C77: `C77_cut_refuted`, `C77_pieces_refuted`, `C77_view_refuted`. Findings: C77_pieces_refuted (detection depends on the size of the first read; an interruption is an error), C77_view_refuted (a valid MRT file whose view is named BGP table is taken for text), C77_cut_refuted (a character across octet 128 hides a text dump).
* C78: `C78_hidden_refuted`. chrono is modelled by the proleptic Gregorian calendar, checked against next_day. Finding: C78_hidden_refuted (an invalid dotted date hides a later valid one; a dotted date inside a longer number counts).
* C80: `C80_empty_refuted`, `C80_mixed_refuted`. Findings: C80_empty_refuted (a path with an empty sequence is read back without it), C80_mixed_refuted (in a mixture of the two forms a number is appended to a labelled sequence although a flag is meant to prevent it: the flag is never set). JSON values are trees: their text is not modelled.
* C81: `C81_nan_refuted`. Findings: C81_nan_refuted (an element with a community whose rate is NaN or infinite is written with null and cannot be read back); C81_names shows that the types are written ANNOUNCE and WITHDRAW though the documentation says lower case. The texts of addresses and prefixes are parameters; the text of JSON, including that of floating point numbers, is not modelled. C81_finite: an element that is read back had only finite times and rates.
* C82: `C82_origin_asns_refuted`, `C82_silent_refuted`. C82_update, C82_other, C82_elements, C82_not_message, C82_no_panic. Documents are JSON trees; the text readers of addresses and prefixes are parameters. Findings: an UPDATE with one unreadable field is taken for no UPDATE and gives an empty list without error (C82_silent_refuted); elements have a path but no origin AS numbers (C82_origin_asns_refuted).
* C83: `C83_early_refuted`, `C83_two_octets_refuted`. C83_elements (exact time; uses the axioms of the real numbers), C83_any_time, C83_only, C83_errors, C83_no_panic, C83_full, C83_full_errors. Findings: the second attempt with AS numbers of two octets never succeeds, and such a message loses its path (C83_two_octets_refuted); times in the first hours of 1970 are rounded twice (C83_early_refuted). C83_near: for every time from 1970 to 2106, not only whole microseconds, the second is kept and the rest to two microseconds.
* C84: `C84_ipv6_refuted`, `C84_well_known_refuted`. C84_agree. Findings: the service lists an IPv6 announcement with a link-local next hop twice, which is two elements by JSON and one by the raw message (C84_ipv6_refuted); a well-known community is a pair of numbers by JSON (C84_well_known_refuted).
* C85: `C85_interleaved_refuted`, `C85_short_refuted`, `C85_skip_refuted`. Element lists and lengths of every sequence of calls, with the state of the module (peer table) explicit; the native iterator is that of C33. Findings: C85_short_refuted (the JavaScript generator ends at a table dump with the short length, which the native reader reads), C85_skip_refuted (a record that cannot be read ends the reading without any report and hides the records after it), C85_interleaved_refuted (two generators share the peer table and mix up peers). C85_ended: a generator that has ended stays ended.
* C87: `C87_consistent_refuted`, `C87_nan_refuted`. C87_panic says exactly when a comparison panics, C87_total, C87_swap, C87_transitive, C87_equal_alike, C87_reflexive and C87_equal are the laws of the order, C87_meaning its meaning in real numbers, C87_record and C87_source that elements of records and sources are comparable, C87_records the order by seconds and microseconds, C87_routes the same for route elements. Findings: C87_consistent_refuted (elements that differ may be equal by the order although the type also has an equality of all fields), C87_nan_refuted (a time that is not a number panics, even compared with itself).
* C88: `C88_bandwidth_refuted`, `C88_path_id_refuted`, `C88_segments_refuted`. C88_header, C88_psv, C88_display and C88_route give the columns, C88_line that it is one printable line, C88_psv_tells, C88_display_tells and C88_route_tells when two lines are the same, C88_communities and C88_path the same for lists of communities and paths, C88_debug for the debug form of prefixes. The texts of std numbers and addresses are assumed to meet shows_ok, which C88_ex_shows shows of a simple instance. Findings: C88_path_id_refuted (the path identifier is not shown), C88_segments_refuted (segment kinds and bounds are not shown), C88_bandwidth_refuted (a community built by hand can have the text of a link bandwidth).
* C89: `C89_equal_bytes_refuted`, `C89_plus_refuted`, `C89_truncates_refuted`. Findings: the documented pattern is not the one accepted, a plus sign may stand before the digits (C89_plus_refuted); conversion to u16 keeps the low half silently (C89_truncates_refuted); equal numbers may have different bytes, for the flag takes no part in equality (C89_equal_bytes_refuted). The hash is what is fed to the hasher.
* C90: `C90_nan_refuted`. A compositional typing of the parsers carries the ranges from octets to attributes, messages, records, the peer table and elements; C90_json and C90_psv join it with C81 and C88, so that their hypotheses hold of everything read. Finding: C90_nan_refuted — a record with a link bandwidth that is not a number gives an element whose JSON cannot be read back.
* C91: `C91_comma_refuted`, `C91_count_refuted`, `C91_fraction_refuted`, `C91_header_refuted`, `C91_less_refuted`, `C91_panic_refuted`, `C91_println_refuted`, `C91_regex_refuted`, `C91_silent_refuted`, `C91_text_refuted`. The options and the sink are data of the model; text forms are parameters with the law that they can be read back (C91_ex_texts gives such forms). C91_refused/C91_is/C91_is_not/C91_none_of/C91_absent/C91_one_meaning/C91_whole_times say what the options ask; the rest what is printed. Findings: C91_fraction_refuted (the fraction of a time option is dropped), C91_comma_refuted and C91_regex_refuted (values that cannot be negated or given), C91_count_refuted (with -e -r, or -e in text format, elements that are not wanted are counted), C91_panic_refuted (a refused option value panics while a refused expression is reported), C91_silent_refuted (a truncated source is success), C91_header_refuted (no header without elements), C91_println_refuted (a closed pipe makes a counting run panic), C91_text_refuted (text dumps print nothing at record level or with recovery), C91_less_refuted (recovery may print less).
* C92: `C92_empty_heading_refuted`, `C92_geo_refuted`, `C92_labeled_refuted`, `C92_map_order_refuted`, `C92_next_hop_refuted`, `C92_octets_refuted`, `C92_path_id_refuted`, `C92_rib_path_refuted`. Texts of std addresses and numbers, of error codes, of reasons and of seven attribute kinds printed by derived Debug are parameters, assumed to be on one line. Findings: path identifiers of routes and RIB entries, link-local next hops and route distinguishers, octets of unknown attributes and geographic tables do not appear (C92_path_id_refuted, C92_rib_path_refuted, C92_next_hop_refuted, C92_octets_refuted, C92_geo_refuted); the text of a BGP-LS attribute depends on hash map order (C92_map_order_refuted); labelled routes have lines but no elements (C92_labeled_refuted); an OPEN with raw parameters has an empty heading (C92_empty_heading_refuted).
* C93: `C93_documented_refuted`, `C93_unique_refuted`. The table driven loop is proved equal to long division of bit lists (C93_crc). Names: C93_name, C93_place, C93_shared (exact criterion for sharing), C93_burst, C93_four, C93_inside. Findings: C93_unique_refuted (http://plumless/rib.gz and http://buckeroo/rib.gz share one cache file, so the second location is answered with the first one's content), C93_documented_refuted (the documented form cache-<crc32>-<file name> is never the one used). What oneio does with the name is not modelled.
* C95: `C95_loss_distinct_refuted`. C95_names, C95_bandwidths and C95_loss with their _only halves, C95_loss_order; the numeric accessors of C50 and those of tunnels (C48) get converses in the same file. Finding: C95_loss_distinct_refuted (different losses near 50 per cent on the wire give the same number).
* C96: `C96_hash_refuted`, `C96_nan_refuted`, `C96_order_refuted`. C96_traffic_eng, C96_extended, C96_geo, C96_header, C96_equivalence, C96_per_peer, C96_attr_type, C96_attr_named, C96_hashed, C96_time_bits (the bits are those of Flocq's IEEE encoding; NaN excepted). Findings: C96_hash_refuted (a header built with a time of minus zero equals one with plus zero and hashes differently), C96_nan_refuted (Eq is claimed but a NaN time is not equal to itself), C96_order_refuted (Unknown(1) compares as equal to ORIGIN without being equal).
* C98: `C98_bandwidth_refuted`, `C98_labels_refuted`, `C98_mask_refuted`, `C98_warnings_refuted`. C98_message: every message in range whose floats are finite and whose paths C80 keeps is read back from its JSON as the same message (of an UPDATE with the list of attributes, no warnings and the types of the list), for every order of the entries of link-state maps; C98_attributes, C98_nlri the same for attribute lists and reachability information; C98_flags the text of every flag octet and that it is read back; C98_in_range every message that is read from any JSON is in range and claims the attribute types of its list; C98_again it can be written and read again; C98_names, C98_families the names. Findings: C98_warnings_refuted (warnings are lost), C98_mask_refuted (an attribute cut off in parsing counts as present before and not after), C98_bandwidth_refuted (a parsed infinite bandwidth makes the JSON unreadable), C98_labels_refuted (a labelled prefix without labels is read although its constructor refuses it). Not modelled: the JSON of AttrSet; serde_json's text layer; the text of addresses and numbers is a parameter with read-back as hypothesis. The names of nested members, variants and codes (C98_members, C98_variants, C98_codes, C98_errors, C98_map_keys, C98_words) are listed in PropJsonNames.v as the declarations in /repo have them, apart from the model's tables.
* C99: `C99_dangling_refuted`, `C99_private_place_refuted`. C99_record is the round trip for every kind of record, C99_elements the elements of any sequence of records; C99_in_range and C99_again are for all JSON read; C99_peer_type, C99_table, C99_index, C99_names say what is written. Not modelled: RibGeneric (refused by the parser), AttrSet, other encodings that derived readers accept. Findings: coordinates that are not numbers, which RFC 6397 uses for unknown places, are written as nulls that cannot be read (C99_private_place_refuted); a table whose addresses lead to no peer is accepted (C99_dangling_refuted). Nested names: C99_members, C99_codes, C99_states.
* C101: `C101_default_refuted`. C101_kinds classifies the errors of all bodies, C101_fallible relates fallible iteration to the framing item by item, C101_default relates default iteration to raw iteration. Finding: C101_default_refuted, a body cut inside an address fails with an I/O error and ends default iteration although sound records follow.
* C102: `C102_dump_refuted`. C102_dump_refuted: when the last entry of a TABLE_DUMP record runs exactly four octets past the declared length, four more octets of the source are read for it (the correction for historical files), so damage to the attribute length can shift the framing of the records that follow. C102_join* assume the first file is framed to its end without error; C102_join_default also that no body in it fails with an I/O error (C101_default_refuted shows that matters).

## What is modelled and what is not

Modelled, function by function: MRT framing and headers; all MRT bodies (TABLE_DUMP, TABLE_DUMP_V2 with peer index, RIB entries, generic entries and GEO_PEER_TABLE, BGP4MP, type-5 legacy) in both directions; the five BGP messages, capabilities, roles, error codes; every path attribute value the library parses, with the presence mask and the validation warnings; MP NLRI, MPLS labels, FlowSpec, Link-State; AS path operations; communities; elements (Elementor), conversion of elements to attributes; filters and their text forms; the default, fallible, raw, filtered raw, split, update, route, recovery and diagnostic iterators; core dumps; RTR; BMP and OpenBMP with the conversion to MRT; RIB and updates encoders; dissection; Cisco text dumps and automatic detection; times inferred from file names.  JSON forms (serde) of AS paths, elements, prefixes and communities, as trees. RIS Live messages, by JSON fields and by raw BGP message. The WebAssembly bindings and the JavaScript functions over them that read messages and records. The order of elements. The text forms of elements, prefixes, paths and communities. AS numbers with their width flag, conversions and text. The command line tool: options, filter expressions, formats, counts, recovery reports, exit status and the sink. The layered text of records and of validation warnings. CRC-32 and cache file names (Cache.v). RIS Live client messages and their JSON text (RisClient.v). The accessors of link-state attributes that return text or binary32 numbers (LsRates.v). Hand-written equality, order and hashing (Equal.v). One-line `Display` of MRT records, headers and messages; `Display`/`Debug` of next hops and route distinguishers (Summary.v). JSON of messages and attributes: src/models/bgp/mod.rs, attributes/mod.rs, nlri.rs, linkstate.rs, flowspec, tunnel_encap.rs, capabilities.rs, error.rs and network/{afi,nexthop,mpls}.rs as far as derived by serde (JsonMsg.v), without AttrSet. JSON of MRT records: src/models/mrt/{mod,table_dump,table_dump_v2,bgp4mp,legacy_bgp}.rs as far as derived by serde (JsonRec.v), without RibGeneric.

Not modelled: network and decompression (`oneio`, `reader.rs`), the reading of command line arguments by `clap` and the log set-up in `bin/main.rs` (its options, runs and exits are modelled), the JavaScript glue of the WebAssembly bindings (the functions of `wasm.rs` themselves are modelled), logging, message texts of errors (but for validation warnings, without their reasons), allocation and performance, TypeScript declarations, `Display`/`Debug` forms not named above, `chrono` time zones, regular expression matching. Threads do not occur in the library. Integer overflow in release builds (wrapping) is modelled only where a comment says so; elsewhere an overflow that the code does not check is a `Panic` (debug build) or is excluded by the field widths in the hypotheses.

## Tests of the theorems

`seeded/LOG.jsonl` has one line per wrong program tried: the definition edited, the edit, the claim it breaks, the theorems that stopped proving, and the theorems tightened because of it. Each try edits the model in a scratch copy, admits the auxiliary lemmas that break and records which property theorems fail to build from what is left.

