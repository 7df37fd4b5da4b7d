{
 "claims": [
  {
   "property": "C01",
   "status": "proved",
   "theorems": [
    "C01_read_takes_raw_bytes",
    "C01_records_partition_input",
    "C01_reading_terminates",
    "C01_delivery_irrelevant",
    "C01_raw_bytes_replay"
   ],
   "note": "Every delivery pattern of the source is covered (short reads, interruptions, failures)."
  },
  {
   "property": "C02",
   "status": "proved",
   "theorems": [
    "C02_clean_eof_iff_empty",
    "C02_error_bytes_are_consumed_bytes",
    "C02_truncation_is_an_error"
   ],
   "note": ""
  },
  {
   "property": "C03",
   "status": "proved",
   "theorems": [
    "C03_header_roundtrip",
    "C03_header_parse_exact",
    "C03_et_short_length_refused",
    "C03_et_without_microseconds_refuted"
   ],
   "note": "C03_et_without_microseconds_refuted records that an extended-timestamp header value without microseconds does not round-trip."
  },
  {
   "property": "C04",
   "status": "proved",
   "theorems": [
    "C04_no_panic"
   ],
   "note": "Streaming reader, raw records, record bodies, BGP messages, attributes and NLRI; each layer also has its own no-panic theorem."
  },
  {
   "property": "C05",
   "status": "proved",
   "theorems": [
    "C05_prefix_roundtrip",
    "C05_prefix_roundtrip_canonical",
    "C05_prefix_parse_exact",
    "C05_prefix_length_refused"
   ],
   "note": "All prefixes; bits that do not travel are cleared."
  },
  {
   "property": "C06",
   "status": "proved",
   "theorems": [
    "C06_nlri_roundtrip",
    "C06_nlri_parse_exact",
    "C06_nlri_default_route_refuted"
   ],
   "note": "C06_nlri_default_route_refuted records that, without Add-Path, a default route that is not last may be misread because of the Add-Path guess."
  },
  {
   "property": "C07",
   "status": "proved",
   "theorems": [
    "C07_aspath_roundtrip",
    "C07_aspath_encode_error_iff"
   ],
   "note": ""
  },
  {
   "property": "C08",
   "status": "proved",
   "theorems": [
    "C08_aspath_parse_exact",
    "C08_aspath_parse_total"
   ],
   "note": ""
  },
  {
   "property": "C09",
   "status": "proved",
   "theorems": [
    "C09_as4_longer_is_ignored",
    "C09_as4_merge_hops",
    "C09_leading_confed_kept_refuted",
    "C09_merged_path_encodes_refuted"
   ],
   "note": "Findings: C09_leading_confed_kept_refuted, C09_merged_path_encodes_refuted."
  },
  {
   "property": "C10",
   "status": "proved",
   "theorems": [
    "C10_coalesce_lossless",
    "C10_coalesce_minimal",
    "C10_coalesce_idempotent",
    "C10_vector_loop_is_fold"
   ],
   "note": ""
  },
  {
   "property": "C11",
   "status": "proved",
   "theorems": [
    "C11_dedup_coalesce_members",
    "C11_dedup_coalesce_idempotent",
    "C11_vector_loop_is_fold",
    "C11_equivalent_routing_equivalence",
    "C11_equivalent_routing_ignores",
    "C11_equivalent_routing_same_members",
    "C11_dedup_coalesce_units",
    "C11_equivalent_routing_exact",
    "C11_no_steps_refuted"
   ],
   "note": "C11_dedup_coalesce_units: the steps of the result (AS numbers in order, sets as sets, each inside or outside of a confederation) are those of the path with direct repetitions dropped; C11_equivalent_routing_exact: paths with any step are equivalent exactly when these agree. Finding: C11_no_steps_refuted (two paths without steps can differ)."
  },
  {
   "property": "C12",
   "status": "proved",
   "theorems": [
    "C12_path_equality",
    "C12_path_equality_equivalence",
    "C12_equal_paths_hash_equal"
   ],
   "note": "Hash is modelled as the sequence of integers fed to the hasher."
  },
  {
   "property": "C13",
   "status": "proved",
   "theorems": [
    "C13_routes_are_all_choices",
    "C13_routes_defined",
    "C13_variation_count_overflow_refuted",
    "C13_empty_set_has_no_route_refuted"
   ],
   "note": "Findings: C13_variation_count_overflow_refuted, C13_empty_set_has_no_route_refuted."
  },
  {
   "property": "C14",
   "status": "proved",
   "theorems": [
    "C14_attributes_roundtrip",
    "C14_attribute_encode",
    "C14_attribute_too_large",
    "C14_two_octet_as",
    "C14_default_flags"
   ],
   "note": "All attribute kinds; ATTR_SET is not encodable by the code. Values of MP_REACH/MP_UNREACH need octet-aligned prefixes (see C06/C49)."
  },
  {
   "property": "C15",
   "status": "proved",
   "theorems": [
    "C15_every_block",
    "C15_block_reported",
    "C15_undecodable_warned",
    "C15_refused_iff",
    "C15_no_panic",
    "C15_header_end_refuted",
    "C15_cut_attribute_refuted"
   ],
   "note": "Exact set of warnings, exact attributes and presence bits for every byte string; the one class of blocks that are refused (end inside a four-octet header) is characterised exactly. Findings: C15_header_end_refuted, C15_cut_attribute_refuted."
  },
  {
   "property": "C16",
   "status": "proved",
   "theorems": [
    "C16_missing_exact",
    "C16_parsed_missing"
   ],
   "note": "Exact."
  },
  {
   "property": "C17",
   "status": "proved",
   "theorems": [
    "C17_raw_reencoded",
    "C17_block_reencoded",
    "C17_long_origin_refuted"
   ],
   "note": "Finding: C17_long_origin_refuted (over-long fixed-length values decode and are not reproduced)."
  },
  {
   "property": "C18",
   "status": "proved",
   "theorems": [
    "C18_framing_exact",
    "C18_suffix",
    "C18_no_panic",
    "C18_length_beyond_data_refuted",
    "C18_marker_refuted"
   ],
   "note": "Acceptance characterised exactly for all byte strings. Findings: C18_length_beyond_data_refuted (a length above the data is cut, not refused), C18_marker_refuted (the marker is never checked)."
  },
  {
   "property": "C19",
   "status": "proved",
   "theorems": [
    "C19_encode_exact",
    "C19_roundtrip",
    "C19_update_encode",
    "C19_refresh_exact",
    "C19_notification_exact",
    "C19_large_open_refuted"
   ],
   "note": "All five kinds. same_message allows only the parser's warnings, the extended flag of OPEN and the presence mask to differ. Finding: C19_large_open_refuted (an OPEN above 4096 octets is written but refused by the parser)."
  },
  {
   "property": "C20",
   "status": "proved",
   "theorems": [
    "C20_encode_exact",
    "C20_roundtrip",
    "C20_parse_exact",
    "C20_no_panic",
    "C20_asn_truncated_refuted",
    "C20_length_ignored_refuted"
   ],
   "note": "Findings: C20_asn_truncated_refuted (AS number above 65535 cut to 16 bits), C20_length_ignored_refuted (the declared length of the parameters is not used)."
  },
  {
   "property": "C21",
   "status": "proved",
   "theorems": [
    "C21_codes_preserved",
    "C21_notification",
    "C21_deprecated"
   ],
   "note": "All pairs, also through NOTIFICATION parsing; deprecated subcodes exact."
  },
  {
   "property": "C22",
   "status": "proved",
   "theorems": [
    "C22_exact",
    "C22_markers",
    "C22_wire",
    "C22_malformed_refuted",
    "C22_link_state_refuted"
   ],
   "note": "Findings: C22_malformed_refuted (an UPDATE whose withdrawn section cannot be read counts as End-of-RIB), C22_link_state_refuted (so does the withdrawal of BGP-LS NLRI)."
  },
  {
   "property": "C23",
   "status": "proved",
   "theorems": [
    "C23_roundtrip",
    "C23_encode_exact",
    "C23_parse_exact",
    "C23_zebra_distinct",
    "C23_unknown_subtype",
    "C23_no_panic",
    "C23_asn_truncated_refuted",
    "C23_mixed_families_refuted",
    "C23_trailing_refuted"
   ],
   "note": "Round trip, exact encoder, exact parser, unknown subtypes, no panic. Findings: 2-octet AS truncation, mixed address families, trailing octets (the _refuted theorems)."
  },
  {
   "property": "C24",
   "status": "proved",
   "theorems": [
    "C24_roundtrip",
    "C24_parse_exact",
    "C24_states",
    "C24_zebra_exact",
    "C24_normal_longer",
    "C24_trailing_refuted"
   ],
   "note": "Round trip, exact parser, state codes, Zebra detection. Finding: trailing octets ignored (C24_trailing_refuted)."
  },
  {
   "property": "C25",
   "status": "proved",
   "theorems": [
    "C25_roundtrip",
    "C25_encode_exact",
    "C25_parse_exact",
    "C25_trailing",
    "C25_no_panic"
   ],
   "note": "Round trip, exact encoder and parser, trailing octets, no panic."
  },
  {
   "property": "C26",
   "status": "proved",
   "theorems": [
    "C26_roundtrip",
    "C26_parsed",
    "C26_accepted",
    "C26_encode_exact",
    "C26_no_panic",
    "C26_utf8",
    "C26_name_dropped_refuted",
    "C26_renumbered_refuted",
    "C26_type_mismatch_refuted"
   ],
   "note": "Round trip for peers numbered 0..n-1, exact parser in both directions, exact encoder for every table, no panic, UTF-8 check characterised. Findings: C26_name_dropped_refuted, C26_renumbered_refuted, C26_type_mismatch_refuted."
  },
  {
   "property": "C27",
   "status": "proved",
   "theorems": [
    "C27_history",
    "C27_step",
    "C27_parsed_table_refuted"
   ],
   "note": "Every history of registrations from a table without peers, as results plus final table, and a one-step form. Finding: C27_parsed_table_refuted (registering on a parsed table with a repeated address overwrites a peer)."
  },
  {
   "property": "C28",
   "status": "proved",
   "theorems": [
    "C28_roundtrip",
    "C28_parse_exact",
    "C28_encode_exact",
    "C28_no_panic",
    "C28_fewer_entries_refuted",
    "C28_path_id_missing_refuted",
    "C28_prefix_path_id_refuted",
    "C28_subtypes"
   ],
   "note": "Round trip, exact parser (as many entries as announced or as can be read), exact encoder, subtype dispatch, no panic. Findings: C28_fewer_entries_refuted, C28_path_id_missing_refuted, C28_prefix_path_id_refuted."
  },
  {
   "property": "C29",
   "status": "proved",
   "theorems": [
    "C29_update_elems",
    "C29_determined",
    "C29_iterator",
    "C29_defaults_refuted",
    "C29_labeled_refuted",
    "C29_second_reach_refuted",
    "C29_as4_aggregator_refuted"
   ],
   "note": "Update elems are determined uniquely by the spec. Findings: C29_defaults_refuted (absent MED/LOCAL_PREF become 0), C29_labeled_refuted, C29_second_reach_refuted, C29_as4_aggregator_refuted."
  },
  {
   "property": "C30",
   "status": "proved",
   "theorems": [
    "C30_rib_elems",
    "C30_determined",
    "C30_no_table",
    "C30_unknown_peer",
    "C30_known_after_unknown_refuted",
    "C30_size_hint_refuted",
    "C30_path_id_refuted",
    "C30_stays_ended"
   ],
   "note": "Findings: C30_known_after_unknown_refuted, C30_size_hint_refuted, C30_path_id_refuted."
  },
  {
   "property": "C31",
   "status": "proved",
   "theorems": [
    "C31_filter_meaning",
    "C31_conjunction",
    "C31_order",
    "C31_negation",
    "C31_multi",
    "C31_route_agrees",
    "C31_route_closed",
    "C31_double_negation_refuted"
   ],
   "note": "match_filter on elements is the Prop semantics 'holds'; lists are conjunctions, independent of order; multi-value filters are disjunctions; route views agree with elements on the fields they have and fail closed otherwise. Finding: C31_double_negation_refuted."
  },
  {
   "property": "C32",
   "status": "proved",
   "theorems": [
    "C32_prefix_filter",
    "C32_contains",
    "C32_families",
    "C32_host_bits_refuted"
   ],
   "note": "For prefixes without host bits, exact/super/sub match exactly equality and inclusion of address sets (C32_contains). Finding: C32_host_bits_refuted shows none of the relations holds with host bits."
  },
  {
   "property": "C33",
   "status": "proved",
   "theorems": [
    "C33_filtered_elems",
    "C33_filtered_records",
    "C33_filtered_fallible",
    "C33_elems_of_records"
   ],
   "note": "For MRT sources and text dumps, default and fallible element iterators and record iterators; termination on every source included (n steps suffice)."
  },
  {
   "property": "C34",
   "status": "proved",
   "theorems": [
    "C34_records",
    "C34_elems",
    "C34_no_errors",
    "C34_reads",
    "C34_short_body_refuted"
   ],
   "note": "usable = values before the first error that stops (source errors; with core dumps also ParseError). Finding: C34_short_body_refuted, a body cut inside an address counts as a source error, so later sound records are not reached."
  },
  {
   "property": "C35",
   "status": "proved",
   "theorems": [
    "C35_record",
    "C35_stream",
    "C35_refused_table",
    "C35_unknown_peer_refuted",
    "C35_dump_as4_refuted",
    "C35_nlri_refuted",
    "C35_dump_cut_refuted",
    "C35_text_refuted"
   ],
   "note": "Record-wise and over whole sources, under comparable/agreeing (known peers, well-formed NLRI, no AS4_PATH in TABLE_DUMP). Findings: C35_unknown_peer_refuted, C35_dump_as4_refuted, C35_nlri_refuted, C35_dump_cut_refuted, C35_text_refuted."
  },
  {
   "property": "C36",
   "status": "proved",
   "theorems": [
    "C36_records",
    "C36_elems",
    "C36_filtered",
    "C36_text_dump"
   ],
   "note": "Records and elements, every source including failing ones; text dumps are refused. The specification (tiled, shown) is in RecoverySpec.v. Element iteration takes a step count: enough steps exist for every source. C36_filtered: filters hide records, never gaps or errors, and the tiling is the one without filters."
  },
  {
   "property": "C37",
   "status": "proved",
   "theorems": [
    "C37_records",
    "C37_elems"
   ],
   "note": "Undamaged means a concatenation of framed records that parse, delivered by a source that does not fail (interruptions allowed)."
  },
  {
   "property": "C38",
   "status": "proved",
   "theorems": [
    "C38_labeled_roundtrip",
    "C38_labeled_wire",
    "C38_deep_stack_refused",
    "C38_accepted",
    "C38_withdrawal_roundtrip",
    "C38_withdrawal_wire",
    "C38_no_panic",
    "C38_missing_path_id_refuted",
    "C38_config"
   ],
   "note": "Finding: C38_missing_path_id_refuted."
  },
  {
   "property": "C39",
   "status": "proved",
   "theorems": [
    "C39_roundtrip",
    "C39_wire",
    "C39_too_long_refused",
    "C39_disorder_refused",
    "C39_accepted",
    "C39_reencode",
    "C39_constructors",
    "C39_no_panic",
    "C39_overread_refuted",
    "C39_short_ipv6_refuted",
    "C39_ipv6_offset_refuted",
    "C39_value_length_panics_refuted"
   ],
   "note": "Rules with the plain prefix components. Findings: C39_overread_refuted, C39_short_ipv6_refuted, C39_ipv6_offset_refuted, C39_value_length_panics_refuted."
  },
  {
   "property": "C40",
   "status": "proved",
   "theorems": [
    "C40_parse_iff",
    "C40_roundtrip",
    "C40_encode_wire",
    "C40_no_panic",
    "C40_incomplete",
    "C40_end_of_data",
    "C40_key_v0_refuted",
    "C40_end_of_data_refuted",
    "C40_prefix_length_refuted"
   ],
   "note": "Findings: C40_key_v0_refuted, C40_end_of_data_refuted, C40_prefix_length_refuted (PDUs the API can build that do not survive)."
  },
  {
   "property": "C41",
   "status": "proved",
   "theorems": [
    "C41_sequence",
    "C41_read_cases",
    "C41_refused",
    "C41_chunking",
    "C41_no_panic",
    "C41_large_report_refuted"
   ],
   "note": "Finding: C41_large_report_refuted (accepted by the slice parser, refused by the reader)."
  },
  {
   "property": "C42",
   "status": "proved",
   "theorems": [
    "C42_frame",
    "C42_only_frames",
    "C42_short",
    "C42_stream",
    "C42_no_panic"
   ],
   "note": "All byte strings: a message is a frame and a rest or refused; nothing after the frame matters."
  },
  {
   "property": "C43",
   "status": "proved",
   "theorems": [
    "C43_regular_roundtrip",
    "C43_large_roundtrip",
    "C43_extended_roundtrip",
    "C43_ipv6_extended_roundtrip",
    "C43_regular_reencode",
    "C43_large_reencode",
    "C43_ipv6_extended_reencode",
    "C43_extended_reencode",
    "C43_lengths",
    "C43_no_panic",
    "C43_wide_asn_refuted",
    "C43_well_known_alias_refuted",
    "C43_reserved_bits_refuted"
   ],
   "note": "Findings: C43_wide_asn_refuted, C43_well_known_alias_refuted, C43_reserved_bits_refuted."
  },
  {
   "property": "C44",
   "status": "proved",
   "theorems": [
    "C44_records",
    "C44_elems",
    "C44_sized",
    "C44_answers",
    "C44_export",
    "C44_history",
    "C44_long_path_refuted",
    "C44_withdrawal_refuted",
    "C44_mixed_ids_refuted",
    "C44_paths_refuted"
   ],
   "note": "For every sequence of elements, accepted or refused, and every order in which the hash maps may be iterated; elements with fields of the widths the formats have, next hop of the family of the prefix, path identifiers on all or none of the routes of a prefix, records of at most 16 MiB (the reader's limit). Findings: attributes longer than 255 octets make the export fail and stay failing (C44_long_path_refuted), withdrawals come back as announcements (C44_withdrawal_refuted), mixed path identifiers lose routes (C44_mixed_ids_refuted), several paths of one peer to one prefix merge (C44_paths_refuted)."
  },
  {
   "property": "C45",
   "status": "proved",
   "theorems": [
    "C45_role_pairs",
    "C45_symmetric",
    "C45_role_codes"
   ],
   "note": "Exact, symmetric; role codes exact."
  },
  {
   "property": "C46",
   "status": "proved",
   "theorems": [
    "C46_decode",
    "C46_roundtrip",
    "C46_decoders",
    "C46_no_panic",
    "C46_classes",
    "C46_next_hop_queries",
    "C46_enh_safi_refuted",
    "C46_restart_time_refuted"
   ],
   "note": "Every capability value; decoders exact on all byte strings. Findings: C46_enh_safi_refuted (upper SAFI octet ignored), C46_restart_time_refuted (restart time above 4095 is cut). C46_classes gives the deprecated, reserved and experimental codes exactly."
  },
  {
   "property": "C47",
   "status": "proved",
   "theorems": [
    "C47_origin_unique",
    "C47_origins_are_last_hops",
    "C47_collector_is_first_hop",
    "C47_flat_path_iff",
    "C47_flat_path_is_the_route",
    "C47_contains_asn",
    "C47_required_width"
   ],
   "note": ""
  },
  {
   "property": "C48",
   "status": "proved",
   "theorems": [
    "C48_tunnel_accessors_only",
    "C48_tunnels_by_type",
    "C48_added_tunnel",
    "C48_added_sub",
    "C48_sfp_exact",
    "C48_prefix_sid_exact",
    "C48_bier_exact",
    "C48_bfd_exact",
    "C48_aigp_exact",
    "C48_traffic_eng_exact",
    "C48_tunnel_exact",
    "C48_sfp_encode",
    "C48_prefix_sid_encode",
    "C48_bier_encode",
    "C48_bfd_encode",
    "C48_tunnel_encode",
    "C48_aigp_encode",
    "C48_roundtrip",
    "C48_reencode",
    "C48_no_panic",
    "C48_metric",
    "C48_metric_absent",
    "C48_tunnel_accessors",
    "C48_tunnel_reencode_refuted",
    "C48_endpoint_rfc9012_refuted"
   ],
   "note": "Exact characterisation of every parser and encoder. Findings: C48_tunnel_reencode_refuted (unnamed sub-TLV types collapse to 0 and trailing octets vanish, so re-encoding is not the identity for tunnels), C48_endpoint_rfc9012_refuted (the endpoint accessor does not recognise the RFC 9012 layout)."
  },
  {
   "property": "C49",
   "status": "proved",
   "theorems": [
    "C49_reach_roundtrip",
    "C49_reach_parse",
    "C49_unreach_roundtrip",
    "C49_link_local",
    "C49_networks",
    "C49_labeled_networks",
    "C49_labeled_roundtrip",
    "C49_labeled_id_refused",
    "C49_labeled_withdrawal",
    "C49_link_state",
    "C49_reach_exact",
    "C49_unreach_exact",
    "C49_rib_abbreviated",
    "C49_rib_full",
    "C49_no_panic",
    "C49_no_next_hop_refuted",
    "C49_labeled_withdrawal_dropped_refuted",
    "C49_flowspec_refuted",
    "C49_link_state_encode_refuted"
   ],
   "note": "Round trips for plain, labelled and Link-State forms, exact characterisation of accepted announcements/withdrawals, RIB-dump abbreviation, no panic. Findings: C49_no_next_hop_refuted, C49_labeled_withdrawal_dropped_refuted, C49_flowspec_refuted, C49_link_state_encode_refuted."
  },
  {
   "property": "C50",
   "status": "proved",
   "theorems": [
    "C50_attr_exact",
    "C50_roundtrip",
    "C50_accessors",
    "C50_nlri_framing",
    "C50_node_nlri",
    "C50_link_nlri",
    "C50_prefix_nlri",
    "C50_desc_cover",
    "C50_no_panic",
    "C50_link_router_id_refuted",
    "C50_rfc7752_node_refuted",
    "C50_ipv6_short_refuted",
    "C50_accessors_only"
   ],
   "note": "Attribute parser characterised exactly, round trip proved for every iteration order of the three hash maps, accessors and NLRI descriptors characterised, no panic. Findings: C50_link_router_id_refuted, C50_rfc7752_node_refuted, C50_ipv6_short_refuted. The string and f32 accessors are in C95."
  },
  {
   "property": "C51",
   "status": "proved",
   "theorems": [
    "C51_accessors",
    "C51_aggregator",
    "C51_effective_path",
    "C51_iter_communities",
    "C51_ipv6_ext_refuted",
    "C51_built"
   ],
   "note": "Finding: C51_ipv6_ext_refuted."
  },
  {
   "property": "C52",
   "status": "proved",
   "theorems": [
    "C52_accepted",
    "C52_reported",
    "C52_no_panic",
    "C52_refresh_warnings"
   ],
   "note": "Exact acceptance and contents for every byte string."
  },
  {
   "property": "C53",
   "status": "proved",
   "theorems": [
    "C53_roundtrip",
    "C53_single_roundtrip",
    "C53_parse_exact",
    "C53_single_exact",
    "C53_encode_exact",
    "C53_no_panic",
    "C53_truncated_refuted"
   ],
   "note": "Batches and single entries; exact parser and encoder. Finding: C53_truncated_refuted."
  },
  {
   "property": "C54",
   "status": "proved",
   "theorems": [
    "C54_roundtrip",
    "C54_parse_exact",
    "C54_encode_exact",
    "C54_no_panic",
    "C54_name_refuted"
   ],
   "note": "Round trip for ASCII names, exact parser and encoder. Finding: C54_name_refuted."
  },
  {
   "property": "C55",
   "status": "proved",
   "theorems": [
    "C55_roundtrip",
    "C55_equal",
    "C55_length_recomputed",
    "C55_written",
    "C55_bytes",
    "C55_kind",
    "C55_batch_of_one_refuted",
    "C55_type_unchecked_refuted",
    "C55_oversize_refuted"
   ],
   "note": "Findings: C55_batch_of_one_refuted, C55_type_unchecked_refuted, C55_oversize_refuted (records above 16 MiB are written but not read)."
  },
  {
   "property": "C56",
   "status": "proved",
   "theorems": [
    "C56_encode_panics_exact",
    "C56_message_no_panic",
    "C56_bgp_no_panic",
    "C56_reencode"
   ],
   "note": "The length overflow is a panic only in builds with overflow checks."
  },
  {
   "property": "C57",
   "status": "proved",
   "theorems": [
    "C57_exact",
    "C57_encoded_untouched",
    "C57_cut_recognised"
   ],
   "note": ""
  },
  {
   "property": "C58",
   "status": "proved",
   "theorems": [
    "C58_record_elems",
    "C58_no_panic",
    "C58_time_exact",
    "C58_dump_as4_refuted"
   ],
   "note": "Finding: C58_dump_as4_refuted (AS4_PATH ignored in TABLE_DUMP). Time order is for headers without microseconds."
  },
  {
   "property": "C59",
   "status": "proved",
   "theorems": [
    "C59_elem_roundtrip",
    "C59_communities",
    "C59_parsed",
    "C59_atomic_refuted"
   ],
   "note": "Finding: C59_atomic_refuted."
  },
  {
   "property": "C60",
   "status": "proved",
   "theorems": [
    "C60_negation",
    "C60_refused",
    "C60_keywords",
    "C60_lists",
    "C60_parts",
    "C60_numbers",
    "C60_asn_lists"
   ],
   "note": "Parsing of the filter texts; the readers of prefixes, addresses, regexes and times (external crates) are parameters."
  },
  {
   "property": "C61",
   "status": "proved",
   "theorems": [
    "C61_raw",
    "C61_filtered_raw",
    "C61_elementor",
    "C61_elementor_raw",
    "C61_text"
   ],
   "note": "Warnings and the Zebra notice are not modelled."
  },
  {
   "property": "C62",
   "status": "proved",
   "theorems": [
    "C62_core_dump",
    "C62_no_dump"
   ],
   "note": "The dump file is modelled as a cell; writing is taken to succeed."
  },
  {
   "property": "C63",
   "status": "proved",
   "theorems": [
    "C63_routes",
    "C63_filtered",
    "C63_filtered_fallible"
   ],
   "note": "Totality, no panic, order and filtering for the default and fallible route iterators."
  },
  {
   "property": "C64",
   "status": "proved",
   "theorems": [
    "C64_search",
    "C64_gap"
   ],
   "note": "C64_search holds of quiet sources for the final error; gap_true holds on every source."
  },
  {
   "property": "C65",
   "status": "proved",
   "theorems": [
    "C65_records",
    "C65_elems",
    "C65_interrupted_refuted"
   ],
   "note": "Finding C65_interrupted_refuted: an interrupted read during a scan is not retried and ends the iteration."
  },
  {
   "property": "C66",
   "status": "proved",
   "theorems": [
    "C66_isolated",
    "C66_tail_refuted",
    "C66_close_refuted"
   ],
   "note": "Findings: C66_tail_refuted (intact records at the end are swallowed when fewer than the confirmations remain after framing damage), C66_close_refuted (two unreadable records close together also cost the intact one between)."
  },
  {
   "property": "C67",
   "status": "proved",
   "theorems": [
    "C67_content",
    "C67_peer",
    "C67_peer_size",
    "C67_initiation",
    "C67_session",
    "C67_last_empty_refuted",
    "C67_reason_length_refuted",
    "C67_mirror_length_refuted",
    "C67_local_rib_refuted"
   ],
   "note": "Exact acceptance per layout. Findings: C67_last_empty_refuted, C67_reason_length_refuted, C67_mirror_length_refuted, C67_local_rib_refuted."
  },
  {
   "property": "C68",
   "status": "proved",
   "theorems": [
    "C68_header",
    "C68_message",
    "C68_refused"
   ],
   "note": "Exact acceptance of the header."
  },
  {
   "property": "C69",
   "status": "proved",
   "theorems": [
    "C69_converts",
    "C69_refused",
    "C69_time",
    "C69_survives",
    "C69_microsecond_refuted"
   ],
   "note": "C69_time uses Flocq and so the standard library's real-number axioms. Finding: C69_microsecond_refuted."
  },
  {
   "property": "C70",
   "status": "proved",
   "theorems": [
    "C70_order",
    "C70_back",
    "C70_filter",
    "C70_overflow_refuted"
   ],
   "note": "Uses Flocq and so the standard library's real-number axioms. Finding: C70_overflow_refuted (microseconds not checked)."
  },
  {
   "property": "C71",
   "status": "proved",
   "theorems": [
    "C71_records",
    "C71_elems",
    "C71_time",
    "C71_export",
    "C71_ipv6_hop_refuted",
    "C71_path_id_refuted",
    "C71_long_path_refuted"
   ],
   "note": "C71_time uses the stdlib axioms of the reals (through C70). Findings: IPv6 next hops come back as IPv4 (C71_ipv6_hop_refuted), path identifiers corrupt the prefix (C71_path_id_refuted), one long attribute blocks the export (C71_long_path_refuted)."
  },
  {
   "property": "C72",
   "status": "proved",
   "theorems": [
    "C72_updates",
    "C72_elems",
    "C72_times",
    "C72_text",
    "C72_filters_refuted"
   ],
   "note": "C72_filters_refuted (finding): the filters set on the parser have no effect on update iteration."
  },
  {
   "property": "C73",
   "status": "proved",
   "theorems": [
    "C73_mrt",
    "C73_record",
    "C73_bgp",
    "C73_find_all",
    "C73_find",
    "C73_update",
    "C73_mrt_update",
    "C73_trailing_refuted",
    "C73_order_refuted",
    "C73_aggregator_refuted",
    "C73_gap_refuted"
   ],
   "note": "The remarks bgp.truncated and bgp.trailing lie outside the range of the message's node or out of order, an AGGREGATOR of odd length shows octets of the router id, and a KEEPALIVE body has no node: C73_trailing_refuted, C73_order_refuted, C73_aggregator_refuted, C73_gap_refuted. Label text beyond the numbers shown is not modelled."
  },
  {
   "property": "C74",
   "status": "proved",
   "theorems": [
    "C74_events",
    "C74_fallible",
    "C74_unfiltered",
    "C74_text",
    "C74_fused",
    "C74_dissecting",
    "C74_spans",
    "C74_refresh",
    "C74_whole",
    "C74_stops_refuted",
    "C74_filters_refuted"
   ],
   "note": "Theorems C74_* in PropDiagnostic.v. C74_fallible holds of every source, since no body fails with the error that stands for the end (C101_kinds). Findings: C74_stops_refuted (an unknown record type ends diagnostic iteration although the fallible iterator goes on), C74_filters_refuted (filters are not applied)."
  },
  {
   "property": "C75",
   "status": "proved",
   "theorems": [
    "C75_dump",
    "C75_header",
    "C75_shifted_hop_refuted",
    "C75_long_prefix_refuted",
    "C75_metric_refuted",
    "C75_internal_refuted",
    "C75_set_refuted"
   ],
   "note": "Parsers for addresses and prefixes (std, ipnet) are parameters that accept only their characters (sane); ex_ps is one. Findings: C75_shifted_hop_refuted (a route one place left whose next hop without its first digit is an address is dropped, with the further routes of the prefix), C75_long_prefix_refuted (prefix longer than its column: routes go to the previous prefix), C75_metric_refuted (metric of 8+ digits drops the route), C75_internal_refuted (flag i in the fourth place drops routes), C75_set_refuted ({a,b} lost)."
  },
  {
   "property": "C76",
   "status": "proved",
   "theorems": [
    "C76_pieces",
    "C76_no_panic",
    "C76_panic_refuted",
    "C76_failure_refuted"
   ],
   "note": "Findings: C76_panic_refuted (a multi-byte character across the next-hop column panics), C76_failure_refuted (a failing source ends the elements without an error)."
  },
  {
   "property": "C77",
   "status": "proved",
   "theorems": [
    "C77_text",
    "C77_mrt",
    "C77_first",
    "C77_pieces_refuted",
    "C77_view_refuted",
    "C77_cut_refuted"
   ],
   "note": "Findings: C77_pieces_refuted (detection depends on the size of the first read; an interruption is an error), C77_view_refuted (a valid MRT file whose view is named BGP table is taken for text), C77_cut_refuted (a character across octet 128 hides a text dump)."
  },
  {
   "property": "C78",
   "status": "proved",
   "theorems": [
    "C78_time",
    "C78_calendar",
    "C78_hidden_refuted"
   ],
   "note": "chrono is modelled by the proleptic Gregorian calendar, checked against next_day. Finding: C78_hidden_refuted (an invalid dotted date hides a later valid one; a dotted date inside a longer number counts)."
  },
  {
   "property": "C79",
   "status": "proved",
   "theorems": [
    "C79_elements"
   ],
   "note": "For any parsers of addresses and prefixes."
  },
  {
   "property": "C80",
   "status": "proved",
   "theorems": [
    "C80_roundtrip",
    "C80_form",
    "C80_in_range",
    "C80_empty_refuted",
    "C80_mixed_refuted"
   ],
   "note": "Findings: C80_empty_refuted (a path with an empty sequence is read back without it), C80_mixed_refuted (in a mixture of the two forms a number is appended to a labelled sequence although a flag is meant to prevent it: the flag is never set). JSON values are trees: their text is not modelled."
  },
  {
   "property": "C81",
   "status": "proved",
   "theorems": [
    "C81_roundtrip",
    "C81_community",
    "C81_in_range",
    "C81_finite",
    "C81_names",
    "C81_nan_refuted"
   ],
   "note": "Findings: C81_nan_refuted (an element with a community whose rate is NaN or infinite is written with null and cannot be read back); C81_names shows that the types are written ANNOUNCE and WITHDRAW though the documentation says lower case. The texts of addresses and prefixes are parameters; the text of JSON, including that of floating point numbers, is not modelled. C81_finite: an element that is read back had only finite times and rates."
  },
  {
   "property": "C82",
   "status": "proved",
   "theorems": [
    "C82_update",
    "C82_other",
    "C82_elements",
    "C82_not_message",
    "C82_no_panic",
    "C82_silent_refuted",
    "C82_origin_asns_refuted"
   ],
   "note": "C82_update, C82_other, C82_elements, C82_not_message, C82_no_panic. Documents are JSON trees; the text readers of addresses and prefixes are parameters. Findings: an UPDATE with one unreadable field is taken for no UPDATE and gives an empty list without error (C82_silent_refuted); elements have a path but no origin AS numbers (C82_origin_asns_refuted)."
  },
  {
   "property": "C83",
   "status": "proved",
   "theorems": [
    "C83_elements",
    "C83_any_time",
    "C83_near",
    "C83_only",
    "C83_errors",
    "C83_no_panic",
    "C83_full",
    "C83_full_errors",
    "C83_two_octets_refuted",
    "C83_early_refuted"
   ],
   "note": "C83_elements (exact time; uses the axioms of the real numbers), C83_any_time, C83_only, C83_errors, C83_no_panic, C83_full, C83_full_errors. Findings: the second attempt with AS numbers of two octets never succeeds, and such a message loses its path (C83_two_octets_refuted); times in the first hours of 1970 are rounded twice (C83_early_refuted). C83_near: for every time from 1970 to 2106, not only whole microseconds, the second is kept and the rest to two microseconds."
  },
  {
   "property": "C84",
   "status": "proved",
   "theorems": [
    "C84_agree",
    "C84_ipv6_refuted",
    "C84_well_known_refuted"
   ],
   "note": "C84_agree. Findings: the service lists an IPv6 announcement with a link-local next hop twice, which is two elements by JSON and one by the raw message (C84_ipv6_refuted); a well-known community is a pair of numbers by JSON (C84_well_known_refuted)."
  },
  {
   "property": "C85",
   "status": "proved",
   "theorems": [
    "C85_readable",
    "C85_records",
    "C85_one",
    "C85_total",
    "C85_native",
    "C85_pieces",
    "C85_js",
    "C85_sizes",
    "C85_sized",
    "C85_generator",
    "C85_ended",
    "C85_dissect",
    "C85_short_refuted",
    "C85_skip_refuted",
    "C85_interleaved_refuted"
   ],
   "note": "Element lists and lengths of every sequence of calls, with the state of the module (peer table) explicit; the native iterator is that of C33. Findings: C85_short_refuted (the JavaScript generator ends at a table dump with the short length, which the native reader reads), C85_skip_refuted (a record that cannot be read ends the reading without any report and hides the records after it), C85_interleaved_refuted (two generators share the peer table and mix up peers). C85_ended: a generator that has ended stays ended."
  },
  {
   "property": "C86",
   "status": "proved",
   "theorems": [
    "C86_bmp",
    "C86_openbmp",
    "C86_no_panic",
    "C86_one",
    "C86_update",
    "C86_full",
    "C86_dissect"
   ],
   "note": "The JSON text between module and JavaScript is not modelled; results are the values written to it."
  },
  {
   "property": "C87",
   "status": "proved",
   "theorems": [
    "C87_panic",
    "C87_total",
    "C87_swap",
    "C87_transitive",
    "C87_equal_alike",
    "C87_reflexive",
    "C87_equal",
    "C87_meaning",
    "C87_record",
    "C87_source",
    "C87_records",
    "C87_routes",
    "C87_consistent_refuted",
    "C87_nan_refuted"
   ],
   "note": "C87_panic says exactly when a comparison panics, C87_total, C87_swap, C87_transitive, C87_equal_alike, C87_reflexive and C87_equal are the laws of the order, C87_meaning its meaning in real numbers, C87_record and C87_source that elements of records and sources are comparable, C87_records the order by seconds and microseconds, C87_routes the same for route elements. Findings: C87_consistent_refuted (elements that differ may be equal by the order although the type also has an equality of all fields), C87_nan_refuted (a time that is not a number panics, even compared with itself)."
  },
  {
   "property": "C88",
   "status": "proved",
   "theorems": [
    "C88_header",
    "C88_psv",
    "C88_display",
    "C88_route",
    "C88_line",
    "C88_psv_tells",
    "C88_display_tells",
    "C88_route_tells",
    "C88_communities",
    "C88_path",
    "C88_debug",
    "C88_path_id_refuted",
    "C88_segments_refuted",
    "C88_bandwidth_refuted"
   ],
   "note": "C88_header, C88_psv, C88_display and C88_route give the columns, C88_line that it is one printable line, C88_psv_tells, C88_display_tells and C88_route_tells when two lines are the same, C88_communities and C88_path the same for lists of communities and paths, C88_debug for the debug form of prefixes. The texts of std numbers and addresses are assumed to meet shows_ok, which C88_ex_shows shows of a simple instance. Findings: C88_path_id_refuted (the path identifier is not shown), C88_segments_refuted (segment kinds and bounds are not shown), C88_bandwidth_refuted (a community built by hand can have the text of a link bandwidth)."
  },
  {
   "property": "C89",
   "status": "proved",
   "theorems": [
    "C89_registry",
    "C89_kinds",
    "C89_width",
    "C89_order",
    "C89_convert",
    "C89_text",
    "C89_text_back",
    "C89_parsed",
    "C89_encode",
    "C89_read",
    "C89_plus_refuted",
    "C89_truncates_refuted",
    "C89_equal_bytes_refuted"
   ],
   "note": "Findings: the documented pattern is not the one accepted, a plus sign may stand before the digits (C89_plus_refuted); conversion to u16 keeps the low half silently (C89_truncates_refuted); equal numbers may have different bytes, for the flag takes no part in equality (C89_equal_bytes_refuted). The hash is what is fed to the hasher."
  },
  {
   "property": "C90",
   "status": "proved",
   "theorems": [
    "C90_message",
    "C90_attributes",
    "C90_record",
    "C90_records",
    "C90_elements",
    "C90_times",
    "C90_json",
    "C90_psv",
    "C90_nan_refuted"
   ],
   "note": "A compositional typing of the parsers carries the ranges from octets to attributes, messages, records, the peer table and elements; C90_json and C90_psv join it with C81 and C88, so that their hypotheses hold of everything read. Finding: C90_nan_refuted \u2014 a record with a link bandwidth that is not a number gives an element whose JSON cannot be read back."
  },
  {
   "property": "C91",
   "status": "proved",
   "theorems": [
    "C91_format",
    "C91_refused",
    "C91_is",
    "C91_is_not",
    "C91_none_of",
    "C91_absent",
    "C91_one_meaning",
    "C91_whole_times",
    "C91_times",
    "C91_elements",
    "C91_records",
    "C91_counts",
    "C91_hex",
    "C91_recovered_elements",
    "C91_recovered_records",
    "C91_hex_refused",
    "C91_sink_fails",
    "C91_sink_ok",
    "C91_fraction_refuted",
    "C91_comma_refuted",
    "C91_regex_refuted",
    "C91_count_refuted",
    "C91_panic_refuted",
    "C91_silent_refuted",
    "C91_header_refuted",
    "C91_println_refuted",
    "C91_text_refuted",
    "C91_less_refuted"
   ],
   "note": "The options and the sink are data of the model; text forms are parameters with the law that they can be read back (C91_ex_texts gives such forms). C91_refused/C91_is/C91_is_not/C91_none_of/C91_absent/C91_one_meaning/C91_whole_times say what the options ask; the rest what is printed. Findings: C91_fraction_refuted (the fraction of a time option is dropped), C91_comma_refuted and C91_regex_refuted (values that cannot be negated or given), C91_count_refuted (with -e -r, or -e in text format, elements that are not wanted are counted), C91_panic_refuted (a refused option value panics while a refused expression is reported), C91_silent_refuted (a truncated source is success), C91_header_refuted (no header without elements), C91_println_refuted (a closed pipe makes a counting run panic), C91_text_refuted (text dumps print nothing at record level or with recovery), C91_less_refuted (recovery may print less)."
  },
  {
   "property": "C92",
   "status": "proved",
   "theorems": [
    "C92_session",
    "C92_kind",
    "C92_update",
    "C92_counts",
    "C92_elements",
    "C92_open",
    "C92_states",
    "C92_notification",
    "C92_refresh",
    "C92_peers",
    "C92_rib",
    "C92_dumps",
    "C92_blocks",
    "C92_hex",
    "C92_names",
    "C92_attr_tells",
    "C92_warning_tells",
    "C92_tells",
    "C92_update_tells",
    "C92_path_id_refuted",
    "C92_rib_path_refuted",
    "C92_next_hop_refuted",
    "C92_octets_refuted",
    "C92_geo_refuted",
    "C92_map_order_refuted",
    "C92_labeled_refuted",
    "C92_empty_heading_refuted"
   ],
   "note": "Texts of std addresses and numbers, of error codes, of reasons and of seven attribute kinds printed by derived Debug are parameters, assumed to be on one line. Findings: path identifiers of routes and RIB entries, link-local next hops and route distinguishers, octets of unknown attributes and geographic tables do not appear (C92_path_id_refuted, C92_rib_path_refuted, C92_next_hop_refuted, C92_octets_refuted, C92_geo_refuted); the text of a BGP-LS attribute depends on hash map order (C92_map_order_refuted); labelled routes have lines but no elements (C92_labeled_refuted); an OPEN with raw parameters has an empty heading (C92_empty_heading_refuted)."
  },
  {
   "property": "C93",
   "status": "proved",
   "theorems": [
    "C93_crc",
    "C93_digits",
    "C93_name",
    "C93_place",
    "C93_shared",
    "C93_burst",
    "C93_four",
    "C93_inside",
    "C93_unique_refuted",
    "C93_documented_refuted"
   ],
   "note": "The table driven loop is proved equal to long division of bit lists (C93_crc). Names: C93_name, C93_place, C93_shared (exact criterion for sharing), C93_burst, C93_four, C93_inside. Findings: C93_unique_refuted (http://plumless/rib.gz and http://buckeroo/rib.gz share one cache file, so the second location is answered with the first one's content), C93_documented_refuted (the documented form cache-<crc32>-<file name> is never the one used). What oneio does with the name is not modelled."
  },
  {
   "property": "C94",
   "status": "proved",
   "theorems": [
    "C94_json",
    "C94_calls",
    "C94_fields",
    "C94_order",
    "C94_others",
    "C94_tells"
   ],
   "note": "serde_json is modelled down to the octets for these messages (sorted map, compact writer, escapes); a separate JSON reader gets the tree back (C94_json). C94_calls and C94_fields say what each member is, C94_order that the order of calls does not matter, C94_tells that texts tell messages. Display of addresses and prefixes is a parameter."
  },
  {
   "property": "C95",
   "status": "proved",
   "theorems": [
    "C95_names",
    "C95_bandwidths",
    "C95_bandwidths_only",
    "C95_loss",
    "C95_loss_only",
    "C95_loss_order",
    "C95_loss_distinct_refuted"
   ],
   "note": "C95_names, C95_bandwidths and C95_loss with their _only halves, C95_loss_order; the numeric accessors of C50 and those of tunnels (C48) get converses in the same file. Finding: C95_loss_distinct_refuted (different losses near 50 per cent on the wire give the same number)."
  },
  {
   "property": "C96",
   "status": "proved",
   "theorems": [
    "C96_traffic_eng",
    "C96_extended",
    "C96_geo",
    "C96_header",
    "C96_equivalence",
    "C96_per_peer",
    "C96_attr_type",
    "C96_attr_named",
    "C96_hashed",
    "C96_time_bits",
    "C96_hash_refuted",
    "C96_nan_refuted",
    "C96_order_refuted"
   ],
   "note": "C96_traffic_eng, C96_extended, C96_geo, C96_header, C96_equivalence, C96_per_peer, C96_attr_type, C96_attr_named, C96_hashed, C96_time_bits (the bits are those of Flocq's IEEE encoding; NaN excepted). Findings: C96_hash_refuted (a header built with a time of minus zero equals one with plus zero and hashes differently), C96_nan_refuted (Eq is claimed but a NaN time is not equal to itself), C96_order_refuted (Unknown(1) compares as equal to ORIGIN without being equal)."
  },
  {
   "property": "C97",
   "status": "proved",
   "theorems": [
    "C97_record",
    "C97_header",
    "C97_record_tells",
    "C97_header_tells",
    "C97_parsed",
    "C97_distinguisher",
    "C97_next_hop"
   ],
   "note": "Display of addresses is a parameter with the hypotheses of C88 (characters, injectivity), met by an example; C97_parsed shows every parsed record meets the other hypotheses. The columns of a generic RIB, which the parser never returns, are not modelled."
  },
  {
   "property": "C98",
   "status": "proved",
   "theorems": [
    "C98_message",
    "C98_attributes",
    "C98_nlri",
    "C98_flags",
    "C98_in_range",
    "C98_again",
    "C98_names",
    "C98_families",
    "C98_warnings_refuted",
    "C98_mask_refuted",
    "C98_bandwidth_refuted",
    "C98_labels_refuted",
    "C98_members",
    "C98_codes",
    "C98_map_keys",
    "C98_errors",
    "C98_variants",
    "C98_words"
   ],
   "note": "C98_message: every message in range whose floats are finite and whose paths C80 keeps is read back from its JSON as the same message (of an UPDATE with the list of attributes, no warnings and the types of the list), for every order of the entries of link-state maps; C98_attributes, C98_nlri the same for attribute lists and reachability information; C98_flags the text of every flag octet and that it is read back; C98_in_range every message that is read from any JSON is in range and claims the attribute types of its list; C98_again it can be written and read again; C98_names, C98_families the names. Findings: C98_warnings_refuted (warnings are lost), C98_mask_refuted (an attribute cut off in parsing counts as present before and not after), C98_bandwidth_refuted (a parsed infinite bandwidth makes the JSON unreadable), C98_labels_refuted (a labelled prefix without labels is read although its constructor refuses it). Not modelled: the JSON of AttrSet; serde_json's text layer; the text of addresses and numbers is a parameter with read-back as hypothesis. The names of nested members, variants and codes (C98_members, C98_variants, C98_codes, C98_errors, C98_map_keys, C98_words) are listed in PropJsonNames.v as the declarations in /repo have them, apart from the model's tables."
  },
  {
   "property": "C99",
   "status": "proved",
   "theorems": [
    "C99_members",
    "C99_codes",
    "C99_states",
    "C99_record",
    "C99_elements",
    "C99_in_range",
    "C99_again",
    "C99_peer_type",
    "C99_table",
    "C99_index",
    "C99_names",
    "C99_private_place_refuted",
    "C99_dangling_refuted"
   ],
   "note": "C99_record is the round trip for every kind of record, C99_elements the elements of any sequence of records; C99_in_range and C99_again are for all JSON read; C99_peer_type, C99_table, C99_index, C99_names say what is written. Not modelled: RibGeneric (refused by the parser), AttrSet, other encodings that derived readers accept. Findings: coordinates that are not numbers, which RFC 6397 uses for unknown places, are written as nulls that cannot be read (C99_private_place_refuted); a table whose addresses lead to no peer is accepted (C99_dangling_refuted). Nested names: C99_members, C99_codes, C99_states."
  },
  {
   "property": "C100",
   "status": "proved",
   "theorems": [
    "C100_message",
    "C100_attributes",
    "C100_record",
    "C100_records",
    "C100_message_json",
    "C100_file"
   ],
   "note": "ParsedFacts goes through every parser of messages, attributes and records and shows that what it gives is in range (C100_message, C100_attributes, C100_record, C100_records); with C98 and C99 this gives the JSON round trip end to end (C100_message_json, C100_file). C90 says the same of elements."
  },
  {
   "property": "C101",
   "status": "proved",
   "theorems": [
    "C101_kinds",
    "C101_fallible",
    "C101_default",
    "C101_default_refuted"
   ],
   "note": "C101_kinds classifies the errors of all bodies, C101_fallible relates fallible iteration to the framing item by item, C101_default relates default iteration to raw iteration. Finding: C101_default_refuted, a body cut inside an address fails with an I/O error and ends default iteration although sound records follow."
  },
  {
   "property": "C102",
   "status": "proved",
   "theorems": [
    "C102_join",
    "C102_join_elems",
    "C102_join_default",
    "C102_damage",
    "C102_damage_elems",
    "C102_dump_refuted"
   ],
   "note": "C102_dump_refuted: when the last entry of a TABLE_DUMP record runs exactly four octets past the declared length, four more octets of the source are read for it (the correction for historical files), so damage to the attribute length can shift the framing of the records that follow. C102_join* assume the first file is framed to its end without error; C102_join_default also that no body in it fails with an I/O error (C101_default_refuted shows that matters)."
  }
 ]
}