{"id": "C01", "title": "MRT framing is lossless", "statement": "Reading raw MRT records one after another from any byte stream partitions the consumed bytes: the concatenation of raw_bytes() of the records returned so far, followed by the bytes not yet read, is exactly the input, and when the reader signals a clean end of file the records' raw bytes concatenate to the whole input.", "quantifier": "every finite byte stream and every number of successive reads", "why_tests_cant": "an arbitrary number of records of arbitrary length and arbitrary content; a test only checks files it has", "anchors": ["src/parser/mrt/mrt_record.rs:chunk_mrt_record", "src/parser/mrt/mrt_record.rs:RawMrtRecord::raw_bytes", "src/parser/mrt/mrt_header.rs:parse_common_header_with_bytes"]}
{"id": "C02", "title": "Clean end of file is distinguished from truncation", "statement": "A record read reports a clean end of file exactly when no byte remains; if at least one byte remains but the record is cut short (in the header, the microsecond field or the body), an error other than clean-EOF is reported and the bytes attached to the error are exactly the bytes consumed.", "quantifier": "every byte stream, every truncation point of every record", "why_tests_cant": "the truncation point ranges over every offset of every record", "anchors": ["src/parser/mrt/mrt_record.rs:chunk_mrt_record_with_context", "src/parser/mrt/mrt_record.rs:CapturingReader"]}
{"id": "C03", "title": "MRT common header codec", "statement": "Encoding a common header whose microsecond field is present exactly for BGP4MP_ET and whose length is representable, then parsing it, returns the same header; conversely re-encoding a parsed header gives back the 12 or 16 header bytes read. BGP4MP_ET headers declaring fewer than 4 bytes are rejected.", "quantifier": "every header value and every 12/16 byte header on the wire", "why_tests_cant": "2^32 timestamps x lengths x types; boundary at length 4 and at u32 overflow", "anchors": ["src/parser/mrt/mrt_header.rs:parse_common_header_with_bytes", "src/models/mrt/mod.rs:CommonHeader", "src/parser/mrt/mrt_header.rs:CommonHeader::encode"]}
{"id": "C04", "title": "No input makes the parser panic", "statement": "Parsing any byte string as an MRT record (all supported record types), as a BGP message, as path attributes or as NLRI returns a value or an error; it never indexes out of range, underflows a length or hits an unreachable branch.", "quantifier": "every byte string, every entry type/subtype, every AS-number width and add-path setting", "why_tests_cant": "the input space is unbounded and malformed lengths interact", "anchors": ["src/parser/mrt/mrt_record.rs:parse_mrt_body", "src/parser/bgp/messages.rs:parse_bgp_message", "src/parser/bgp/attributes/mod.rs:parse_attributes", "src/parser/utils.rs:ReadUtils"]}
{"id": "C05", "title": "Network prefix codec", "statement": "Encoding a network prefix (IPv4 or IPv6, with or without path identifier) and parsing it with the matching address family and add-path setting returns the same prefix with host bits beyond the last encoded byte cleared, consuming exactly the encoded bytes; the parser rejects lengths above 32/128.", "quantifier": "every address, every prefix length, every path identifier, any trailing bytes", "why_tests_cant": "2^32/2^128 addresses times lengths times suffixes", "anchors": ["src/parser/utils.rs:try_parse_prefix", "src/models/network/prefix.rs:NetworkPrefix::encode"]}
{"id": "C06", "title": "NLRI list codec", "statement": "Encoding a list of prefixes and parsing it back yields the same list whenever add-path is on, or no prefix in the list encodes with a leading zero byte; and whenever the NLRI parser succeeds without its add-path guess, re-encoding the result reproduces the input bytes exactly.", "quantifier": "every list of prefixes of one address family, every byte string", "why_tests_cant": "unbounded list lengths and the add-path heuristic depends on the data", "anchors": ["src/parser/utils.rs:parse_nlri_list", "src/parser/utils.rs:encode_nlri_prefixes"]}
{"id": "C07", "title": "AS_PATH wire codec", "statement": "Encoding an AS path with 4-byte AS numbers and parsing it back yields the same segments in the same order with the same kinds; encoding fails (rather than producing bytes) exactly when some segment has more than 255 AS numbers; with 2-byte AS numbers the round trip holds when every AS number fits.", "quantifier": "every AS path (any number and kind of segments)", "why_tests_cant": "unbounded paths; the boundary at 255", "anchors": ["src/parser/bgp/attributes/attr_02_17_as_path.rs:parse_as_path", "src/parser/bgp/attributes/attr_02_17_as_path.rs:encode_as_path"]}
{"id": "C08", "title": "AS_PATH parser only accepts exact segment structure", "statement": "If a byte string parses as an AS_PATH then re-encoding the result with the same AS-number width gives back exactly the same bytes; segment types other than 1..4 and truncated segments are errors.", "quantifier": "every byte string, both AS-number widths", "why_tests_cant": "unbounded input", "anchors": ["src/parser/bgp/attributes/attr_02_17_as_path.rs:parse_as_path"]}
{"id": "C09", "title": "AS4_PATH reconciliation follows RFC 6793", "statement": "Merging AS_PATH with AS4_PATH returns AS_PATH (up to nothing) when AS_PATH has fewer hops than AS4_PATH; otherwise the result has exactly as many hops as AS_PATH, ends with the hops of AS4_PATH, and starts with the leading hops of AS_PATH. The merge never panics.", "quantifier": "every pair of AS paths built from any segments", "why_tests_cant": "unbounded segment structures; confederation and set segments at the splice point", "anchors": ["src/models/bgp/attributes/aspath.rs:AsPath::merge_aspath_as4path"]}
{"id": "C10", "title": "Coalescing AS paths", "statement": "coalesce keeps the sequence of AS numbers and hop count unchanged, leaves no two adjacent mergeable sequence segments, keeps set segments, and applying it twice equals applying it once.", "quantifier": "every AS path", "why_tests_cant": "unbounded segment lists", "anchors": ["src/models/bgp/attributes/aspath.rs:AsPath::coalesce", "src/models/bgp/attributes/aspath.rs:AsPathSegment::merge_in_place"]}
{"id": "C11", "title": "Prepend-insensitive AS path normalisation", "statement": "dedup_coalesce is idempotent, never invents or loses an AS number, keeps the order of the path, its sets (of two or more numbers) and what is inside a confederation, and drops nothing but an AS number that directly follows itself; has_equivalent_routing (equality after dedup_coalesce) is an equivalence relation that ignores prepending and set order, and for paths with any AS number holds exactly when the paths agree after this.", "quantifier": "every pair and triple of AS paths", "why_tests_cant": "an equivalence law ranges over all pairs/triples", "anchors": ["src/models/bgp/attributes/aspath.rs:AsPath::dedup_coalesce", "src/models/bgp/attributes/aspath.rs:AsPath::has_equivalent_routing"]}
{"id": "C12", "title": "AS path equality treats sets as unordered", "statement": "Two AS-path segments compare equal exactly when they have the same kind and the same AS numbers, in order for sequences and up to reordering (with multiplicity) for sets; equality is reflexive, symmetric and transitive, and equal paths hash equally.", "quantifier": "every pair of segments/paths", "why_tests_cant": "all permutations of all sizes", "anchors": ["src/models/bgp/attributes/aspath.rs:PartialEq for AsPathSegment", "src/models/bgp/attributes/aspath.rs:Hash for AsPathSegment"]}
{"id": "C13", "title": "Route enumeration of an AS path is complete", "statement": "Iterating the routes of an AS path with no empty AS_SET yields every sequence obtainable by choosing one member per AS_SET, once per choice, and exactly num_route_variations of them; each has as many hops as the path.", "quantifier": "every AS path with any number and size of sets", "why_tests_cant": "the number of variations is an unbounded product", "anchors": ["src/models/bgp/attributes/aspath.rs:AsPathRouteIter", "src/models/bgp/attributes/aspath.rs:AsPathNumberedRouteIter", "src/models/bgp/attributes/aspath.rs:AsPath::num_route_variations"]}
{"id": "C14", "title": "Path attribute framing", "statement": "Encoding any list of path attributes whose values are representable writes, for each attribute in order, its flag octet, its type code, its length - in two octets if and only if the EXTENDED flag is set - and its value; a value that does not fit the announced length field is refused with ValueTooLarge and nothing is written; and parsing what was written with the same AS width and add-path setting returns the same list of attributes, flags included.", "quantifier": "every list of such attributes", "why_tests_cant": "unbounded lists; boundary at 255/256 and 65535/65536 bytes", "anchors": ["src/parser/bgp/attributes/mod.rs:parse_attributes", "src/parser/bgp/attributes/mod.rs:Attribute::encode_to"]}
{"id": "C15", "title": "Malformed attributes never abort attribute parsing", "statement": "Parsing an attribute block never fails because of the content of one attribute: every complete attribute of the block appears in the result, decoded or as raw bytes, in wire order, and a value that cannot be decoded is accompanied by a validation warning.", "quantifier": "every attribute block", "why_tests_cant": "every malformed value at every position (RFC 7606 tolerance)", "anchors": ["src/parser/bgp/attributes/mod.rs:parse_attributes"]}
{"id": "C16", "title": "Mandatory-attribute warnings are exact", "statement": "For an announcement a missing-well-known-attribute warning is raised for ORIGIN, AS_PATH and (when standard NLRI is present or MP_REACH is absent) NEXT_HOP exactly when that attribute's header was not seen; for a withdrawal none is raised.", "quantifier": "every set of attributes present and every kind of update", "why_tests_cant": "all combinations of presence", "anchors": ["src/models/bgp/attributes/mod.rs:Attributes::check_mandatory_attributes", "src/parser/bgp/attributes/mod.rs:AttributeValidationState"]}
{"id": "C17", "title": "Unknown and raw attributes survive re-encoding byte for byte", "statement": "Any attribute the parser does not decode (unknown code, deprecated code, or undecodable value) is re-encoded with the same type code and the same value bytes.", "quantifier": "every attribute code and every value", "why_tests_cant": "all codes and payloads", "anchors": ["src/parser/bgp/attributes/mod.rs:parse_attributes", "src/parser/bgp/attributes/mod.rs:Attribute::encode_to", "src/models/bgp/attributes/mod.rs:AttributeValue"]}
{"id": "C18", "title": "BGP message framing", "statement": "A BGP message is accepted exactly when it starts with sixteen marker octets, a length of at least 19 (at most 4096 for OPEN and KEEPALIVE) and a type from 1 to 5, and its body parses; exactly the octets the length announces are consumed (all that is left when fewer are available), and nothing after a complete message influences the result. No input panics.", "quantifier": "every byte string and every suffix", "why_tests_cant": "every length value and every suffix", "anchors": ["src/parser/bgp/messages.rs:parse_bgp_message"]}
{"id": "C19", "title": "BGP message codec", "statement": "Encoding a BGP OPEN (of at most 4096 octets), NOTIFICATION, KEEPALIVE, ROUTE-REFRESH or UPDATE message and parsing it returns the same message (attribute set and prefix lists included), the encoded length field equals the number of bytes produced, and a message above 65535 octets is refused.", "quantifier": "every message of each type that encodes", "why_tests_cant": "unbounded messages", "anchors": ["src/parser/bgp/messages.rs:BgpMessage::encode", "src/parser/bgp/messages.rs:parse_bgp_message"]}
{"id": "C20", "title": "OPEN optional parameters codec including RFC 9072", "statement": "An OPEN message whose optional parameters exceed 255 bytes is encoded in the extended format and parsed back identically; parameters that fit use the classic format; a parameter or capability too long for its length field is refused rather than truncated.", "quantifier": "every list of optional parameters and capabilities", "why_tests_cant": "unbounded parameter lists; boundary at 255", "anchors": ["src/parser/bgp/messages.rs:parse_bgp_open_message", "src/parser/bgp/messages.rs:BgpOpenMessage::encode"]}
{"id": "C21", "title": "NOTIFICATION error codes are preserved", "statement": "Converting an error code/subcode pair to the error enum and back yields the same pair, for all 65536 pairs.", "quantifier": "every (code, subcode) pair", "why_tests_cant": "tests list a few known codes; unknown codes and subcodes are the rest", "anchors": ["src/models/bgp/error.rs:BgpError::new", "src/models/bgp/error.rs:BgpError::get_codes"]}
{"id": "C22", "title": "End-of-RIB detection", "statement": "is_end_of_rib is true exactly for an UPDATE with no withdrawn and no announced prefixes whose attributes are either absent or a single MP_UNREACH_NLRI with an empty list of prefixes; the End-of-RIB marker of every address family other than BGP-LS and of IPv4 unicast is parsed and recognised; on the wire nothing else is recognised except messages whose prefix sections are malformed.", "quantifier": "every UPDATE message, every family and every byte string", "why_tests_cant": "all combinations of attribute contents", "anchors": ["src/parser/bgp/messages.rs:BgpUpdateMessage::is_end_of_rib"]}
{"id": "C23", "title": "BGP4MP message record codec", "statement": "Encoding a BGP4MP message record (any subtype, IPv4 or IPv6 peers of one family, AS numbers that fit the subtype, with or without add-path) and parsing it with the same subtype yields the same record. A record is accepted exactly when it is an envelope followed by a BGP message, or the shortened OPEN of old Zebra, which no envelope can be mistaken for.", "quantifier": "every such record whose BGP message encodes", "why_tests_cant": "unbounded", "anchors": ["src/parser/mrt/messages/bgp4mp.rs:parse_bgp4mp_message", "src/parser/mrt/messages/bgp4mp.rs:Bgp4MpMessage::encode"]}
{"id": "C24", "title": "BGP4MP state-change record codec", "statement": "Encoding a state-change record and parsing it yields the same record; states outside 1..8 are refused; shortened Zebra records are recognised only when they cannot be a normal record.", "quantifier": "every state-change record and every body", "why_tests_cant": "all states, addresses, AS widths", "anchors": ["src/parser/mrt/messages/bgp4mp.rs:parse_bgp4mp_state_change", "src/parser/mrt/messages/bgp4mp.rs:uses_zebra_compat"]}
{"id": "C25", "title": "Deprecated MRT type-5 record codec", "statement": "A legacy BGP record that encodes parses back to the same record. The encoder refuses exactly the wrong subtype, AS numbers above 16 bits, IPv6 addresses and messages that do not encode. A KEEPALIVE or STATE_CHANGE with trailing bytes is refused; other messages take all bytes of the record.", "quantifier": "every legacy record and every byte string", "why_tests_cant": "unbounded", "anchors": ["src/parser/mrt/messages/legacy_bgp.rs:parse_legacy_bgp", "src/parser/mrt/messages/legacy_bgp.rs:encode_legacy_bgp"]}
{"id": "C26", "title": "Peer index table codec", "statement": "Encoding a peer index table with peers numbered 0..n-1 and parsing it yields the same collector id, view name and peers in the same order.", "quantifier": "every peer table of up to 65535 peers", "why_tests_cant": "unbounded number of peers of mixed address families and AS widths", "anchors": ["src/parser/mrt/messages/table_dump_v2/peer_index_table.rs:parse_peer_index_table", "src/parser/mrt/messages/table_dump_v2/peer_index_table.rs:PeerIndexTable::encode"]}
{"id": "C27", "title": "Peer registration is stable", "statement": "Registering peers one by one gives the first-seen peer of each address a fresh id equal to the number of peers registered before, returns the same id for the same address ever after, never changes an existing entry, and refuses the 65536th peer without changing the table.", "quantifier": "every sequence of registrations", "why_tests_cant": "every history of add_peer calls", "anchors": ["src/parser/mrt/messages/table_dump_v2/peer_index_table.rs:PeerIndexTable::add_peer"]}
{"id": "C28", "title": "RIB entry record codec", "statement": "Encoding a TABLE_DUMP_V2 RIB record (IPv4/IPv6 unicast/multicast, with or without add-path) and parsing it yields the same sequence number, prefix and entries in the same order.", "quantifier": "every RIB record", "why_tests_cant": "unbounded number of entries and attributes", "anchors": ["src/parser/mrt/messages/table_dump_v2/rib_afi_entries.rs:parse_rib_afi_entries", "src/parser/mrt/messages/table_dump_v2/rib_afi_entries.rs:RibAfiEntries::encode"]}
{"id": "C29", "title": "Elements of an UPDATE", "statement": "Converting a BGP UPDATE to elements yields one announcement per announced prefix (standard NLRI first, then MP_REACH) followed by one withdrawal per withdrawn prefix (standard first, then MP_UNREACH), in wire order, none lost, duplicated or merged; announcements carry the update's attributes and withdrawals carry none.", "quantifier": "every UPDATE message", "why_tests_cant": "unbounded prefix lists and attribute lists", "anchors": ["src/parser/mrt/mrt_elem.rs:BgpUpdateElemIter", "src/parser/mrt/mrt_elem.rs:Elementor::bgp_update_to_elems"]}
{"id": "C30", "title": "Elements of a RIB record", "statement": "With a peer table loaded that knows every referenced peer, a RIB record yields exactly one announcement per entry, in order, with the record's prefix and the peer data of the entry's peer index; without a peer table it yields an error and no element. Once the element iterator of any record has returned nothing, it stays at its end, also where an unlisted peer ended it before further entries.", "quantifier": "every peer table, every RIB record", "why_tests_cant": "every pairing of table and record", "anchors": ["src/parser/mrt/mrt_elem.rs:RecordElemIter", "src/parser/mrt/mrt_elem.rs:Elementor::record_to_elems_iter"]}
{"id": "C31", "title": "Filters combine by conjunction and negation", "statement": "An element matches a filter list exactly when it matches each filter, regardless of order; a negated filter matches exactly when the filter does not; a multi-valued filter matches exactly when one of its single-valued filters does.", "quantifier": "every element and every list of filters", "why_tests_cant": "all filter lists and elements", "anchors": ["src/parser/filter.rs:Filterable::match_filters", "src/parser/filter.rs:match_route_view_filter"]}
{"id": "C32", "title": "Prefix filter semantics", "statement": "For prefixes without host bits: exact matches equality; super matches exactly the prefixes containing the filter prefix; sub matches exactly those contained in it; super_sub is their union; different address families never match.", "quantifier": "every pair of prefixes in either family", "why_tests_cant": "2^64+ pairs; the implementation compares address ranges, not bits", "anchors": ["src/parser/filter.rs:prefix_match"]}
{"id": "C33", "title": "Element iteration with filters equals filtering afterwards", "statement": "Iterating elements with filters set yields exactly the elements of the unfiltered iteration that match all filters, in the same order, for every stream of records including RIB dumps that depend on an earlier peer table.", "quantifier": "every record stream and every filter list", "why_tests_cant": "record-level pre-filtering, caching and peer-table state interact", "anchors": ["src/parser/iters/default.rs:ElemIterator", "src/parser/iters/mod.rs:record_matches_filters"]}
{"id": "C34", "title": "Fallible and default iterators agree", "statement": "On every stream the default record iterator yields exactly the Ok items of the fallible record iterator up to the first terminating error; on streams without errors both yield the same records.", "quantifier": "every stream of parse outcomes", "why_tests_cant": "all interleavings of good and bad records", "anchors": ["src/parser/iters/default.rs:RecordIterator", "src/parser/iters/fallible.rs:FallibleRecordIterator"]}
{"id": "C35", "title": "Lightweight route iteration agrees with element iteration", "statement": "For every record both paths accept, the route elements are the projection (timestamp, type, peer, prefix, AS path) of the full elements in the same order, for UPDATE and RIB records whose peers are known.", "quantifier": "every UPDATE/RIB record", "why_tests_cant": "two separately written parsers must agree on all inputs", "anchors": ["src/parser/iters/route.rs:parse_raw_record_route_iter", "src/parser/mrt/mrt_elem.rs:Elementor"]}
{"id": "C36", "title": "Recovery accounts for every byte", "statement": "The recovering record iterator's items and gaps tile the stream: each record or gap starts where the previous one ended, gaps are non-empty, and on normal termination the last one ends at the end of the stream.", "quantifier": "every byte stream, every recovery configuration", "why_tests_cant": "all damage patterns at all offsets", "anchors": ["src/parser/iters/recovery.rs:RecoveringRecordIterator", "src/parser/iters/recovery.rs:find_recovery", "src/parser/iters/recovery.rs:confirm_aligned_boundary"]}
{"id": "C37", "title": "Recovery is invisible on undamaged streams", "statement": "If every record of a stream frames and parses, the recovering iterator yields exactly the records of the plain iterator and no gap.", "quantifier": "every undamaged stream", "why_tests_cant": "unbounded streams", "anchors": ["src/parser/iters/recovery.rs:RecoveringRecordIterator"]}
{"id": "C38", "title": "MPLS label stack and labeled prefix codec", "statement": "Encoding a labeled prefix and parsing it with a sufficient label limit returns the same labels and prefix with host bits cleared; the bottom-of-stack bit is set on exactly the last label; label stacks deeper than the limit are refused; a configuration is accepted exactly when it allows 1 to 254 labels and the peer's limit is not zero.", "quantifier": "every label stack and prefix", "why_tests_cant": "unbounded stacks, 2^20 labels", "anchors": ["src/models/network/mpls.rs:parse_labeled_nlri", "src/models/network/mpls.rs:encode_labeled_prefix", "src/models/network/mpls.rs:MplsLabel"]}
{"id": "C39", "title": "FlowSpec NLRI codec", "statement": "A FlowSpec rule with components in strictly increasing type order whose operator lists are terminated and whose operator lengths hold their values encodes and parses back identically; total length above 4095 is refused; components out of order are refused by the parser.", "quantifier": "every rule", "why_tests_cant": "unbounded operator lists; boundary at 240 and 4095", "anchors": ["src/models/bgp/flowspec/nlri.rs:parse_flowspec_nlri", "src/models/bgp/flowspec/nlri.rs:encode_flowspec_nlri"]}
{"id": "C40", "title": "RTR PDU codec", "statement": "Parsing a byte string as an RPKI-to-router PDU succeeds exactly when it starts with the RFC 6810/8210 wire form of a PDU, and returns that PDU and the length of that wire form. Encoding any PDU the protocol can carry and parsing it (with any bytes after it) returns the same PDU and reports exactly the encoded number of bytes; every proper prefix is reported as incomplete with the number of bytes needed; parsing never panics on any input.", "quantifier": "every PDU and every byte string", "why_tests_cant": "variable-length router keys and error reports; hostile length fields", "anchors": ["src/parser/rpki/rtr.rs:parse_rtr_pdu", "src/parser/rpki/rtr.rs:RtrEncode"]}
{"id": "C41", "title": "RTR stream reading", "statement": "Reading PDUs from a stream that is the concatenation of encoded PDUs returns those PDUs in order, each read consuming exactly one PDU, however the stream is cut into pieces; lengths below 8 or above 131086 are refused having consumed the header only; a PDU with bad content is refused having consumed exactly its declared length.", "quantifier": "every sequence of PDUs", "why_tests_cant": "unbounded sequences", "anchors": ["src/parser/rpki/rtr.rs:read_rtr_pdu"]}
{"id": "C42", "title": "BMP message framing", "statement": "Parsing a BMP message removes exactly the declared message length from the buffer whenever it succeeds, refuses lengths below 6 and above the available data, and a buffer holding several messages is split at the declared boundaries.", "quantifier": "every byte string", "why_tests_cant": "all lengths and payloads", "anchors": ["src/parser/bmp/mod.rs:parse_bmp_msg"]}
{"id": "C43", "title": "Community codecs", "statement": "Standard, extended, IPv6-extended and large communities parsed from wire bytes re-encode to the same bytes (for extended communities whose reserved bits are zero), and values encode and parse back.", "quantifier": "every community value", "why_tests_cant": "2^32/2^64/2^96 values", "anchors": ["src/parser/bgp/attributes/attr_08_communities.rs", "src/parser/bgp/attributes/attr_16_25_extended_communities.rs", "src/parser/bgp/attributes/attr_32_large_communities.rs"]}
{"id": "C44", "title": "RIB encoder output is a faithful dump", "statement": "Feeding elements to the RIB encoder and exporting produces one peer table followed by one RIB record per distinct prefix; parsing it back gives, for each (peer, prefix) fed, the attributes of the last element fed for it; every entry's peer index refers to a peer of the table.", "quantifier": "every sequence of elements", "why_tests_cant": "every history of process_elem/export_bytes calls", "anchors": ["src/encoder/rib_encoder.rs:MrtRibEncoder::process_elem", "src/encoder/rib_encoder.rs:MrtRibEncoder::export_bytes"]}
{"id": "C45", "title": "BGP role pairs", "statement": "The role-pair check accepts exactly provider-customer, route server-client and peer-peer pairs (in either order) and is symmetric.", "quantifier": "every pair of roles", "why_tests_cant": "small but relational; symmetry is not an example", "anchors": ["src/models/bgp/role.rs:validate_role_pairs"]}
{"id": "C46", "title": "Capability codecs", "statement": "Multiprotocol, extended next hop, graceful restart, add-path, four-octet AS, role, route-refresh and extended-message capabilities encode and parse back identically, and wrong lengths are refused; a capability code is reported as deprecated, reserved or experimental exactly when the registry lists it so, and never as two of these.", "quantifier": "every capability value and code", "why_tests_cant": "unbounded entry lists", "anchors": ["src/models/bgp/capabilities.rs"]}
{"id": "C47", "title": "AS path accessors", "statement": "The origin is reported exactly when the path has a unique origin; the origins are the last hops of the routes through the path; the collector AS is the first hop of every route; the flat AS list is available exactly when all segments are sequences or one-member sets and then it is the only route; membership tests see every AS number; the required width is two bytes exactly when all AS numbers fit.", "quantifier": "every AS path", "why_tests_cant": "relational statement over unbounded paths with sets and confederation segments", "anchors": ["src/models/bgp/attributes/aspath.rs:AsPath::get_origin_opt", "src/models/bgp/attributes/aspath.rs:AsPath::iter_origins", "src/models/bgp/attributes/aspath.rs:AsPath::get_collector_opt", "src/models/bgp/attributes/aspath.rs:AsPath::to_u32_vec_opt", "src/models/bgp/attributes/aspath.rs:AsPath::contains_asn", "src/models/bgp/attributes/aspath.rs:AsPath::required_asn_length"]}
{"id": "C48", "title": "TLV-structured attributes codec", "statement": "For the AIGP, SFP, Prefix-SID, BIER, BFD-discriminator, traffic-engineering and tunnel-encapsulation attributes: the parser accepts exactly the byte strings that are a concatenation of well-formed items and returns those items; every value whose fields fit their wire widths encodes and parses back to itself; a value too long for its length field is refused instead of truncated; the metric, colour, endpoint, port and preference accessors return the first item of their type. A tunnel or sub-TLV that is added is placed behind those already there, in what the accessors find and, for tunnels, in what is written.", "quantifier": "every byte string; every list of TLVs of any length with any value bytes", "why_tests_cant": "unbounded item lists with nested lengths of different widths; truncation at every offset", "anchors": ["src/parser/bgp/attributes/attr_26_aigp.rs", "src/parser/bgp/attributes/attr_37_sfp.rs", "src/parser/bgp/attributes/attr_38_bfd_discriminator.rs", "src/parser/bgp/attributes/attr_40_bgp_prefix_sid.rs", "src/parser/bgp/attributes/attr_41_bier.rs", "src/parser/bgp/attributes/attr_24_traffic_engineering.rs", "src/parser/bgp/attributes/attr_23_tunnel_encap.rs", "src/models/bgp/tunnel_encap.rs:TunnelEncapTlv", "src/models/bgp/attributes/mod.rs:Aigp::accumulated_metric", "src/encoder/sink.rs"]}
{"id": "C49", "title": "MP_REACH / MP_UNREACH NLRI codec", "statement": "Encoding a multiprotocol reachability or unreachability attribute for an IP address family (any next-hop form, any list of prefixes of that family, labelled prefixes for SAFI 4) and parsing it with the matching add-path setting gives back the same family, next hop and prefixes; the abbreviated form stored in RIB dumps takes the family and prefix from the RIB entry exactly when the first byte is not zero; no input makes the parser panic.", "quantifier": "every next hop, prefix list, label stack and path identifier; every byte string on the parsing side", "why_tests_cant": "unbounded prefix lists times five next-hop layouts times SAFI-specific branches", "anchors": ["src/parser/bgp/attributes/attr_14_15_nlri.rs:parse_nlri", "src/parser/bgp/attributes/attr_14_15_nlri.rs:encode_nlri", "src/parser/bgp/attributes/attr_03_next_hop.rs:parse_mp_next_hop"]}
{"id": "C50", "title": "BGP-LS attribute codec", "statement": "Parsing a BGP-LS attribute keeps, for every recognised TLV type, the value of its last occurrence, and every unrecognised TLV in order; encoding an attribute and parsing it back gives an equal attribute whatever order the hash maps are iterated in; no input makes the attribute or the Link-State NLRI parser panic.", "quantifier": "every TLV list, every hash-map iteration order, every byte string", "why_tests_cant": "hash-map iteration order is randomised per run and the TLV lists are unbounded", "anchors": ["src/parser/bgp/attributes/attr_29_linkstate.rs:parse_link_state_attribute", "src/parser/bgp/attributes/attr_29_linkstate.rs:encode_link_state_attribute", "src/parser/bgp/attributes/attr_29_linkstate.rs:parse_link_state_nlri", "src/models/bgp/linkstate.rs:LinkStateAttribute"]}
{"id": "C51", "title": "Attribute accessors report the attributes that are there", "statement": "On every set of attributes each accessor returns the first attribute of its kind in list order (the aggregator the last of either kind), the effective AS path is AS_PATH, AS4_PATH or their RFC 6793 merge, the community iterator yields exactly the plain, extended and large communities of all attributes in order, and for sets built from a list has_attr(code) holds exactly when the list has an attribute of that code.", "quantifier": "every list of attributes, of any length and with any repetition of kinds", "why_tests_cant": "accessors scan lists of any length with repeated and interleaved kinds; tests use a few fixed sets", "anchors": ["src/models/bgp/attributes/mod.rs: Attributes::{origin,next_hop,...,as_path,effective_as_path,iter_communities,has_attr,get_attr,add_attr}"]}
{"id": "C52", "title": "UPDATE sections and tolerance", "statement": "A byte string is accepted as an UPDATE exactly when its withdrawn and attribute lengths fit and its attribute block is accepted; the routes are those of the two prefix sections; a prefix section that cannot be read never refuses the message but yields no routes and one warning with its octets. ROUTE-REFRESH warnings are exactly those of RFC 7313.", "quantifier": "every byte string, both AS lengths, with and without ADD-PATH", "why_tests_cant": "every split of every byte string into sections, every malformed section", "anchors": ["src/parser/bgp/messages.rs:parse_bgp_update_message", "src/parser/bgp/messages.rs:parse_bgp_route_refresh_message", "src/models/bgp/mod.rs:BgpRouteRefreshMessage::validation_warnings"]}
{"id": "C53", "title": "TABLE_DUMP records survive encoding and parsing, and inconsistent batches are refused", "statement": "Encoding a batch of legacy TABLE_DUMP entries and parsing it yields the same view, sequence number, prefixes, peers, times, statuses and attributes in the same order; the parser accepts exactly a view and sequence number followed by a non-empty whole number of entries; a batch with no entry, with differing view or sequence numbers or with an address of the wrong family is refused.", "quantifier": "all lists of entries whose fields fit the format, and all byte strings", "why_tests_cant": "batches have unbounded length and the attribute block of each entry is arbitrary", "anchors": ["src/parser/mrt/messages/table_dump.rs: parse_table_dump_messages, parse_table_dump_message, encode_table_dump_batch, TableDumpMessage::encode"]}
{"id": "C54", "title": "Geographic peer tables survive encoding and parsing", "statement": "Encoding a GEO_PEER_TABLE with an ASCII view name and parsing it yields the same table, coordinates bit for bit including NaN; the parser accepts exactly the RFC 6397 layout and never panics.", "quantifier": "all geographic peer tables and all byte strings", "why_tests_cant": "tables hold any number of peers of both families and AS number widths, and coordinates range over all 32-bit patterns", "anchors": ["src/parser/mrt/messages/table_dump_v2/geo_peer_table.rs: parse_geo_peer_table, GeoPeerTable::encode"]}
{"id": "C55", "title": "Whole MRT records survive writing and reading", "statement": "A record of any supported type whose fields fit the format is written as its header, with the length recomputed, followed by its message; reading it from any stream that delivers these bytes yields the same header fields and the same message, and leaves exactly the bytes after it. The type and subtype alone decide which kind of message comes out. If the body cannot be decoded, the bytes of the record are handed out with the error.", "quantifier": "every record of every type and subtype, every following bytes and every delivery pattern of the source", "why_tests_cant": "records nest unboundedly many entries and attributes, and the source may split the bytes anywhere", "anchors": ["src/parser/mrt/mrt_record.rs: parse_mrt_record, chunk_mrt_record, parse_mrt_body, MrtRecord::encode", "src/parser/mrt/messages/mod.rs: MrtMessage::encode"]}
{"id": "C56", "title": "Encoding never panics on what was read", "statement": "Any record obtained by reading can be handed to the encoder, which returns bytes or an error. For records built by hand the encoder panics only for a message within four bytes of 4 GiB under an extended timestamp header, or for a FlowSpec operator with a declared value length above eight.", "quantifier": "every record that some byte stream decodes to, and every hand-built record", "why_tests_cant": "every combination of attributes, families and lengths reaches the encoder", "anchors": ["src/parser/mrt/mrt_record.rs: MrtRecord::encode", "src/parser/bgp/messages.rs: BgpMessage::encode", "src/parser/bgp/attributes/mod.rs: Attributes::encode"]}
{"id": "C57", "title": "The length correction for old table dumps is applied exactly when it is needed", "statement": "A TABLE_DUMP record is extended by four bytes from the stream exactly if its declared body is view, sequence number, whole entries and one entry that lacks exactly four bytes. No body written by the encoder is affected, and any body written by the encoder with the last four bytes of its last entry's attributes cut off is recognised.", "quantifier": "every record header, every body and every following bytes", "why_tests_cant": "the scan walks unboundedly many entries whose lengths are data", "anchors": ["src/parser/mrt/mrt_record.rs: needs_legacy_length_correction, chunk_mrt_record"]}
{"id": "C58", "title": "Elements of every record kind", "statement": "Converting any record to elements never panics and yields the elements its kind prescribes: one per TABLE_DUMP entry, the UPDATE's elements for BGP4MP and legacy messages, the RIB entries up to the first unknown peer for RIB records, none for state changes, other BGP messages, peer and geo tables; only a peer index table changes the peer table in force. Element times order like the record timestamps.", "quantifier": "every record and every peer-table state", "why_tests_cant": "all record kinds in all converter states", "anchors": ["src/parser/mrt/mrt_elem.rs:Elementor::record_to_elems", "src/parser/mrt/mrt_elem.rs:RecordElemIter"]}
{"id": "C59", "title": "Element to attributes and back", "statement": "Turning an element into path attributes and reading an UPDATE with these attributes gives back one element equal to it in time, type, peer, prefix, next hop, path, origin, aggregator, OTC, unknown and deprecated attributes, with communities grouped by kind (none lost), absent LOCAL_PREF and MED as zero, and no other change than the loss of the peer identifier and the ATOMIC_AGGREGATE mark.", "quantifier": "every element", "why_tests_cant": "all combinations of nineteen fields", "anchors": ["src/parser/mrt/mrt_elem.rs:From<&BgpElem> for Attributes"]}
{"id": "C60", "title": "Filters given as text mean what they say", "statement": "A filter built from text with a leading exclamation mark is the negation of the filter built from the rest; a second exclamation mark, and a negated start or end time, are refused. A comma-separated list is accepted exactly when it has at least one value and every value is readable and all or none are negated, ignoring blanks and empty parts; the filter then holds exactly those values. AS numbers are read back from their decimal text for every 32-bit number, and larger numbers are refused. Every keyword with an acceptable value gives a filter that selects exactly the elements the keyword describes (for instance end_ts those not later than the given time), and nothing else is accepted.", "quantifier": "every filter type name and filter text; every list of values", "why_tests_cant": "filter texts are unbounded and combine separators, negation marks and values in unboundedly many ways", "anchors": ["src/parser/filter.rs: Filter::new", "src/parser/filter.rs: parse_asn_list, parse_prefix_list, parse_ip_list"]}
{"id": "C61", "title": "Raw, filtered raw, split and text iterators agree with record iteration", "statement": "Raw iteration gives the framed records before the first error that stops. Filtered raw iteration gives exactly the records of filtered record iteration, each paired with a raw record that parses to it, in stream order. Splitting a parser into an elementor and a record iterator loses nothing: converting the remaining records with the elementor given yields the elements of the whole. A text-dump parser has no records and its elements are those of the dump that pass the filters.", "quantifier": "every source (any division into reads, interruptions, failures), every filter list, core dumps on or off", "why_tests_cant": "separately written loops with their own error policies must agree on every interleaving of good, bad and filtered records", "anchors": ["src/parser/iters/raw.rs: RawRecordIterator, FilteredRawRecordIterator", "src/parser/iters/mod.rs: into_elementor_and_record_iter, into_elementor_and_raw_record_iter", "src/parser/iters/default.rs: ElemIterator"]}
{"id": "C62", "title": "The core dump holds the last failing record", "statement": "With core dumps enabled, after record iteration ended the dump file holds the bytes reported with the last error of a dumped kind (truncated, unsupported, parse, I/O) up to and including the one that stopped iteration, or is untouched if there was none. Without core dumps nothing is written.", "quantifier": "every source and filter list", "why_tests_cant": "depends on the whole history of errors of the run", "anchors": ["src/parser/iters/mod.rs: handle_record_parse_error, write_mrt_core_dump", "src/parser/iters/default.rs: RecordIterator"]}
{"id": "C63", "title": "Route iteration terminates and filters faithfully", "statement": "Route-level iteration ends without panic on every source; it yields the routes of the records in order, and the fallible variant reports every framing and body error in its place; with filters it yields exactly the unfiltered routes matching all of them.", "quantifier": "every source, filter list and core dump setting", "why_tests_cant": "quantifies over all byte streams, delivery patterns and filter lists", "anchors": ["src/parser/iters/route.rs: RouteIterator, FallibleRouteIterator, parse_raw_record_route_iter"]}
{"id": "C64", "title": "Recovery gaps tell the truth", "statement": "Every gap reported by a recovering iterator starts where no record can be read and carries the error found there; an aligned gap is exactly one framed but unreadable record followed by the confirmed number of readable records; a gap found by searching ends at the first later offset where the required number of readable, structurally plausible records of one family follow one another; an end-of-stream gap reaches the end of the stream. The iterator gives up only when the scan limit is reached and no such chain begins within it.", "quantifier": "every byte stream, every recovery configuration, every parser setting", "why_tests_cant": "The claim is about every damaged stream and every place a chain might have been missed; tests corrupt a few chosen positions.", "anchors": ["src/parser/iters/recovery.rs: RecoveringRecordIterator, find_recovery_offset, validate_chain, confirm_aligned", "src/parser/iters/recovery.rs: RecoveryGap, RecoveryEvidence"]}
{"id": "C65", "title": "Recovery does not depend on how the source delivers its bytes", "statement": "Two sources that hold the same bytes and neither fail nor interrupt give the same recovered records, elements, gaps and final error, however they cut the bytes into reads.", "quantifier": "every byte stream, every two ways of cutting it into reads, every recovery configuration", "why_tests_cant": "The scanner buffers ahead while the framer reads exactly; the number of ways to cut a stream is unbounded.", "anchors": ["src/parser/iters/recovery.rs: ensure_buffer, find_recovery_offset", "src/parser/mrt/mrt_record.rs: chunk_mrt_record"]}
{"id": "C66", "title": "An isolated unreadable record costs only itself", "statement": "In a stream of correctly framed records in which each unreadable record is followed by the required number of readable records, or by readable records up to the end, the recovering iterator gives every readable record (that passes the filters) and one gap, of exactly its own bytes, for each unreadable one.", "quantifier": "every such sequence of records of any length, every recovery configuration, every filter list", "why_tests_cant": "It ranges over all positions and contents of unreadable records; tests corrupt one record of one file.", "anchors": ["src/parser/iters/recovery.rs: RecoveringRecordIterator::recover, confirm_aligned"]}
{"id": "C67", "title": "BMP contents are read by their layout", "statement": "A BMP message of a known type is accepted exactly when its content follows the layout of that type: a 42-octet per-peer header (for all types but initiation and termination) followed by the BGP message, statistics, peer-down reason, peer-up data or mirrored items; the values returned are those of the octets (IPv6, 2-octet-AS and local-RIB flags included). An initiation message is never refused.", "quantifier": "every content of every message type, of every length", "why_tests_cant": "the contents nest TLVs, embedded BGP messages and flag-dependent widths without bound; a test fixes one of each", "anchors": ["src/parser/bmp/mod.rs:parse_bmp_msg", "src/parser/bmp/messages/headers.rs:parse_per_peer_header", "src/parser/bmp/messages/initiation_message.rs", "src/parser/bmp/messages/termination_message.rs", "src/parser/bmp/messages/peer_up_notification.rs", "src/parser/bmp/messages/peer_down_notification.rs", "src/parser/bmp/messages/route_mirroring.rs", "src/parser/bmp/messages/stats_report.rs"]}
{"id": "C68", "title": "OpenBMP headers are taken exactly", "statement": "Parsing an OpenBMP message takes exactly the octets of its binary header (magic, version 1.7, router message, timestamps, collector, router address and group with their declared lengths, one row) and then yields what the BMP message after it would yield alone; anything else is refused without a panic.", "quantifier": "every byte string", "why_tests_cant": "collector and group names have arbitrary lengths and what follows is arbitrary", "anchors": ["src/parser/bmp/openbmp.rs:parse_openbmp_header", "src/parser/bmp/mod.rs:parse_openbmp_msg"]}
{"id": "C69", "title": "BMP route monitoring converts to an equivalent MRT record", "statement": "Converting a BMP message to an MRT record succeeds only for route monitoring with a per-peer header, and yields a BGP4MP_ET MESSAGE_AS4 record with the same peer address, AS number and BGP message, the same seconds, and the same microseconds or one less; the record, encoded and parsed again, is the same record.", "quantifier": "every BMP message, every second below 2^32 and every microsecond below a million", "why_tests_cant": "the time passes through a binary64 float: that no second is ever lost over 4*10^15 times cannot be tested", "anchors": ["src/parser/mrt/mrt_record.rs:TryFrom<&BmpMessage>", "src/parser/utils.rs:convert_timestamp", "src/parser/bmp/messages/headers.rs:parse_per_peer_header"]}
{"id": "C70", "title": "Float times keep the order of records", "statement": "The floating-point time given to the elements of a record orders records exactly as their seconds and microseconds do (different times stay different), converts back to the same second and the same microsecond or one less, and time filters at whole seconds compare exactly.", "quantifier": "every pair of records with valid microseconds, every filter bound in whole seconds", "why_tests_cant": "the claim is about the rounding of 4*10^15 values", "anchors": ["src/parser/mrt/mrt_elem.rs:record_to_elems_iter", "src/parser/utils.rs:convert_timestamp", "src/parser/filter.rs:match_route_view_filter"]}
{"id": "C71", "title": "Updates encoder output is a faithful log", "statement": "Elements given to the updates encoder and exported read back as one BGP4MP_ET record per element, in the order they were given, and as the same elements: same type, peer, AS number, prefix and attributes (the normalisation of a passage through path attributes, C59), at the same microsecond or the one before. Exporting never panics; it empties the encoder when it succeeds and leaves it as it was when it fails.", "quantifier": "every list of elements without path identifiers whose next hops are IPv4, every fault-free source that delivers the exported bytes", "why_tests_cant": "every sequence of process_elem calls and every combination of attributes; tests export a few fixed elements", "anchors": ["src/encoder/updates_encoder.rs:MrtUpdatesEncoder::process_elem", "src/encoder/updates_encoder.rs:MrtUpdatesEncoder::export_bytes"]}
{"id": "C72", "title": "Update iteration gives every announcement once, in order", "statement": "For every MRT source, into_update_iter ends and yields exactly the announcements (BGP4MP and legacy UPDATEs, RIB_AFI records, TABLE_DUMP entries) of the records that unfiltered record iteration yields, in the same order, batches of TABLE_DUMP entries unfolded in place; expanding each announcement under the last peer index table before it gives exactly the elements of unfiltered element iteration. into_fallible_update_iter yields the same with every read error in its place. The time of an announcement is that of its elements, RIB entries aside. Text dumps yield nothing.", "quantifier": "all byte sources (contents, fragmentation, I/O faults), all parser settings", "why_tests_cant": "The pending batch, the peer table and the error policy are state carried across an unbounded history of records; tests see a few files.", "anchors": ["src/parser/iters/update.rs UpdateIterator::next", "src/parser/iters/update.rs FallibleUpdateIterator::next", "src/parser/iters/update.rs MrtUpdate::timestamp", "src/parser/iters/mod.rs into_update_iter, into_fallible_update_iter"]}
{"id": "C73", "title": "Dissection annotates every message faithfully and never fails", "statement": "For every byte string below 4 GiB, dissect_mrt_bytes and dissect_bgp_message return a tree (no panic, no overflow): the MRT root covers the whole input, the BGP root covers the message up to its declared length or the end of input; every node's byte range lies in the input, the value its label shows is what those bytes spell, and a node's children lie inside it, one after the other without overlap (headers, updates, complete attributes, notifications and route refreshes without gaps); only the remarks about missing or left-over bytes of a BGP message stand after its end. find returns the first node with a field name in tree order, find_all all of them. For every well-formed UPDATE, bare or in a BGP4MP record of any message subtype, the tree has exactly one node per path attribute, withdrawn prefix and announced prefix, in order and over its bytes, and one per AS path segment, community, cluster id and multiprotocol prefix, with AS width and path ids as the subtype says.", "quantifier": "all byte strings below 4 GiB, all AS number widths and ADD-PATH settings; all UPDATE messages", "why_tests_cant": "Offsets are computed along every truncation point and nesting of attributes; tests fix a few messages.", "anchors": ["src/parser/bgp/dissect.rs dissect_bgp_message", "src/parser/mrt/dissect.rs dissect_mrt_bytes, dissect_mrt_record", "src/models/dissection.rs DissectionNode::find, find_all"]}
{"id": "C74", "title": "Diagnostic iteration reports every record once and places every finding", "statement": "For every MRT source, into_diagnostic_iter yields one event per record that can be framed, in order: the parsed record with all its validation warnings, or, when the body cannot be parsed, the error with the record's header, its octets and the dissection tree over them; it goes on after such a record and ends after the first framing error. The octets of the events are those of the source, and the events are those of the unfiltered fallible iterator up to that error. After its end it stays ended. The dissecting variant yields the same events with the tree over each record and a span within the record for every warning; in a record with an UPDATE the warnings come attribute by attribute (duplicate of an earlier one, then what parsing the attribute's octets alone reports), each placed at exactly that attribute (a broken value of a mandatory attribute at the attribute section), then missing attributes at the section and unreadable prefixes at theirs.", "quantifier": "all sources (byte strings delivered in any pieces, with I/O errors), all parser settings", "why_tests_cant": "Whether the n-th duplicate's warning is attached to the n-th occurrence, and whether no record is lost or reported twice, depends on arbitrary sequences of records and attributes.", "anchors": ["src/parser/iters/diagnostic.rs: DiagnosticIterator::next, DissectingDiagnosticIterator::next, span_record_warnings, locate_warning_span", "src/parser/mrt/dissect.rs: dissect_mrt_bytes", "src/parser/iters/mod.rs: into_diagnostic_iter; src/parser/iters/diagnostic.rs: with_dissection"]}
{"id": "C75", "title": "A router's text table is read route by route, field by field", "statement": "For every text in the layout of Cisco's `sh ip bgp` (a preamble of fewer than 64 lines, the line naming the columns, then rows in which every field stays within its column), parse_text_dump yields exactly the routes of the rows, in order: each with the prefix of its line or, if it has none, the one above it (also when that stood alone on its line), next hop, metric, local preference, AS path and origin as written, the given time, and the router ID and AS number of the preamble (0.0.0.0 and 0 without one). Rows moved one place to the left are read too unless an address stands in the column itself. parse_header returns version, router, AS number of the preamble.", "quantifier": "all column positions, preambles, rows (any number, order and spacing), all numbers and addresses", "why_tests_cant": "Which characters belong to which field depends on the column positions and on every spacing of every row; the prefix of a route depends on all rows above it.", "anchors": ["src/parser/text_dump.rs: parse_text_dump_with_timestamp, parse_header, parse_column_header, parse_route_line, parse_wrapped_prefix_line, TextDumpElemIterator::next"]}
{"id": "C76", "title": "Reading a text table depends on its octets only, and ASCII never panics", "statement": "Two sources that do not fail and deliver the same octets, in any pieces and with any interruptions, give the same elements or error. A source of ASCII octets, even one that fails midway, never makes the text dump parser panic.", "quantifier": "all byte sources (any pieces, interruptions; for the absence of panics also failures), all texts", "why_tests_cant": "The ways a source can divide its data are unbounded, and a slice at a column position can panic for some lines only.", "anchors": ["src/parser/text_dump.rs: parse_text_dump_with_timestamp, TextDumpElemIterator::new, TextDumpElemIterator::next, parse_wrapped_prefix_line"]}
{"id": "C77", "title": "Automatic detection never loses or alters what is read", "statement": "BgpkitParser::from_auto_reader takes a source for a text dump exactly if what its first read (of up to 256 octets) returns begins with a visible ASCII character and its first 128 octets are UTF-8 and contain 'BGP table', 'Next Hop' or 'Status codes:'. It then behaves as from_text_reader on the whole source, with the given time or 0; otherwise its record, raw-record and element iterators, default and fallible, yield the same as those of from_reader on the whole source.", "quantifier": "all sources whose first read succeeds and that do not fail, all contents", "why_tests_cant": "The octets consumed for detection must be given back for every content and every size of the first read.", "anchors": ["src/parser/text_dump.rs: detect_text_dump", "src/parser/mod.rs: BgpkitParser::from_auto_reader_with_timestamp, from_text_reader_with_timestamp, from_reader"]}
{"id": "C78", "title": "Times are inferred from file names by the calendar", "statement": "infer_timestamp_from_path returns the time (UTC) of the first place in the path where a valid date and time YYYY-MM-DD-HHMM stands that does not continue a number; if there is no such place, noon of the first YYYY.MM.DD if that is a valid date; otherwise nothing. Days are counted by the Gregorian calendar: 1970-01-01 is day 0 and the next day is one more.", "quantifier": "all paths, all years 0000-9999, all dates and times", "why_tests_cant": "All positions in all paths, and all 3.6 million dates with the leap-year rules.", "anchors": ["src/parser/text_dump.rs: infer_timestamp_from_path"]}
{"id": "C79", "title": "Elements of text tables are announcements that stand in the text", "statement": "Every element the text dump parser yields, from any source whatever it contains and even if it fails midway, is an announcement with the given time and no path identifier, all with one peer address and AS number; its path is one sequence, its only origin AS the last of the path (none if empty), its prefix and its next hop are read from texts that occur in the source, its numbers fit in 32 bits, and all other attributes are absent.", "quantifier": "all sources and contents, all text parsers for addresses and prefixes", "why_tests_cant": "It ranges over arbitrary malformed texts.", "anchors": ["src/parser/text_dump.rs: TextDumpElemIterator::next, entry_to_elem, as_path_from_tokens"]}
{"id": "C80", "title": "AS paths survive their JSON form", "statement": "Every AS path whose AS numbers have 32 bits, written as JSON and read back, is the same path if and only if it has no empty sequence or is not written in the short form. The short form (numbers for a sequence, an array for a set) is used exactly for paths of sequences and sets without two sequences in a row, the long form (objects with ty and values) for all others. AS numbers that do not fit in 32 bits are refused, never truncated.", "quantifier": "all AS paths: any number, kind and size of segments; all JSON values read", "why_tests_cant": "Whether the short form is ambiguous depends on every combination of neighbouring segment kinds and sizes.", "anchors": ["src/models/bgp/attributes/aspath.rs: serde_impl, simplified_format_len, AsPathVisitor"]}
{"id": "C81", "title": "Elements survive their JSON form", "statement": "Every BgpElem without NaN or infinity and without a path C80 excludes, written as JSON and read back, is the same element in all nineteen fields, if the texts of addresses and prefixes can be read back. Each community, of every kind, is read back as a community of the same kind (the kinds have no label). Every element read from any JSON has all numbers in the ranges of their fields: numbers out of range are refused, not truncated.", "quantifier": "all elements; all lists of communities of all kinds and of unknown attributes; all JSON values read", "why_tests_cant": "The kinds of communities are told apart only by their shape, so every pair of kinds could be confused for some values.", "anchors": ["src/models/bgp/elem.rs: BgpElem, ElemType", "src/models/bgp/community.rs: MetaCommunity, Community, ExtendedCommunity, LargeCommunity", "src/models/network/prefix.rs: serde implementation", "src/models/bgp/attributes/mod.rs: AttrRaw"]}
{"id": "C82", "title": "RIS Live JSON messages give exactly their routes", "statement": "A RIS Live document about an UPDATE gives one announcement for each prefix of each announcement entry, with the next hop of its entry, and one withdrawal for each withdrawn prefix, in document order, each with the document's time, peer and AS and with the document's path, origin, MED, communities and aggregator; or, if a field is faulty, the error of the first fault in the order origin, aggregator, prefixes, and no elements. The order of fields in the document does not matter. Documents about anything else give no elements; other JSON and text that is not JSON are errors; nothing panics.", "quantifier": "all JSON documents, all orders of fields, any numbers of entries and prefixes; all text readers of addresses and prefixes", "why_tests_cant": "Documents are unbounded trees; which error wins and which fields are kept depends on the combination of all fields.", "anchors": ["src/parser/rislive/mod.rs: parse_ris_live_message, parse_prefix", "src/parser/rislive/messages/server/ris_message.rs: RisMessage, RisMessageEnum, Announcement", "src/parser/rislive/messages/mod.rs: RisLiveMessage"]}
{"id": "C83", "title": "RIS Live raw messages give the elements of the BGP message at the document's time", "statement": "A RIS Live document with a BGP message in hexadecimal digits of either case in its raw field gives exactly the elements of that message as C29 describes them, with the peer and AS of the document, and with exactly the time of the document (a number of microseconds rounded to binary64, from 12 days after the epoch until 2106) although it goes through a header of seconds and microseconds. The full reading gives the same elements or the same error, and host, id, peer, AS, time and all attributes. A document without readable message is refused; nothing panics.", "quantifier": "all JSON documents, all messages, all numbers of microseconds from 2^20 to 2^32 seconds", "why_tests_cant": "That no time is changed by being cut into seconds and microseconds and rounded again is a statement about 4e15 floating-point values.", "anchors": ["src/parser/rislive/raw_bytes.rs: parse_ris_live_message_raw, parse_ris_live_message_raw_full, parse_ris_live_raw_bgp_message, get_micro_seconds, parse_raw_bgp_message_with_asn_fallback"]}
{"id": "C84", "title": "The JSON and the raw reading of a RIS Live message agree", "statement": "If the JSON fields of a document show the UPDATE in its raw field (same path, origin, MED, aggregator and communities, one entry per announced prefix with its next hop, the withdrawn prefixes), both readings succeed and give the same routes in the same order: same type, prefix, time, peer, AS, next hop, path, origin, aggregator, communities and MED (a missing MED being zero by the raw message).", "quantifier": "all documents whose fields show their raw message; any numbers of prefixes and attributes", "why_tests_cant": "The two readings share no code below the document; agreement is a statement about all messages.", "anchors": ["src/parser/rislive/mod.rs: parse_ris_live_message, parse_ris_live_message_json", "src/parser/rislive/raw_bytes.rs: parse_ris_live_message_raw"]}
{"id": "C85", "title": "The web interface reads MRT data record by record as the native iterator does", "statement": "Calling the record function again and again on what is left of a buffer gives, for every buffer, the records at its front up to the first that cannot be read: for each the elements it has under the last peer table before it and its exact length in bytes, and leaves the rest. After a reset these are the first elements the native iterator gives for the same bytes, all of them if nothing is left. How the data arrives in pieces does not matter. The JavaScript functions give the same for records whose header tells their length, which all do but old table dumps with a length four too small; a generator gives the same from any state of the module. Dissecting uses up the same bytes and gives a tree of exactly those. No call panics or throws.", "quantifier": "all buffers, all ways to cut them into pieces, all peer tables left over, any number of calls", "why_tests_cant": "The result must be independent of how a network delivers the data and of the history of the module; both are unbounded.", "anchors": ["src/wasm.rs: parse_mrt_record_core, reset_mrt_parser, dissect_mrt_record_core", "src/wasm/js/index.js: parseMrtRecord, parseMrtRecords, mrtRecordSize, dissectMrtRecord"]}
{"id": "C86", "title": "The web interface shows BMP, OpenBMP and BGP messages as the native parsers read them", "statement": "A BMP message is shown exactly if the native parser reads it, with the fields of its per-peer header, the values of its body and the elements of a monitored route at the given time; otherwise the error is the native parser's. In an OpenBMP frame the time and header are the frame's; the result is null exactly for frames that are not about a router's BMP message. A BGP message gives the elements of its UPDATE with time, peer address and AS zero, and its attributes with the warnings. Every byte string has a dissection that stays within it. Nothing panics.", "quantifier": "all byte strings, all times", "why_tests_cant": "Agreement of two readers on acceptance, errors and all fields is a statement about every message.", "anchors": ["src/wasm.rs: build_bmp_result, make_peer_header, parse_openbmp_message_core, parse_bmp_message_core, parse_bgp_update_core, parse_bgp_update_full_core, dissect_bgp_message_core"]}
{"id": "C87", "title": "Elements are totally ordered by time and then peer address", "statement": "Comparing two elements compares their times as real numbers and, if these are equal, their peer addresses (IPv4 before IPv6, then by value). It is a total preorder on elements whose time is a number: swapping the arguments swaps the answer, it is transitive, and equal elements compare alike with every other. It panics exactly if one of the times is not a number, which never happens for elements of records, so sorting what an iterator gives for an MRT source never panics. Elements of updates are ordered by the seconds and microseconds of their records. Route elements are compared in the same way.", "quantifier": "all pairs and triples of elements, all records, all MRT sources and filters", "why_tests_cant": "The laws of an order and the absence of panics range over all triples of elements and over every time a file can hold.", "anchors": ["src/models/bgp/elem.rs: Ord for BgpElem, Ord for BgpRouteElem, PartialOrd for BgpElem"]}
{"id": "C88", "title": "A line of text has the columns of its header and tells the fields of an element", "statement": "The pipe-separated line of an element splits at the bars into exactly the sixteen columns the header names, in that order, whatever the element holds; its display form has the same but two of them, that of a route element the first six. Each is one line of printable characters. Two elements have the same line exactly if all fields shown are alike: lists of communities of any kinds can be told apart although some of their texts hold spaces, paths are told up to the grouping of AS numbers into segments, and an absent list looks as an empty one. The debug form of a prefix tells its path identifier too.", "quantifier": "all elements whose fields are in range, all lists of communities as read from the wire, all paths; all text forms of numbers and addresses that use the characters std does and differ for different values", "why_tests_cant": "That no field ever holds a separator, and that no two different lists of communities share a text, are statements about all values and all pairs of lists.", "anchors": ["src/models/bgp/elem.rs: to_psv, get_psv_header, Display for BgpElem, Display for BgpRouteElem, option_to_string_communities", "src/models/bgp/community.rs: Display for MetaCommunity, ExtendedCommunity, LargeCommunity, Community, Ipv6AddrExtCommunity", "src/models/bgp/aspath.rs: Display for AsPath", "src/models/network/prefix.rs: Display and Debug for NetworkPrefix"]}
{"id": "C89", "title": "An AS number is its number: registry, width, order, conversions, text and bytes", "statement": "Whether a number is private, for documentation or reserved is answered as IANA's special-purpose registry has it, and private and documentation numbers are reserved and never both. The required width is two octets exactly when two octets hold the number. Equality, order and hash look at the number alone and agree with each other. Conversions through 32-bit integers of either sign lose nothing; through 16 bits nothing is lost exactly if the required width is two octets. The text form is read back with or without AS, and the texts accepted are an optional AS, an optional plus sign and digits below 2^32. An encoded number takes the width it was made with and is read back with it.", "quantifier": "all AS numbers of both widths, all texts, all integers of the converted types, all byte strings", "why_tests_cant": "There are 2^33 values and unboundedly many texts; agreement of order, equality and hash is about all pairs and triples.", "anchors": ["src/models/network/asn.rs: Asn, AsnLength, is_private, is_reserved, is_reserved_for_documentation, required_len, FromStr, Display, Ord, Hash, PartialEq, From, encode", "src/parser/utils.rs: read_asn"]}
{"id": "C90", "title": "Whatever the octets, what is read from them is in range and can be written as text and JSON", "statement": "Every value the parser gives for a source of octets is in the range of its type: addresses, prefixes (mask no longer than the address), AS numbers, path identifiers, metrics, communities and unknown attributes, in messages, attributes, records and elements, through either iterator, with any filters and any delivery of the octets; the peer table in force stays in range. Times are finite numbers. Hence every element has a line of the announced columns in printable ASCII and two elements share a line exactly if their fields are alike, and every element whose rates are finite and whose path the short form keeps is read back from its JSON as it was.", "quantifier": "all byte strings, all sources delivering them (with pauses and failures), all filter lists, all text forms of addresses that satisfy the stated laws", "why_tests_cant": "It is about the image of the parser on all inputs; a test sees the elements of the inputs chosen.", "anchors": ["src/parser/bgp/attributes/mod.rs: parse_attributes", "src/parser/bgp/messages.rs: parse_bgp_message", "src/parser/mrt/mrt_record.rs: parse_mrt_record", "src/parser/mrt/mrt_elem.rs: Elementor::record_to_elems, bgp_to_elems", "src/parser/iters/default.rs: ElemIterator", "src/parser/iters/fallible.rs: FallibleElemIterator", "src/models/bgp/elem.rs: BgpElem, to_psv"]}
{"id": "C91", "title": "The command line tool prints exactly what was asked for, and says so when it fails", "statement": "The tool turns its options and filter expressions into one requirement, and refuses (nothing printed, error status) exactly when an option or expression has no meaning. An expression key=value asks what the keyword asks of the value, key!=value the contrary, for single values, lists and presence, with blanks allowed around key and value. Elements, records, their numbers, or records with the hexadecimal text of the octets they were read from: the output lines are those of the wanted items of the source, each once and in source order, with a header exactly for the column format, and the status is success. With recovery the same holds of what recovery finds, standard error has each gap, the sum of them and the final error, which makes the status a failure. If the sink closes, the process ends quietly after what the sink took; if it fails, with an error; until then the output does not depend on the sink.", "quantifier": "all option combinations and filter texts, all sources of octets (paused, failing, damaged), all text forms of addresses, prefixes and times that can be read back, all behaviours of the sink", "why_tests_cant": "Options, filters, sources and sink failures combine without bound; a test runs one combination on one file.", "anchors": ["src/bin/main.rs: main, Opts, Filters, OutputFormat, OutputLevel", "src/render/hex.rs", "src/parser/mod.rs: BgpkitParser::add_filters, add_filter", "src/parser/filter.rs: Filter::new, parse_filter", "src/parser/iters/recovery.rs: into_recovering_record_iter, into_recovering_elem_iter"]}
{"id": "C92", "title": "The layered text of a record shows what is in it, and can be read back", "statement": "A reader that only knows the headings and the indentation finds in the text of any MRT record its time, type, session ends and kind of message; for an UPDATE every standard, multiprotocol and labelled route under the heading of its kind, every attribute and every validation warning, each on one line, in order and nothing else; for OPEN, state changes, NOTIFICATION and ROUTE-REFRESH their fields; for tables each peer by increasing number, whatever the order of the map, and each RIB entry with its attributes. Every element of a record has its prefix under the heading of its type and its peer in the session line. No content can be mistaken for a heading or break a line, so records printed one after another come apart, and the hexadecimal line is there exactly if asked for. Equal texts mean equal times, sessions, states, kinds, prefixes, labelled routes, and like attributes and warnings.", "quantifier": "all records, all texts of addresses and numbers that are one-line and tell values apart, all sequences of records", "why_tests_cant": "Attributes, routes and warnings combine without bound; a test compares a few fixed records with fixed text.", "anchors": ["src/render/text.rs: format_record, format_record_with_hex, render_bgp_message, render_update, render_attribute, render_attributes_block, render_table_dump_v2, capability_summary", "src/error.rs: Display for BgpValidationWarning", "src/models/network/nexthop.rs: Display for NextHopAddress", "src/models/mrt/bgp4mp.rs: Bgp4MpType"]}
{"id": "C93", "title": "Cached sources: checksum and file name", "statement": "The checksum of a location that names its cache file is CRC-32 as the standards define it (the inverted remainder of the division of the inverted and extended message by the standard generator), printed as eight lower case hexadecimal digits that tell it. The cache file of a location is named cache-, then the text after the last slash with the digits put before its last dot (so the extension is kept), or at its end when it has no dot. The name has no slash in it. Two locations share a cache file exactly when the texts after the last slash and the checksums are the same; locations of the same length that differ only within 32 neighbouring bits (four neighbouring characters) never do; and texts of one length with equal checksums give shared cache files whatever surrounds them.", "quantifier": "every location, as any string of octets of any length; for collisions every pair of locations", "why_tests_cant": "The repository has one test on a handful of literals. That a table driven loop computes the standard checksum, and that no two near locations collide, concerns all strings of all lengths.", "anchors": ["src/parser/utils.rs: crc32", "src/parser/mod.rs: BgpkitParser::new_cached, add_suffix_to_filename"]}
{"id": "C94", "title": "Messages sent to RIS Live", "statement": "Every message to RIS Live is the text of one JSON object with the members data and type, without control characters, whatever characters are in its strings. A subscription built by any sequence of calls carries, for each of host, type, require, peer, path, prefix, moreSpecific, lessSpecific, socketOptions.includeRaw and socketOptions.acknowledge, what the last call of that method gave and nothing when there was none, and no other member; the order of calls of different methods does not matter. The message that ends a subscription has the same data. A ping has null, a request for collectors its list. Different messages have different texts.", "quantifier": "every message, every sequence of builder calls, every string in it, every Display of addresses and prefixes (injective where told apart)", "why_tests_cant": "The repository compares one text and prints others. That escapes never break the JSON, that no call disturbs the field of another and that ending a subscription names the same one is about all strings and all call sequences.", "anchors": ["src/parser/rislive/messages/client/mod.rs: RisLiveClientMessage::to_json_string", "src/parser/rislive/messages/client/ris_subscribe.rs: RisSubscribe", "src/parser/rislive/messages/client/ris_unsubscribe.rs: RisUnsubscribe", "src/parser/rislive/messages/client/ping.rs: Ping", "src/parser/rislive/messages/client/request_rrc_list.rs: RequestRrcList"]}
{"id": "C95", "title": "Names and rates in a link-state attribute", "statement": "The node name and the link name of a link-state attribute are reported exactly when the last TLV of their type holds well-formed UTF-8, and then as that text. The maximum, residual, available and utilised bandwidth are the IEEE 754 single precision numbers in the first four octets of the last TLV of their types (infinities, NaN, signed zero and denormal numbers included), and nothing is reported otherwise. The link loss is 0.000003 per cent times the 24-bit number that follows the flag octet, whatever the flag, up to one part in 2^22; a larger number never gives a smaller loss.", "quantifier": "every list of TLVs, every 32-bit pattern, every 24-bit loss and every flag octet", "why_tests_cant": "The repository tests one value of each accessor. That no octet pattern is reported as a wrong number, that ill-formed text is never reported and that two roundings of the loss stay within a bound for all 2^24 values is about every attribute.", "anchors": ["src/models/bgp/linkstate.rs: get_node_name", "src/models/bgp/linkstate.rs: get_link_name", "src/models/bgp/linkstate.rs: get_maximum_link_bandwidth", "src/models/bgp/linkstate.rs: get_unidirectional_link_loss", "src/models/bgp/linkstate.rs: get_unidirectional_residual_bandwidth", "src/models/bgp/linkstate.rs: get_unidirectional_available_bandwidth", "src/models/bgp/linkstate.rs: get_unidirectional_utilized_bandwidth"]}
{"id": "C96", "title": "Equality, order and hashing of decoded values", "statement": "Where the library compares decoded values by hand, its comparison is an equivalence and means what the wire says: traffic engineering attributes and extended communities are equal exactly when their octets are (floating point fields by their bits, so NaN equals itself and the two zeros differ), geographic tables when every field and every peer is, MRT headers when everything but the length is. Two BMP per-peer headers read from any octets are equal exactly when all fields are, and then feed the same values to a hasher. An attribute type made from a code keeps it, and equality and order of such types are those of the codes. It has a name of its own exactly when its code is one of those the library lists. Conversely, headers that feed the same values to a hasher agree in every field but the time, and in the bits of the time.", "quantifier": "every well-formed attribute, community, table and header; every pair of octet strings a per-peer header is read from; every pair of codes", "why_tests_cant": "Tests compare a few values. Reflexivity on NaN, agreement of equality with hashing after float arithmetic on times, and agreement of order with equality are about all pairs of values.", "anchors": ["src/models/bgp/attributes/mod.rs: TrafficEngineering, AttrType", "src/models/bgp/community.rs: LinkBandwidth, FlowSpecTrafficRate, ExtendedCommunity", "src/models/mrt/table_dump_v2.rs: GeoPeer, GeoPeerTable", "src/models/mrt/mod.rs: CommonHeader", "src/parser/bmp/messages/headers.rs: BmpPerPeerHeader"]}
{"id": "C97", "title": "One-line texts of records, headers and next hops", "statement": "Printing an MRT record with Display gives a line whose columns, between bars, are MRT, the time (microseconds with at least six digits), the name of the type, the number of the subtype, and then the columns of its kind of content: route and peer of a table dump, the numbers of entries or peers of batches and tables, kind, route and number of entries of a RIB, the peer, AS number and two states of a state change, or the peer, AS number and kind of a BGP message. No column contains a bar. Two records have the same line exactly when these values agree. The line of a common header has the same first four columns and the length, and determines the header. Every record the parser returns has a line of this form. A route distinguisher is printed as its eight octets in hexadecimal and determined by that; a next hop is printed with Display as its address alone, and its Debug text determines it.", "quantifier": "every MRT record, header, route distinguisher and next hop with field values in range; every record parsed from any octets", "why_tests_cant": "tests compare the lines of a few records; that lines split into the right columns and never coincide for records that differ in a printed value concerns all records", "anchors": ["src/models/mrt/mod.rs: Display for CommonHeader, MrtRecord, MrtMessage", "src/models/network/nexthop.rs: Display and Debug for RouteDistinguisher, NextHopAddress"]}
{"id": "C98", "title": "Attributes and BGP messages written as JSON are read back as the same attributes and messages", "statement": "With the serde feature, a BGP message of any kind (OPEN, UPDATE, NOTIFICATION, KEEPALIVE, ROUTE-REFRESH), a list of path attributes and reachability information of any family (unicast, labelled, link-state, flow specification) that is written as JSON and read back is the same value, whatever the order in which the entries of the maps of a link-state attribute are written, provided no bandwidth or rate is infinite or not a number and no path is one that C80 excludes. Of attributes the list and every flag octet come back, the validation warnings are dropped, and an attribute type is recorded as present exactly if it is in the list. Flags are written as the names of the bits that are set, joined by bars, then the bits without a name as a hexadecimal digit. Whatever JSON is accepted, each number of the message is in the range of its field, and the message can be written and read again. Members and variants have the names of the fields and variants.", "quantifier": "all messages, attribute lists and NLRI of any size and all their field values, all orders of map entries, all JSON values read, all flag octets, all texts of addresses that their parsers read back", "why_tests_cant": "Messages nest more than sixty types with nested lists, maps and options of any size; a test writes a few of them, and a name, bound or optional field that is written and read differently shows only for the values that use it.", "anchors": ["src/models/bgp/mod.rs: BgpMessage, BgpOpenMessage, BgpUpdateMessage, BgpNotificationMessage, BgpRouteRefreshMessage", "src/models/bgp/attributes/mod.rs: Attributes (Serialize, Deserialize), Attribute, AttributeValue, AttrFlags", "src/models/bgp/attributes/nlri.rs: Nlri", "src/models/bgp/linkstate.rs", "src/models/bgp/flowspec/mod.rs", "src/models/bgp/tunnel_encap.rs", "src/models/bgp/capabilities.rs", "src/models/bgp/error.rs", "src/models/network/mpls.rs", "src/models/network/nexthop.rs"]}
{"id": "C99", "title": "MRT records written as JSON are read back as the same records with the same elements", "statement": "With the serde feature, an MRT record of any kind (table dump, batch of table dumps, peer index table, RIB, geographic peer table, BGP4MP message or state change, legacy BGP message or state change) that is written as JSON and read back has the same header and the same message, whatever the order in which the entries of maps are written, provided no float is infinite or not a number and no path is one that C80 excludes; a peer table answers every lookup by index and by address as before, and of attributes the list comes back without its warnings. The records of a file written and read back one by one have the same elements as the file. Whatever JSON is accepted, each number of the record is in the range of its field and a table has one peer per index and one index per address; the record can be written and read again. Peers are members named by their index in decimal, which is read in no other form; peer types are written as the names of the bits that are set, then the rest in hexadecimal. Members and variants have the names of the fields and variants.", "quantifier": "all records of any size and all their field values, all sequences of records, all orders of map entries, all JSON values read, all peer types, all texts of addresses that their parsers read back", "why_tests_cant": "Tests write three or four small records; names, ranges and optional fields of each of the kinds, tables with any number of peers in any iteration order, and the elements of whole files need a proof over all of them.", "anchors": ["src/models/mrt/mod.rs: MrtRecord, CommonHeader, MrtMessage, EntryType", "src/models/mrt/table_dump.rs: TableDumpMessage", "src/models/mrt/table_dump_v2.rs: TableDumpV2Message, RibAfiEntries, RibEntry, PeerIndexTable, Peer, PeerType, GeoPeerTable", "src/models/mrt/bgp4mp.rs: Bgp4MpEnum, BgpState, Bgp4MpType", "src/models/mrt/legacy_bgp.rs: LegacyBgp"]}
{"id": "C100", "title": "Whatever octets are read, the messages and records are in range, and a whole file can go through JSON", "statement": "Of any octets read as a BGP message, as path attributes or as MRT records, delivered in whatever pieces, each number of each value is in the range of its field, prefixes are no longer than their addresses, and a peer table has one peer per index and one index per address. So, with the serde feature, a message that was read from octets can be written as JSON and read back as the same message, and the records of a file can be written as JSON one by one, read back and turned into elements that are exactly those that iterating over the file gives, and with filters those that pass; only infinite floats, floats that are not numbers and the paths that C80 excludes stand against it.", "quantifier": "all octet sequences and all ways a source delivers them, all filters, all orders of map entries, all texts of addresses that their parsers read back", "why_tests_cant": "The ranges must hold after every one of the parsers of more than sixty types on any octets, malformed ones included; a test shows the round trip for the few files at hand.", "anchors": ["src/parser/bgp/messages.rs: parse_bgp_message", "src/parser/bgp/attributes/mod.rs: parse_attributes", "src/parser/mrt/mrt_record.rs: parse_mrt_record, parse_mrt_body", "src/parser/iters/default.rs: RecordIterator, ElemIterator", "src/models/mrt/mod.rs: MrtRecord (Serialize, Deserialize)"]}
{"id": "C101", "title": "An unreadable body is never taken for the end of the source", "statement": "Fallible record iteration without filters reports exactly one item for every record that can be framed and every error of framing, in order: the record, or the error of its body together with the record's own bytes. The body of a record fails only with a parse error, a truncated-message error, an unsupported error or an I/O error, never with the error that means the expected end, so no malformed body silently ends iteration or loses a later record. Default iteration gives exactly the readable records among those raw iteration gives, provided no body fails with an I/O error.", "quantifier": "every byte source, however delivered, every record type and subtype, every body", "why_tests_cant": "The error kinds come out of dozens of nested parsers; a test can show that some bodies fail with some kind, not that no body of any type ever fails with the kind that ends iteration.", "anchors": ["src/parser/iters/fallible.rs:FallibleRecordIterator", "src/parser/iters/default.rs:RecordIterator", "src/parser/iters/mod.rs", "src/parser/mrt/mrt_record.rs:parse_mrt_body", "src/error.rs:ParserError"]}
{"id": "C102", "title": "Damage inside one record stays in that record, and joined files read as their parts", "statement": "Replacing the body octets of one framed record by any others, in the same number, changes nothing that fallible iteration yields for any other record: the items before and after are identical, and only the item of the damaged record may change, into the record or error its new body gives. If the record is not a peer index table, the elements of all other records are also identical, under any filters. For a TABLE_DUMP (version 1) record this holds unless the old or the new body is one whose last entry runs exactly four octets past the declared length, for which four more octets are read. A file framed to its end without error and followed by any other bytes yields what it yields alone, followed by what the rest yields alone; the same holds for elements if the first file has no peer index table, and for default iteration if moreover no body in it fails with an I/O error.", "quantifier": "every source, however delivered, every record position, every replacement body, every continuation", "why_tests_cant": "There are unboundedly many damaged bodies and neighbours; a test shows that one kind of corruption is contained, not that no body can move the framing or the state carried between records.", "anchors": ["src/parser/mrt/mrt_record.rs:chunk_mrt_record", "src/parser/mrt/mrt_header.rs:parse_common_header", "src/parser/iters/fallible.rs:FallibleRecordIterator", "src/parser/iters/fallible.rs:FallibleElemIterator", "src/parser/iters/default.rs:ElemIterator"]}
