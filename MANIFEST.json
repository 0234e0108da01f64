{
 "claims": [
  {
   "property": "C01",
   "status": "proved",
   "theorems": [
    "C01_varint_round_trip",
    "C01_varint_minimal",
    "C01_varint_injective"
   ],
   "note": ""
  },
  {
   "property": "C02",
   "status": "proved",
   "theorems": [
    "C02_varint_decode_exact",
    "C02_varint_decode_errors"
   ],
   "note": ""
  },
  {
   "property": "C03",
   "status": "partial",
   "theorems": [
    "C03_incremental_agrees_partial",
    "C03_incremental_exact",
    "C03_incremental_agrees_refuted"
   ],
   "note": "Agreement is proved for every byte string the slice decoder accepts, and the incremental decoder is characterised on every byte string. Full agreement is refuted: the incremental decoder drops the bits of a tenth byte above 2^64 (varint.rs:23-37)."
  },
  {
   "property": "C04",
   "status": "proved",
   "theorems": [
    "C04_varint_self_delimiting",
    "C04_varint_sequence"
   ],
   "note": ""
  },
  {
   "property": "C05",
   "status": "proved",
   "theorems": [
    "C05_scalars_round_trip",
    "C05_zigzag64",
    "C05_zigzag32"
   ],
   "note": ""
  },
  {
   "property": "C06",
   "status": "proved",
   "theorems": [
    "C06_message_round_trip",
    "C06_reader_is_the_grammar"
   ],
   "note": ""
  },
  {
   "property": "C07",
   "status": "proved",
   "theorems": [
    "C07_field_in_bounds",
    "C07_reader_total"
   ],
   "note": ""
  },
  {
   "property": "C08",
   "status": "partial",
   "theorems": [
    "C08_standard_read",
    "C08_survives",
    "C08_wrong_kind",
    "C08_fixed64_refuted",
    "C08_fixed64_byte_swapped",
    "C08_fixed32_refuted",
    "C08_kind_texts"
   ],
   "note": "Refuted for the round trip: 64-bit values are written in the other byte order (C08_fixed64_refuted, C08_fixed64_byte_swapped; C08_survives: exactly the values that are the same in both orders survive), every 32-bit write panics (C08_fixed32_refuted). Proved: what other implementations write is read correctly (C08_standard_read), wrong kinds are errors (C08_wrong_kind)."
  },
  {
   "property": "C09",
   "status": "proved",
   "theorems": [
    "C09_link_round_trip",
    "C09_node_round_trip",
    "C09_link_exact",
    "C09_node_exact",
    "C09_bad_cid"
   ],
   "note": ""
  },
  {
   "property": "C10",
   "status": "proved",
   "theorems": [
    "C10_key_round_trip",
    "C10_identify_round_trip",
    "C10_key_exact",
    "C10_identify_exact",
    "C10_key_types",
    "C10_twice"
   ],
   "note": ""
  },
  {
   "property": "C11",
   "status": "proved",
   "theorems": [
    "C11_entry_round_trip",
    "C11_wantlist_round_trip",
    "C11_block_round_trip",
    "C11_message_round_trip",
    "C11_entry_exact",
    "C11_wantlist_exact",
    "C11_block_exact",
    "C11_message_exact"
   ],
   "note": ""
  },
  {
   "property": "C12",
   "status": "proved",
   "theorems": [
    "C12_directory_exact",
    "C12_first_offence",
    "C12_directory_total"
   ],
   "note": ""
  },
  {
   "property": "C13",
   "status": "proved",
   "theorems": [
    "C13_unixfs_exact",
    "C13_mtime_exact",
    "C13_unixfs_rejects",
    "C13_data_types",
    "C13_time_twice",
    "C13_twice"
   ],
   "note": ""
  },
  {
   "property": "C14",
   "status": "proved",
   "theorems": [
    "C14_unknown_fields_ignored"
   ],
   "note": ""
  },
  {
   "property": "C15",
   "status": "proved",
   "theorems": [
    "C15_reads_stay_in_bounds",
    "C15_lists_stay_in_bounds",
    "C15_read_sequences"
   ],
   "note": ""
  },
  {
   "property": "C16",
   "status": "proved",
   "theorems": [
    "C16_writes_are_exact",
    "C16_round_trip",
    "C16_encoding_is_prefix_free"
   ],
   "note": ""
  },
  {
   "property": "C17",
   "status": "partial",
   "theorems": [
    "C17_quic_round_trip",
    "C17_quic_shortest",
    "C17_quic_large_values_refuted"
   ],
   "note": "Round trip and shortest form are proved for every value below 2^62; for every u64 from 2^62 up the writer is proved to write the value modulo 2^62 (refuted)."
  },
  {
   "property": "C18",
   "status": "partial",
   "theorems": [
    "C18_length_prefixed_bytes",
    "C18_length_prefixed_lists",
    "C18_nested_partial",
    "C18_nested_length_refuted"
   ],
   "note": "Proved for the length-prefixed byte and list writers. write_u16_nested: failure leaves the buffer unchanged; the length prefix is refuted for every body of 65536 bytes or more."
  },
  {
   "property": "C19",
   "status": "proved",
   "theorems": [
    "C19_hex_parse_exact",
    "C19_hex_round_trip",
    "C19_hex_normalises"
   ],
   "note": ""
  },
  {
   "property": "C20",
   "status": "proved",
   "theorems": [
    "C20_multibase_round_trip",
    "C20_text_as_specified"
   ],
   "note": ""
  },
  {
   "property": "C21",
   "status": "proved",
   "theorems": [
    "C21_base58_canonical",
    "C21_base58_distinct"
   ],
   "note": ""
  },
  {
   "property": "C22",
   "status": "partial",
   "theorems": [
    "C22_basen_canonical_refuted",
    "C22_basen_exact",
    "C22_basen_strict_partial"
   ],
   "note": "Canonicity is refuted (witness: two base-32 texts for the same bytes). What is accepted is characterised exactly, and among accepted texts the strict RFC 4648 form is unique and is the encoder output."
  },
  {
   "property": "C23",
   "status": "proved",
   "theorems": [
    "C23_multibase_total",
    "C23_foreign_rejected",
    "C23_unknown_prefix_rejected"
   ],
   "note": ""
  },
  {
   "property": "C24",
   "status": "proved",
   "theorems": [
    "C24_cid_bytes_round_trip"
   ],
   "note": ""
  },
  {
   "property": "C25",
   "status": "proved",
   "theorems": [
    "C25_cid_text_round_trip"
   ],
   "note": ""
  },
  {
   "property": "C26",
   "status": "proved",
   "theorems": [
    "C26_cid_parse_total",
    "C26_cid_bytes_exact",
    "C26_cid_text_exact",
    "C26_cid_bytes_same",
    "C26_cid_bytes_distinct",
    "C26_cid_text_distinct"
   ],
   "note": ""
  },
  {
   "property": "C27",
   "status": "proved",
   "theorems": [
    "C27_block_cid",
    "C27_block_matches_request",
    "C27_other_hash_rejected",
    "C27_unsupported"
   ],
   "note": ""
  },
  {
   "property": "C28",
   "status": "proved",
   "theorems": [
    "C28_locations_identify_values"
   ],
   "note": ""
  },
  {
   "property": "C29",
   "status": "proved",
   "theorems": [
    "C29_parser_accepts_exactly_the_grammar",
    "C29_round_trip",
    "C29_grammar_unambiguous"
   ],
   "note": ""
  },
  {
   "property": "C30",
   "status": "proved",
   "theorems": [
    "C30_parser_total",
    "C30_locations_nested"
   ],
   "note": ""
  },
  {
   "property": "C31",
   "status": "proved",
   "theorems": [
    "C31_accepted_torrents_are_consistent"
   ],
   "note": ""
  },
  {
   "property": "C32",
   "status": "partial",
   "theorems": [
    "C32_last_piece_partial",
    "C32_last_piece_refuted",
    "C32_when_it_fails"
   ],
   "note": "Refuted for torrents with more piece hashes than the files need (accepted, then underflow); proved, with an exact condition, for the rest."
  },
  {
   "property": "C33",
   "status": "partial",
   "theorems": [
    "C33_clean_paths_partial",
    "C33_paths_refuted"
   ],
   "note": "Refuted: \"..\" and absolute components are accepted. Proved for torrents whose components are clean."
  },
  {
   "property": "C34",
   "status": "proved",
   "theorems": [
    "C34_update_exact",
    "C34_counts"
   ],
   "note": ""
  },
  {
   "property": "C35",
   "status": "partial",
   "theorems": [
    "C35_requests_tile_the_torrent_partial",
    "C35_surplus_pieces_refuted",
    "C35_huge_pieces_refuted"
   ],
   "note": "Proved for accepted torrents without surplus pieces, with pieces of at most 2^32 bytes. Refuted otherwise: surplus pieces panic; offsets beyond 2^32 wrap and a byte is requested twice."
  },
  {
   "property": "C36",
   "status": "proved",
   "theorems": [
    "C36_requests_are_conserved",
    "C36_states_are_disjoint",
    "C36_every_request_in_one_state"
   ],
   "note": ""
  },
  {
   "property": "C37",
   "status": "proved",
   "theorems": [
    "C37_segmentation_is_irrelevant",
    "C37_messages_are_delivered",
    "C37_receive_loop_ends"
   ],
   "note": ""
  },
  {
   "property": "C38",
   "status": "partial",
   "theorems": [
    "C38_frames_round_trip_partial",
    "C38_cut_off",
    "C38_segmentation_is_irrelevant",
    "C38_accepted_streams",
    "C38_large_numbers_refuted"
   ],
   "note": "Round trip proved for stream numbers below 2^61 (the header shifts the number by three bits); refuted above: two numbers share one encoding. Segmentation, truncation and exactness are proved for all streams."
  },
  {
   "property": "C39",
   "status": "partial",
   "theorems": [
    "C39_streams_do_not_mix",
    "C39_open_streams_lose_nothing",
    "C39_every_stream_is_accepted_partial",
    "C39_reopened_stream_refuted"
   ],
   "note": "No mixing and no loss are proved for all executions. Accepting every new stream is proved when no stream is opened twice and only streams already given are read; refuted for a stream opened twice."
  },
  {
   "property": "C40",
   "status": "partial",
   "theorems": [
    "C40_what_crashes_partial",
    "C40_crash_refuted"
   ],
   "note": "Refuted by an 11-byte input; the panicking inputs are characterised exactly."
  },
  {
   "property": "C41",
   "status": "partial",
   "theorems": [
    "C41_when_reads_are_empty_partial",
    "C41_false_end_of_file_refuted"
   ],
   "note": "Refuted: an empty message reads as end of file, data after a close is delivered. Exactly when zero-length reads happen is proved."
  },
  {
   "property": "C42",
   "status": "proved",
   "theorems": [
    "C42_messages_round_trip",
    "C42_cut_reported",
    "C42_segmentation_irrelevant",
    "C42_read_exact"
   ],
   "note": ""
  },
  {
   "property": "C43",
   "status": "partial",
   "theorems": [
    "C43_select_exact",
    "C43_handshake_exact",
    "C43_list_round_trip",
    "C43_long_list_refused",
    "C43_cut_list_refuted"
   ],
   "note": "Handshake, selection and complete lists are proved exactly. Refuted: a list cut off by the end of the connection is returned as if complete."
  },
  {
   "property": "C44",
   "status": "partial",
   "theorems": [
    "C44_lookup_exact",
    "C44_dispatch",
    "C44_unknown_only",
    "C44_reply_is_identify_refuted"
   ],
   "note": "Lookup, dispatch and the na answers are proved. Refuted: the acceptance reply always names the identify protocol."
  },
  {
   "property": "C45",
   "status": "proved",
   "theorems": [
    "C45_multiaddr_total",
    "C45_multiaddr_exact",
    "C45_multiaddr_round_trip",
    "C45_multiaddr_reserialise",
    "C45_multiaddr_stable"
   ],
   "note": ""
  },
  {
   "property": "C46",
   "status": "partial",
   "theorems": [
    "C46_written_then_read",
    "C46_round_trip_partial",
    "C46_true_refuted",
    "C46_writer_refusals"
   ],
   "note": "Round trip proved for trees without a true Boolean and encodings below 2^32 bytes; exact behaviour with true Booleans proved (all become false) and the full statement refuted."
  },
  {
   "property": "C47",
   "status": "proved",
   "theorems": [
    "C47_minimal",
    "C47_read_back",
    "C47_read_exact",
    "C47_no_panic",
    "C47_long_rejected"
   ],
   "note": ""
  },
  {
   "property": "C48",
   "status": "proved",
   "theorems": [
    "C48_parts_alone",
    "C48_prefix",
    "C48_total_and_nested",
    "C48_descendants_inside"
   ],
   "note": ""
  },
  {
   "property": "C49",
   "status": "partial",
   "theorems": [
    "C49_round_trip_partial",
    "C49_distinct",
    "C49_second_arc_refuted"
   ],
   "note": "Proved for second arc below 40; refuted for first arc 2 with second arc of 40 or more."
  },
  {
   "property": "C50",
   "status": "partial",
   "theorems": [
    "C50_items_round_trip_partial",
    "C50_parts_round_trip",
    "C50_unique_ids_refuted",
    "C50_parsed_is_stable",
    "C50_der_exact",
    "C50_critical_refuted"
   ],
   "note": "Proved through items when the unique identifiers are absent, and exactly what DER does to it. Refuted: unique identifiers are dropped; the critical flag is lost through DER."
  },
  {
   "property": "C51",
   "status": "partial",
   "theorems": [
    "C51_errors_exactly",
    "C51_label_errors_exactly",
    "C51_messages_printable",
    "C51_accepts_exactly",
    "C51_round_trip",
    "C51_loops_exactly",
    "C51_terminates_refuted",
    "C51_label_checked",
    "C51_label_texts"
   ],
   "note": "Round trip, the accepted texts, the error for every other text (C51_errors_exactly, with its message) and the non-terminating texts are characterised exactly. Refuted: decoding does not terminate on a text that stops inside BEGIN or END."
  },
  {
   "property": "C52",
   "status": "proved",
   "theorems": [
    "C52_code_points",
    "C52_on_the_wire"
   ],
   "note": ""
  },
  {
   "property": "C53",
   "status": "partial",
   "theorems": [
    "C53_refusals",
    "C53_bytes_are_read",
    "C53_writer_is_exact",
    "C53_round_trip_partial",
    "C53_no_writer_refuted",
    "C53_authorities_refuted",
    "C53_server_name_refuted",
    "C53_header_length",
    "C53_long_message_refuted"
   ],
   "note": "Reading proved for every message type from the RFC encoding; writing proved exact for the messages and extensions that have a writer. Refuted: EncryptedExtensions, CertificateRequest and NewSessionTicket have no writer; a certificate-authorities extension panics the writer; an acknowledged server name is written in a form the parser refuses; the header length wraps at 2^24."
  },
  {
   "property": "C54",
   "status": "partial",
   "theorems": [
    "C54_only_key_update_panics",
    "C54_messages_partial",
    "C54_key_update_refuted",
    "C54_certificates"
   ],
   "note": "The parser panics exactly on KeyUpdate (type 24); everything else proved total, certificates included (the stack depth of the ASN.1 reader is not modelled)."
  },
  {
   "property": "C55",
   "status": "partial",
   "theorems": [
    "C55_any_segmentation",
    "C55_none_is_held_back",
    "C55_what_comes_instead",
    "C55_truncated_header_refuted",
    "C55_change_cipher_spec_is_skipped",
    "C55_no_panic"
   ],
   "note": "Proved for every segmentation and interleaving; truncation inside a record header is not noticed (refuted with the general witness)."
  },
  {
   "property": "C56",
   "status": "proved",
   "theorems": [
    "C56_sent_records",
    "C56_round_trip",
    "C56_all_zero",
    "C56_only_what_opens"
   ],
   "note": ""
  },
  {
   "property": "C57",
   "status": "proved",
   "theorems": [
    "C57_no_nonce_twice",
    "C57_nonce_of_the_rfc",
    "C57_nonce_injective"
   ],
   "note": ""
  },
  {
   "property": "C58",
   "status": "proved",
   "theorems": [
    "C58_only_authentic_servers",
    "C58_nothing_else_is_sent",
    "C58_order",
    "C58_other_messages_are_errors",
    "C58_fuel"
   ],
   "note": "Against every peer and transport, for primitives with the stated sizes and an AEAD that opens what it sealed. The order of messages is characterised exactly. What the client does not check is in C79 and C81; the panic it can be driven to in C62."
  },
  {
   "property": "C59",
   "status": "proved",
   "theorems": [
    "C59_records_of_the_accepted_bytes",
    "C59_flush_sends_all",
    "C59_only_authentic_bytes",
    "C59_reads_what_was_sent"
   ],
   "note": "For all operations and transport behaviours; record numbers below 2^64."
  },
  {
   "property": "C60",
   "status": "proved",
   "theorems": [
    "C60_close_notify_is_last",
    "C60_later_writes_are_refused"
   ],
   "note": "For all operations and transport behaviours."
  },
  {
   "property": "C61",
   "status": "partial",
   "theorems": [
    "C61_empty_reads_partial",
    "C61_empty_record_refuted",
    "C61_buffered_record_waits_refuted",
    "C61_delivered_with_new_bytes"
   ],
   "note": "Proved: an empty read means an authenticated close_notify or an empty application record. Refuted: an empty record reads as the end; a complete buffered record waits until the transport has more."
  },
  {
   "property": "C62",
   "status": "partial",
   "theorems": [
    "C62_client_panics_refuted",
    "C62_when_it_panics_partial",
    "C62_panics_refuted"
   ],
   "note": "Refuted, also in a run of the client; proved to panic exactly when the length differs from that of the hash, and to be right otherwise."
  },
  {
   "property": "C63",
   "status": "proved",
   "theorems": [
    "C63_added",
    "C63_removed",
    "C63_inverse",
    "C63_short"
   ],
   "note": "For packets that have room for the sample after a header of one byte at least; shorter packets are refused unchanged."
  },
  {
   "property": "C64",
   "status": "partial",
   "theorems": [
    "C64_round_trip_partial",
    "C64_opened",
    "C64_nonces",
    "C64_bad_length_refuted"
   ],
   "note": "Round trip, soundness and distinct nonces proved for packet numbers that fit their field. Never panicking is refuted with the exact condition."
  },
  {
   "property": "C65",
   "status": "partial",
   "theorems": [
    "C65_decoder",
    "C65_encoder",
    "C65_round_trip_partial",
    "C65_rewritten",
    "C65_lost_refuted"
   ],
   "note": "Decoder and encoder characterised exactly; round trip for all parameters except original_destination_connection_id, which is read as unknown, and numbers of 2^62 or more, which are cut (both refuted)."
  },
  {
   "property": "C66",
   "status": "partial",
   "theorems": [
    "C66_prefix_partial",
    "C66_disjoint",
    "C66_all_orders",
    "C66_duplicate_refuted"
   ],
   "note": "Prefix and completeness for every order and overlap on which it does not panic; pieces without overlap never panic; a late duplicate does (refuted)."
  },
  {
   "property": "C67",
   "status": "partial",
   "theorems": [
    "C67_packet_partial",
    "C67_parsed_partial",
    "C67_hello_partial",
    "C67_frames",
    "C67_too_large_refuted"
   ],
   "note": "End to end for lengths below 16384 and packet numbers below 2^32; refuted beyond."
  },
  {
   "property": "C68",
   "status": "partial",
   "theorems": [
    "C68_copies_partial",
    "C68_order",
    "C68_endpoints",
    "C68_next_times",
    "C68_latency_refuted",
    "C68_send_time_refuted",
    "C68_duplicate_refuted"
   ],
   "note": "Contents, order, numbering and cross connection for all runs; the latency, send time and independence of copies are refuted."
  },
  {
   "property": "C69",
   "status": "partial",
   "theorems": [
    "C69_woken_partial",
    "C69_lost_refuted",
    "C69_calls"
   ],
   "note": "Refuted by one interleaving; proved for all runs in which no time is written between the two steps of a waiter."
  },
  {
   "property": "C70",
   "status": "proved",
   "theorems": [
    "C70_in_order",
    "C70_monotone",
    "C70_no_panic",
    "C70_main",
    "C70_progress"
   ],
   "note": "Safety and absence of panics for any schedule, progress for the schedule of main."
  },
  {
   "property": "C71",
   "status": "proved",
   "theorems": [
    "C71_step_is_a_bijection",
    "C71_full_period",
    "C71_different_seeds_never_merge"
   ],
   "note": ""
  },
  {
   "property": "C72",
   "status": "proved",
   "theorems": [
    "C72_message_parsers_total"
   ],
   "note": ""
  },
  {
   "property": "C73",
   "status": "partial",
   "theorems": [
    "C73_escaped_text_is_one_quoted_line",
    "C73_escape_injective_without_backslash",
    "C73_escape_injective_refuted"
   ],
   "note": "Proved apart from injectivity, which is refuted by a witness and proved for strings without backslashes."
  },
  {
   "property": "C74",
   "status": "partial",
   "theorems": [
    "C74_only_these_crash_partial",
    "C74_every_such_message_crashes_refuted"
   ],
   "note": "Refuted: exactly the messages with ids 6, 8, 9 and pieces shorter than 8 bytes panic, at any point of the conversation; proved that nothing else does."
  },
  {
   "property": "C75",
   "status": "partial",
   "theorems": [
    "C75_nobody_sleeps_on_their_frame",
    "C75_sleepers_are_guarded_partial",
    "C75_wakers_are_not_lost",
    "C75_error_strands_readers_refuted"
   ],
   "note": "The guarantee that a sleeper is woken is refuted after a transport error; proved for executions without errors. The other parts are proved for all executions."
  },
  {
   "property": "C76",
   "status": "partial",
   "theorems": [
    "C76_queue_is_conserved",
    "C76_flush_means_flushed_partial",
    "C76_peer_receives_the_calls",
    "C76_shutdown_is_not_sent_refuted"
   ],
   "note": "Refuted for shutdown (close frame never flushed by the writer); proved for connect, write and flush."
  },
  {
   "property": "C77",
   "status": "partial",
   "theorems": [
    "C77_generated_certificate_partial",
    "C77_critical_refuted"
   ],
   "note": "Everything except the critical flag proved, for certificates below 2^32 bytes; the critical flag is refuted."
  },
  {
   "property": "C78",
   "status": "partial",
   "theorems": [
    "C78_length_is_ignored_refuted",
    "C78_rest_of_record_dropped_refuted",
    "C78_finished_takes_the_rest_refuted",
    "C78_unknown_types_delimited"
   ],
   "note": "Refuted for every known type; proved for unknown types."
  },
  {
   "property": "C79",
   "status": "partial",
   "theorems": [
    "C79_name_is_not_checked_refuted",
    "C79_expired_and_nameless_refuted"
   ],
   "note": "Refuted. The positive companion is C58_only_authentic_servers: which servers the client accepts, exactly."
  },
  {
   "property": "C80",
   "status": "partial",
   "theorems": [
    "C80_bad_record_is_forgotten_refuted",
    "C80_other_errors_partial"
   ],
   "note": "Refuted for every connection state and every such record. Proved: after a failed read either every later read gives the same error, or the connection is unchanged with an unreadable record pending (C80_other_errors_partial); only authentic bytes are ever delivered (C59_only_authentic_bytes)."
  },
  {
   "property": "C81",
   "status": "partial",
   "theorems": [
    "C81_only_suite_and_share_refuted",
    "C81_older_version_refuted",
    "C81_exact_partial",
    "C81_errors_partial"
   ],
   "note": "Refuted. Proved: exactly which server hellos are accepted and with which result (C81_exact_partial), exactly which errors the others give (C81_errors_partial)."
  },
  {
   "property": "C82",
   "status": "partial",
   "theorems": [
    "C82_only_these_partial",
    "C82_short_header_refuted",
    "C82_length_zero_refuted",
    "C82_two_messages_refuted",
    "C82_parameters_refuted",
    "C82_messages",
    "C82_short_number"
   ],
   "note": "Refuted in four ways for all keys; the places where it can panic are proved complete."
  },
  {
   "property": "C83",
   "status": "partial",
   "theorems": [
    "C83_not_found_refuted",
    "C83_table_partial",
    "C83_same_id_partial"
   ],
   "note": "Refuted for every packet whose two ids differ. Proved: what the table of connections is after any packet (C83_table_partial), and that a packet is found again when its ids agree (C83_same_id_partial)."
  },
  {
   "property": "C84",
   "status": "proved",
   "theorems": [
    "C84_rfc"
   ],
   "note": ""
  },
  {
   "property": "C85",
   "status": "proved",
   "theorems": [
    "C85_stream_ids"
   ],
   "note": ""
  },
  {
   "property": "C86",
   "status": "partial",
   "theorems": [
    "C86_ping_refused_refuted",
    "C86_ack_as_ping_refuted",
    "C86_assigned_partial"
   ],
   "note": "Refuted; what the parser does with the other frames is in C67. Proved: every assigned type is read as its frame or refused with the matching error (C86_assigned_partial)."
  },
  {
   "property": "C87",
   "status": "partial",
   "theorems": [
    "C87_offsets_ignored_refuted",
    "C87_split_refuted",
    "C87_one_packet_partial",
    "C87_only_whole_partial"
   ],
   "note": "Refuted for every message and every split. Proved: a message that lies in one packet is read whole (C87_one_packet_partial), and a message is only ever handled whole (C87_only_whole_partial)."
  },
  {
   "property": "C88",
   "status": "partial",
   "theorems": [
    "C88_increasing_partial",
    "C88_both_refuted"
   ],
   "note": "Refuted: the loss is permanent whatever happens afterwards. Proved for both peers in every execution: what is accepted is strictly increasing, carries its own number and was sent (C88_increasing_partial)."
  },
  {
   "property": "C89",
   "status": "partial",
   "theorems": [
    "C89_exact_partial",
    "C89_overdue_refuted",
    "C89_stuck_refuted",
    "C89_early_refuted"
   ],
   "note": "Refuted for all states. Proved: exactly when a message is sent, and which (C89_exact_partial)."
  },
  {
   "property": "C90",
   "status": "partial",
   "theorems": [
    "C90_only_the_grammar",
    "C90_all_of_the_grammar",
    "C90_unambiguous",
    "C90_strict",
    "C90_canonical_refuted"
   ],
   "note": "The language and the meaning exactly, both directions; shortest forms refuted."
  },
  {
   "property": "C91",
   "status": "partial",
   "theorems": [
    "C91_faithful_partial",
    "C91_confused_refuted",
    "C91_cut"
   ],
   "note": "For arcs below 2^64; refuted beyond."
  },
  {
   "property": "C92",
   "status": "partial",
   "theorems": [
    "C92_certificates_exactly",
    "C92_parts_exactly",
    "C92_bytes_exactly",
    "C92_trailing_ignored_refuted",
    "C92_extension_junk_refuted",
    "C92_never_panics"
   ],
   "note": "Exactly, both directions, items and bytes, and no panic; trailing bytes and elements are ignored (refuted)."
  },
  {
   "property": "C93",
   "status": "partial",
   "theorems": [
    "C93_connect_exactly",
    "C93_parse_exactly",
    "C93_counted_exactly",
    "C93_client_never_panics",
    "C93_counts_panic_refuted",
    "C93_short_lists_refuted",
    "C93_any_transaction_refuted"
   ],
   "note": "Exactly, both directions; the missing check of the transaction, the refused responses and the panics of the second program are characterised and refuted."
  },
  {
   "property": "C94",
   "status": "proved",
   "theorems": [
    "C94_connect_request",
    "C94_announce_request",
    "C94_client_request",
    "C94_handshake"
   ],
   "note": "All layouts."
  },
  {
   "property": "C95",
   "status": "partial",
   "theorems": [
    "C95_body_exactly",
    "C95_decode_never_panics",
    "C95_read_message",
    "C95_read_sound",
    "C95_failure_reported",
    "C95_closed_in_message_refuted",
    "C95_handshake_exactly",
    "C95_handshake_round_trip"
   ],
   "note": "Exactly, both directions, any pieces; a connection closed inside a message loops for ever (refuted in general)."
  },
  {
   "property": "C96",
   "status": "partial",
   "theorems": [
    "C96_output",
    "C96_no_panic",
    "C96_write_failure_refuted",
    "C96_stuck",
    "C96_close_refuted",
    "C96_choked_request_refuted",
    "C96_bit_field"
   ],
   "note": "All interleavings; the panic after a failed write, the writer left waiting and the request while choked are refuted."
  },
  {
   "property": "C97",
   "status": "partial",
   "theorems": [
    "C97_in_order",
    "C97_echo",
    "C97_goodbye",
    "C97_list",
    "C97_everyone",
    "C97_delivered",
    "C97_queue_refuted"
   ],
   "note": "All interleavings of any number of connections; that the waiting messages are bounded is refuted."
  },
  {
   "property": "C98",
   "status": "proved",
   "theorems": [
    "C98_line",
    "C98_sender",
    "C98_no_forgery"
   ],
   "note": "All pieces, all reachable states."
  },
  {
   "property": "C99",
   "status": "partial",
   "theorems": [
    "C99_identify_reply",
    "C99_key_is_told",
    "C99_protocols_are_served",
    "C99_addresses_refuted"
   ],
   "note": "All keys, any segmentation; the addresses told are fixed ones (refuted)."
  },
  {
   "property": "C100",
   "status": "partial",
   "theorems": [
    "C100_session",
    "C100_session_unique",
    "C100_request",
    "C100_no_request",
    "C100_directories_shown",
    "C100_undecodable_refuted",
    "C100_files_refuted",
    "C100_unrequested_refuted"
   ],
   "note": "Exact for every stream, and unique; the silent end at an undecodable message, the refusal of files and the display of unrequested blocks are refuted in general."
  },
  {
   "property": "C101",
   "status": "partial",
   "theorems": [
    "C101_generates_exactly",
    "C101_other_ends",
    "C101_refusals",
    "C101_print_reads_generated",
    "C101_authority_names_issuer",
    "C101_distinct_serials_refuted"
   ],
   "note": "Byte-exact for all files, keys and signing functions; serial number, names, validity and key identifier are the same in every certificate (refuted)."
  },
  {
   "property": "C102",
   "status": "partial",
   "theorems": [
    "C102_reencodes_exactly",
    "C102_written_unchanged",
    "C102_idempotent",
    "C102_meaning_partial",
    "C102_true_refuted",
    "C102_trailing_refuted",
    "C102_ends"
   ],
   "note": "All files; Booleans that are true and bytes after the item are lost (refuted)."
  },
  {
   "property": "C103",
   "status": "partial",
   "theorems": [
    "C103_layout",
    "C103_one_line_per_item",
    "C103_determines_partial",
    "C103_backslash_refuted",
    "C103_truncated_refuted",
    "C103_bits_debug_refuted",
    "C103_registry",
    "C103_strokes",
    "C103_bits_debug",
    "C103_bits_debug_text",
    "C103_lines",
    "C103_object_names"
   ],
   "note": "All trees; ambiguity with backslashes, truncation and in the Debug form of bit strings is refuted."
  },
  {
   "property": "C104",
   "status": "partial",
   "theorems": [
    "C104_layout",
    "C104_determines",
    "C104_widths",
    "C104_plain",
    "C104_indent",
    "C104_indented_dump",
    "C104_indent_determines_refuted"
   ],
   "note": "Exact for all bytes; indenting loses a final line feed and carriage returns (refuted)."
  },
  {
   "property": "C105",
   "status": "partial",
   "theorems": [
    "C105_accepts_any",
    "C105_forwards",
    "C105_delivers",
    "C105_empty_buffer_refuted",
    "C105_failed_connect_refuted",
    "C105_accepts"
   ],
   "note": "All schedules; nothing passes an empty buffer, and one failed connect ends the proxy (refuted)."
  },
  {
   "property": "C106",
   "status": "partial",
   "theorems": [
    "C106_echoes",
    "C106_statistics",
    "C106_tasks_are_separate",
    "C106_sock_echo_refuted",
    "C106_iotest_partial",
    "C106_welcome"
   ],
   "note": "All schedules; the echo mode of sock.rs sends nothing (refuted), iotest.rs may send part of its welcome."
  },
  {
   "property": "C107",
   "status": "partial",
   "theorems": [
    "C107_paths_name_steps",
    "C107_errors_name_faults",
    "C107_error_offsets",
    "C107_paths_unique_refuted",
    "C107_paths_unique_partial",
    "C107_error_texts",
    "C107_byte_text",
    "C107_messages"
   ],
   "note": "Exact for all inputs; paths are ambiguous with slashes or numbers as keys (refuted), and unique otherwise."
  },
  {
   "property": "C108",
   "status": "partial",
   "theorems": [
    "C108_info_text",
    "C108_torrent_text",
    "C108_dump",
    "C108_shows_everything",
    "C108_dump_determines_refuted",
    "C108_succeeds",
    "C108_fails",
    "C108_files",
    "C108_trackers_partial",
    "C108_hash",
    "C108_trackers_refuted",
    "C108_rest_is_ignored"
   ],
   "note": "All inputs; neither the dump nor the list of trackers is unambiguous (refuted); trackers are for non-empty groups and addresses."
  },
  {
   "property": "C109",
   "status": "partial",
   "theorems": [
    "C109_self_test_usage",
    "C109_messages",
    "C109_list",
    "C109_detect",
    "C109_decode",
    "C109_convert",
    "C109_conversions_compose",
    "C109_failures",
    "C109_message_offset_refuted",
    "C109_self_test",
    "C109_self_test_passes"
   ],
   "note": "All inputs; the offset in the message does not count the base code and the character is shown as a number (refuted)."
  },
  {
   "property": "C110",
   "status": "proved",
   "theorems": [
    "C110_names",
    "C110_table",
    "C110_inverse",
    "C110_printed",
    "C110_source_tables"
   ],
   "note": "All alphabets."
  },
  {
   "property": "C111",
   "status": "proved",
   "theorems": [
    "C111_cid",
    "C111_cid_again",
    "C111_debug_determines",
    "C111_varint",
    "C111_write_pbuf",
    "C111_write_pbuf_command",
    "C111_field_debug",
    "C111_getkey",
    "C111_commands",
    "C111_never_panics",
    "C111_texts"
   ],
   "note": "All inputs; what OpenSSL prints about the key is a parameter."
  },
  {
   "property": "C112",
   "status": "partial",
   "theorems": [
    "C112_text_determines",
    "C112_text_of_bytes",
    "C112_invalid_tail",
    "C112_plain_text",
    "C112_text_is_canonical_refuted",
    "C112_texts"
   ],
   "note": "All addresses; padded codes share a text, and /ipv4/ is not the registered name (refuted). The text of IPv6 addresses is the standard library and assumed to be unique."
  },
  {
   "property": "C113",
   "status": "proved",
   "theorems": [
    "C113_never_rejected",
    "C113_completes",
    "C113_delivery_does_not_matter"
   ],
   "note": ""
  },
  {
   "property": "C114",
   "status": "partial",
   "theorems": [
    "C114_download_completes",
    "C114_never_idle",
    "C114_such_seeds_exist",
    "C114_forgotten_requests_refuted",
    "C114_hashes_not_checked_refuted"
   ],
   "note": "proved: the download completes from every seed that answers what it was asked (C114_download_completes), is never idle (C114_never_idle), and such seeds exist (C114_such_seeds_exist). refuted: requests are never repeated, so a peer that forgets requests on choke leaves the download unfinished (C114_forgotten_requests_refuted), and arriving pieces are never compared with the hashes (C114_hashes_not_checked_refuted)."
  },
  {
   "property": "C115",
   "status": "partial",
   "theorems": [
    "C115_streams_are_pipes",
    "C115_everything_arrives",
    "C115_accepts_in_order",
    "C115_head_of_line_refuted"
   ],
   "note": "proved: reads are a prefix of writes in every session (C115_streams_are_pipes), everything arrives once nothing is in flight (C115_everything_arrives), streams are accepted in the order they were opened (C115_accepts_in_order). refuted: the streams are not independent, a frame nobody takes blocks all the others (C115_head_of_line_refuted)."
  },
  {
   "property": "C116",
   "status": "partial",
   "theorems": [
    "C116_identify_program",
    "C116_show_program",
    "C116_serve_program",
    "C116_identify_works",
    "C116_show_refuted",
    "C116_unknown_refused",
    "C116_identify_exact",
    "C116_nothing_else_in_clear",
    "C116_dial_works",
    "C116_no_tls_no_connection"
   ],
   "note": "proved: identify between two nodes always ends with the right description in every interleaving (C116_identify_works), unknown protocols are refused (C116_unknown_refused), exact result and fixed writes against any peer (C116_identify_exact, C116_nothing_else_in_clear, C116_dial_works, C116_no_tls_no_connection), the programs of the conversation are the code (C116_*_program). Refuted: show against a node of this code always fails with invalid data, because the answering node names identify whatever it was asked for (C116_show_refuted)."
  },
  {
   "property": "C117",
   "status": "partial",
   "theorems": [
    "C117_chunk",
    "C117_default_address",
    "C117_options_exact",
    "C117_without_ca_never_connects",
    "C117_with_ca_only_certified",
    "C117_name_is_fixed_refuted",
    "C117_response_is_printed",
    "C117_request",
    "C117_options_hang_refuted"
   ],
   "note": "proved: the configuration is exactly the one asked for (C117_options_exact), no connection without --ca-cert (C117_without_ca_never_connects), only certified servers with it (C117_with_ca_only_certified), the response is printed completely (C117_response_is_printed, C117_request). Refuted: the server name is always localhost (C117_name_is_fixed_refuted); some option files make the tool hang (C117_options_hang_refuted)."
  },
  {
   "property": "C118",
   "status": "partial",
   "theorems": [
    "C118_client_honest",
    "C118_peers_lost_refuted",
    "C118_client_exact",
    "C118_client_no_panic",
    "C118_anyone_may_answer_refuted",
    "C118_saved_response",
    "C118_tool_announce",
    "C118_tool_exact",
    "C118_tool_honest",
    "C118_tool_panics_refuted",
    "C118_peer_line",
    "C118_numbers",
    "C118_trackers",
    "C118_peer_id",
    "C118_download_refuted",
    "C118_tool_main",
    "C118_tool_text",
    "C118_client_text",
    "C118_download_text",
    "C118_warnings"
   ],
   "note": "proved: the complete run against an honest tracker (C118_client_honest, an equivalence), exactly the runs that end well for both programs (C118_client_exact, C118_tool_exact), the tool against an honest tracker (C118_tool_honest), no panic of the client and nothing printed on failure (C118_client_no_panic), the saved reply (C118_saved_response), numbering (C118_numbers: exact; shifted by invalid URLs), texts. Refuted: a list of more than 679 peers is cut silently (C118_peers_lost_refuted), any sender and any announce transaction id are accepted (C118_anyone_may_answer_refuted), the tool does not compare action or transaction of the connect reply (in C118_tool_exact) and panics on huge counts (C118_tool_panics_refuted, exact), download panics before connecting when there are more pieces than needed (C118_download_refuted, exact). Socket and file errors are not modelled."
  },
  {
   "property": "C119",
   "status": "partial",
   "theorems": [
    "C119_buffer",
    "C119_hello",
    "C119_offer",
    "C119_one_datagram",
    "C119_no_answer_refuted",
    "C119_crash_refuted",
    "C119_dispatch",
    "C119_no_accept_refuted",
    "C119_param_text",
    "C119_params_text",
    "C119_buffer_text",
    "C119_buffer_exact",
    "C119_texts",
    "C119_log"
   ],
   "note": "proved: the hello of every client arrives unchanged in 1200 bytes (C119_hello, C119_offer), exactly what either program does with its one datagram (C119_one_datagram), the dispatcher (C119_dispatch), the texts of parameters, lists and buffers determine them (C119_param_text, C119_params_text, C119_buffer_text). Refuted: the server answers nothing, so the client never ends (C119_no_answer_refuted); a datagram starting with a byte from 64 to 127 ends the server with an error (C119_crash_refuted); a server of the library panics on every new connection (C119_no_accept_refuted)"
  },
  {
   "property": "C120",
   "status": "partial",
   "theorems": [
    "C120_start",
    "C120_met",
    "C120_wrong_torrent_refuted",
    "C120_sends",
    "C120_not_called",
    "C120_success",
    "C120_hang_refuted",
    "C120_blocks_refuted"
   ],
   "note": "proved: exactly when and how the transfer starts (C120_start), a peer that speaks the protocol is always met (C120_met), what is sent is always a beginning of the fixed text (C120_sends), nothing is sent and the program fails when it does not connect (C120_not_called), success means the connection was given up (C120_success). Refuted: a peer with another torrent is accepted (C120_wrong_torrent_refuted), blocks received change nothing, so nothing is ever downloaded (C120_blocks_refuted), the program can hang after the peer closed (C120_hang_refuted)"
  },
  {
   "property": "C121",
   "status": "partial",
   "theorems": [
    "C121_threads",
    "C121_threads_end",
    "C121_threads_all",
    "C121_join",
    "C121_join_five",
    "C121_select",
    "C121_received",
    "C121_select_moves",
    "C121_priority",
    "C121_starvation_refuted",
    "C121_udp",
    "C121_udp_forged_refuted",
    "C121_join_output",
    "C121_programs",
    "C121_got"
   ],
   "note": "proved: threads (C121_threads, C121_threads_end, C121_threads_all), manual_futures (C121_join, C121_join_five), select_test loses and repeats nothing and is never stuck (C121_select, C121_select_moves, C121_priority), udptest for texts without newlines (C121_udp). Refuted: the second socket of select_test can wait for ever (C121_starvation_refuted); a datagram with a newline can look like two (C121_udp_forged_refuted)"
  },
  {
   "property": "C122",
   "status": "partial",
   "theorems": [
    "C122_shows",
    "C122_names",
    "C122_comma_refuted",
    "C122_unknown_refuted",
    "C122_forged_refuted",
    "C122_generated"
   ],
   "note": "proved: the text determines everything but the names and what is shown as a length (C122_shows), simple names are determined (C122_names), the exact text for every generated certificate (C122_generated). Refuted: a comma in a value forges a part (C122_comma_refuted), unregistered types look alike (C122_unknown_refuted), a newline in a name forges lines (C122_forged_refuted)"
  },
  {
   "property": "C123",
   "status": "proved",
   "theorems": [
    "C123_texts",
    "C123_alert",
    "C123_handshake",
    "C123_content_type",
    "C123_names_distinct",
    "C123_binary_error",
    "C123_accessors",
    "C123_type_error",
    "C123_other_errors",
    "C123_error_texts",
    "C123_type_error_texts"
   ],
   "note": "texts of errors of the standard library and of boxed errors are parameters; derived Debug texts of TLSError are not modelled"
  },
  {
   "property": "C124",
   "status": "partial",
   "theorems": [
    "C124_low_bits",
    "C124_balanced",
    "C124_frequency",
    "C124_line",
    "C124_detrand",
    "C124_packet_text",
    "C124_make_initial",
    "C124_aes",
    "C124_dh_succeeds_refuted",
    "C124_length",
    "C124_tls_test",
    "C124_aes_text",
    "C124_constants"
   ],
   "note": "Refuted: the key agreement check of tls_test always ends with an error (C124_dh_succeeds_refuted). Everything else in the statement is proved. What open_in_place leaves behind the plaintext is a parameter of 16 bytes; standard error is not modelled"
  },
  {
   "property": "C125",
   "status": "partial",
   "theorems": [
    "C125_asleep_with_reason",
    "C125_honest_handshake_ends",
    "C125_operations",
    "C125_waiting_read_spins_refuted"
   ],
   "note": "Refuted: that a waiting task sleeps (C125_waiting_read_spins_refuted: poll_read wakes its own task whenever it waits). No lost wake-ups: C125_asleep_with_reason, C125_operations; the handshake ends: C125_honest_handshake_ends. Answers \"pending\" of the transport are given when nothing is ready; spurious ones are covered by the polls of C113"
  },
  {
   "property": "C126",
   "status": "proved",
   "theorems": [
    "C126_one_reading",
    "C126_exact"
   ],
   "note": "overflow is a panic as in a checked build; in a release build the lengths wrap instead"
  },
  {
   "property": "C127",
   "status": "partial",
   "theorems": [
    "C127_one_line",
    "C127_plain_determines",
    "C127_pretty_determines",
    "C127_line_count",
    "C127_kind",
    "C127_determines_refuted",
    "C127_names",
    "C127_extensions",
    "C127_messages"
   ],
   "note": "Proved: one line, kind, number of lines, and that the text determines the message. Refuted in part (C127_determines_refuted): the data of a server name of unknown type is left out, a backslash in a name is not escaped, and a list with one empty authority looks like an empty list. Debug of a string with replacement characters is a parameter that leaves UTF-8 alone."
  },
  {
   "property": "C128",
   "status": "partial",
   "theorems": [
    "C128_cid",
    "C128_prefix",
    "C128_message",
    "C128_node",
    "C128_fs_data",
    "C128_identify",
    "C128_one_line",
    "C128_contents_refuted",
    "C128_read_error",
    "C128_names",
    "C128_texts",
    "C128_errors"
   ],
   "note": "Proved for CIDs, prefixes, Bitswap messages, identify messages, and for nodes and UnixFS data up to the contents of data. Refuted for these contents (C128_contents_refuted): only their length is shown. Debug of a string is a parameter with stated laws; std_quote is an instance."
  },
  {
   "property": "C129",
   "status": "partial",
   "theorems": [
    "C129_same_results",
    "C129_exact",
    "C129_first_and_last",
    "C129_row_determines",
    "C129_data_size_refuted",
    "C129_forged_refuted",
    "C129_lines",
    "C129_failed_line"
   ],
   "note": "Proved: the exact text for every sequence of messages, and that printing changes nothing. Refuted: data.len() printed for a block is the size of the whole message (C129_data_size_refuted), and a peer can forge any line through the name of a directory entry (C129_forged_refuted)."
  },
  {
   "property": "C130",
   "status": "partial",
   "theorems": [
    "C130_log_is_what_happened",
    "C130_only_text",
    "C130_log_determines",
    "C130_log_and_wire",
    "C130_both_sides_agree_partial",
    "C130_opening_refuted",
    "C130_names"
   ],
   "note": "Proved: the log is what happened, determines it, and agrees with the wire. The two ends agree on all frames but the opening one (C130_both_sides_agree_partial, C130_opening_refuted)."
  },
  {
   "property": "C131",
   "status": "partial",
   "theorems": [
    "C131_same_reader",
    "C131_first_demand",
    "C131_one_line",
    "C131_parse_line_refuted"
   ],
   "note": "Proved: the reader with paths is the reader of TorrentModel.v, the message is the complaint about the first unmet demand (both directions), and it is one printable line. Refuted for errors of the parser (C131_parse_line_refuted): a file can have any text appear. The texts of the standard library for invalid UTF-8 are parameters."
  },
  {
   "property": "C132",
   "status": "partial",
   "theorems": [
    "C132_streams_are_pipes",
    "C132_accepts_in_order",
    "C132_everything_arrives",
    "C132_delivered_is_readable_refuted"
   ],
   "note": "Proved: pipes, order of accepting and completeness for two mplex ends over one TLS connection, under an honest network or any network that cannot forge, by showing that the answers of the TLS connection form a C115 session (C59, C61 for the connection). Refuted (C132_delivered_is_readable_refuted, with an honest network that has delivered everything): a reader may wait though its bytes have arrived. The connection is taken from its establishment on; the handshake is C113."
  },
  {
   "property": "C133",
   "status": "partial",
   "theorems": [
    "C133_only_text",
    "C133_explained",
    "C133_times",
    "C133_text_determines",
    "C133_output",
    "C133_latency_refuted",
    "C133_lines"
   ],
   "note": "Proved: printing changes nothing, every trace passes the check and its tally is the state, the order of times, and that the text determines the events. Refuted (C133_latency_refuted): the minimal latency does not show in the times of the trace."
  },
  {
   "property": "C134",
   "status": "partial",
   "theorems": [
    "C134_messages_in_order",
    "C134_all_messages",
    "C134_over_tls",
    "C134_empty_write_refuted"
   ],
   "note": "Proved from C42, C115 and C132: messages arrive in order and whole, over mplex alone and over mplex over TLS; all of them when nothing is left (C134_all_messages). Refuted (C134_empty_write_refuted): an empty write ends the stream for the reader although later messages are delivered."
  },
  {
   "property": "C135",
   "status": "proved",
   "theorems": [
    "C135_same_decision",
    "C135_blames_a_part",
    "C135_blamed_bytes",
    "C135_plain_meaning",
    "C135_reader_errors",
    "C135_text_determines"
   ],
   "note": "The texts of the standard library (invalid UTF-8) are parameters; the derived {:?} text of ParseError is not modelled."
  },
  {
   "property": "C136",
   "status": "proved",
   "theorems": [
    "C136_identify_is_the_peers",
    "C136_show_never_works",
    "C136_served_as_asked",
    "C136_identify_answered"
   ],
   "note": "The answering node is given by what it can have written (`said`), so nothing is assumed about what it heard; the asking node by its command run on what its stream gave it."
  },
  {
   "property": "C137",
   "status": "proved",
   "theorems": [
    "C137_why",
    "C137_one_of_two",
    "C137_sayings",
    "C137_cut",
    "C137_no_cure"
   ],
   "note": "Slices shorter than 2^63 bytes (as every Rust slice is); bytes behind the first item are not looked at."
  },
  {
   "property": "C138",
   "status": "proved",
   "theorems": [
    "C138_projection",
    "C138_log_is_what_happened",
    "C138_status",
    "C138_reader",
    "C138_finished",
    "C138_lines",
    "C138_error_texts",
    "C138_text_determines",
    "C138_opening",
    "C138_refusals"
   ],
   "note": "Printing is taken to succeed; the texts of I/O errors, of socket addresses and of lossy decoding are parameters. Texts determine logs when the texts of I/O errors contain no line end."
  },
  {
   "property": "C139",
   "status": "partial",
   "theorems": [
    "C139_proxy_runs",
    "C139_direction",
    "C139_totals",
    "C139_proxy_log",
    "C139_which_connection_refuted",
    "C139_server_runs",
    "C139_server_lines",
    "C139_sock_lines",
    "C139_modes",
    "C139_mode_read_back_refuted",
    "C139_iotest_runs",
    "C139_iotest_lines",
    "C139_lines",
    "C139_openings",
    "C139_text_determines"
   ],
   "note": "Everything is proved except that a line of the proxy tells which connection it is about (refuted: two runs with the same text) and that the text of a mode of sock.rs can be read back (refuted for every mode). Texts of I/O errors and addresses are arbitrary; for reading the text back they are taken to have no line end."
  },
  {
   "property": "C140",
   "status": "partial",
   "theorems": [
    "C140_same_results",
    "C140_requests",
    "C140_one_line_per_request",
    "C140_request_line_tells",
    "C140_served",
    "C140_accept",
    "C140_identify_lines",
    "C140_show_lines",
    "C140_test_line",
    "C140_milestones",
    "C140_dial_exact",
    "C140_quinn_is_show",
    "C140_quinn_no_connection",
    "C140_quinn_lines",
    "C140_quinn_asks",
    "C140_quinn_own_node_refuted",
    "C140_any_server_refuted"
   ],
   "note": "Everything is proved except that the program over QUIC checks the certificate of the server (refuted for every certificate) and works with this library's own node (refuted). The text of bitswap itself is that of C129. Printing is taken to succeed; the texts of I/O errors and lossy decoding are parameters."
  },
  {
   "property": "C141",
   "status": "partial",
   "theorems": [
    "C141_equal_iff_clones",
    "C141_memory",
    "C141_never_stuck",
    "C141_order",
    "C141_text",
    "C141_for_ever_refuted",
    "C141_creation_order_refuted"
   ],
   "note": "Everything about identities that are held is proved; refuted are that an address means one identity for ever (reuse after the last drop) and that the order is the order of making. The abort of the library at 2^63 clones is not modelled."
  },
  {
   "property": "C142",
   "status": "partial",
   "theorems": [
    "C142_same_handshake",
    "C142_same_reads",
    "C142_for_ever",
    "C142_names_the_message",
    "C142_names_instead_of_hello",
    "C142_alerts_are_named",
    "C142_always_named",
    "C142_text",
    "C142_text_determines",
    "C142_io_text_partial",
    "C142_io_text_refuted",
    "C142_alert_told_refuted",
    "C142_stage_text"
   ],
   "note": "Unexpected messages are named, texts determine errors, the full machine erases to that of C58-C60. Refuted parts: as io::Error an early end is the same for TLS and transport; during the handshake the level and the code of an unknown alert are not told. The reason of ring for a rejected key and the texts of io error kinds are parameters."
  },
  {
   "property": "C143",
   "status": "partial",
   "theorems": [
    "C143_registered_exactly",
    "C143_tables_are_handles_partial",
    "C143_given_up_stays_refuted",
    "C143_head_of_line",
    "C143_given_up_stops_all_refuted",
    "C143_without_entry_no_bytes",
    "C143_opened_twice_refuted",
    "C143_drops_are_silent",
    "C143_numbers_once"
   ],
   "note": "The agreement of tables and handles is proved for programs that neither give up openings nor see them fail, and for peers that do not reopen live numbers; without this it is refuted (three theorems). The use of the sending half is one step that sets the bytes to send."
  },
  {
   "property": "C144",
   "status": "partial",
   "theorems": [
    "C144_less_than_announced",
    "C144_announced_is_held_refuted",
    "C144_endless_header_refuted",
    "C144_handshake_bound",
    "C144_connection_refuted"
   ],
   "note": "The bounds of the handshake and of a waiting frame reader are proved; that there are bounds for announced frames, endless headers and established connections is refuted, for every size. The peer wire messages (lengths up to 2^32) and length-prefixed messages are not part of it."
  },
  {
   "property": "C145",
   "status": "partial",
   "theorems": [
    "C145_lines",
    "C145_same_run",
    "C145_log",
    "C145_last_line",
    "C145_closed_early_refuted",
    "C145_requests_add_up",
    "C145_blocks_kept",
    "C145_text_tells",
    "C145_contents_refuted",
    "C145_opening"
   ],
   "note": "Proved: same run as do_peer, lines per message and per ending, request counts, blocks kept or reported, exact texts, reading back. Refuted as stated: the contents of blocks and bit fields are not in the log, and 'finished without error' is printed for a peer that closed before its handshake was complete."
  },
  {
   "property": "C146",
   "status": "proved",
   "theorems": [
    "C146_exact",
    "C146_one_reading",
    "C146_crash_exact",
    "C146_no_error_exact",
    "C146_effects",
    "C146_effects_determined"
   ],
   "note": "Exact (if and only if) description of every session by an inductive grammar of the stream, and of its effects by a relation per message; both are functional, so nothing else can happen. Closes the gap between C74_only_these_crash_partial and its refutation. Sending is taken to succeed, as in C35-C37."
  },
  {
   "property": "C147",
   "status": "proved",
   "theorems": [
    "C147_crash_exact",
    "C147_message_exact",
    "C147_unknown_message"
   ],
   "note": "QuicCrashProps.v turns C82_only_these_partial into an equivalence: the header of an initial packet is given by its own grammar (head_bytes/head_ok) and the size of the protected packet number by two low bits; the messages are covered by C147_message_exact for the first message of the crypto data."
  },
  {
   "property": "C148",
   "status": "proved",
   "theorems": [
    "C148_message_exact",
    "C148_plaintext_exact",
    "C148_protected_exact",
    "C148_flight_exact",
    "C148_reading_exact",
    "C148_certificate_check",
    "C148_finished_exact",
    "C148_hello_never"
   ],
   "note": "TlsCrashProps.v: equivalences for the plaintext reader, the protected reader, the flight of server messages, conn_read on an open connection and application_secrets. Assumed of the AEAD only that it gives bytes, not more than the ciphertext has. Sending (certificate and Finished of the client) is not part of this claim."
  },
  {
   "property": "C149",
   "status": "proved",
   "theorems": [
    "C149_step_exact",
    "C149_states",
    "C149_poll_exact",
    "C149_run_exact",
    "C149_start"
   ],
   "note": "Both directions, for every state that a connection attempt can reach (state_ok holds at the start and is kept by every step and poll) and every sequence of polls. The primitives are parameters: proper sizes, opened data are bytes, and the signing library returns."
  },
  {
   "property": "C150",
   "status": "proved",
   "theorems": [
    "C150_one_frame",
    "C150_exact",
    "C150_length",
    "C150_order_matters_refuted"
   ],
   "note": "The equivalence is for frames that leave no gap on arrival; C150_one_frame holds after any frames. That the order of arrival does not matter is refuted by a witness. Offsets are mathematical integers: the sum of an offset and a length is not cut to 64 bits."
  },
  {
   "property": "C151",
   "status": "proved",
   "theorems": [
    "C151_step_exact",
    "C151_run_exact",
    "C151_only_reads",
    "C151_established"
   ],
   "note": "Both directions, for every connection with a proper server key and a number below 2^64 (kept by every call; C151_established: true of every connection that handshake_run yields). A transport that for ever takes zero bytes makes poll_flush loop; in the model its answers run out."
  }
 ]
}
