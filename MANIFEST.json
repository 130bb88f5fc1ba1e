{
 "claims": [
  {
   "property": "C01",
   "status": "proved",
   "theorems": [
    "C01_serialize_appends_wire",
    "C01_serialize_success_is_wire"
   ],
   "note": ""
  },
  {
   "property": "C02",
   "status": "proved",
   "theorems": [
    "C02_size_hint_exact",
    "C02_size_hint_is_wire_length"
   ],
   "note": ""
  },
  {
   "property": "C03",
   "status": "proved",
   "theorems": [
    "C03_serialize_len_exact",
    "C03_unencodable_is_refused"
   ],
   "note": ""
  },
  {
   "property": "C04",
   "status": "proved",
   "theorems": [
    "C04_panics_iff_no_room"
   ],
   "note": "The documented error does not exist: the model, like bytes::BufMut, panics."
  },
  {
   "property": "C05",
   "status": "proved",
   "theorems": [
    "C05_round_trip",
    "C05_serialize_then_deserialize"
   ],
   "note": ""
  },
  {
   "property": "C06",
   "status": "proved",
   "theorems": [
    "C06_round_trip_framed",
    "C06_round_trip_len"
   ],
   "note": ""
  },
  {
   "property": "C07",
   "status": "proved",
   "theorems": [
    "C07_unsigned",
    "C07_float",
    "C07_signed",
    "C07_insufficient"
   ],
   "note": ""
  },
  {
   "property": "C08",
   "status": "proved",
   "theorems": [
    "C08_decode_never_panics",
    "C08_decoded_values_in_range"
   ],
   "note": ""
  },
  {
   "property": "C09",
   "status": "proved",
   "theorems": [
    "C09_strict_reencode",
    "C09_strict_injective",
    "C09_bool_refuted",
    "C09_array_refuted",
    "C09_len_refuted",
    "C09_string_refuted"
   ],
   "note": "Includes the counterexamples for bool, strings, fixed arrays and length-prefixed fields."
  },
  {
   "property": "C10",
   "status": "proved",
   "theorems": [
    "C10_fixed_size_decodes",
    "C10_fixed_size_short"
   ],
   "note": ""
  },
  {
   "property": "C11",
   "status": "proved",
   "theorems": [
    "C11_bool_lsb",
    "C11_bool_wire"
   ],
   "note": ""
  },
  {
   "property": "C12",
   "status": "proved",
   "theorems": [
    "C12_array_never_fails",
    "C12_array_default_fill",
    "C12_array_goes_on"
   ],
   "note": ""
  },
  {
   "property": "C13",
   "status": "proved",
   "theorems": [
    "C13_terminating_never_hangs",
    "C13_vec_hangs_iff",
    "C13_vec_fuel_irrelevant",
    "C13_vec_of_empty_arrays_refuted",
    "C13_vec_of_wide_arrays_refuted",
    "C13_vec_of_string_arrays_refuted"
   ],
   "note": "Includes the non-termination findings, for every number of iterations."
  },
  {
   "property": "C14",
   "status": "proved",
   "theorems": [
    "C14_len_confined",
    "C14_len_not_enforced",
    "C14_len_short_field"
   ],
   "note": ""
  },
  {
   "property": "C15",
   "status": "proved",
   "theorems": [
    "C15_utf8_written",
    "C15_utf8_round_trip",
    "C15_utf8_framed_round_trip",
    "C15_utf8_truncated_at_nul"
   ],
   "note": ""
  },
  {
   "property": "C16",
   "status": "proved",
   "theorems": [
    "C16_utf16_written",
    "C16_utf16_be_round_trip",
    "C16_utf16_le_round_trip",
    "C16_utf16_be_truncated_at_nul",
    "C16_utf16_le_truncated_at_nul",
    "C16_big_endian_host_refuted",
    "C16_big_endian_host_accepts_iff"
   ],
   "note": ""
  },
  {
   "property": "C17",
   "status": "proved",
   "theorems": [
    "C17_accepts_iff",
    "C17_always_returns",
    "C17_wrong_mark",
    "C17_no_mark",
    "C17_wrong_utf8_mark",
    "C17_utf8_unterminated",
    "C17_utf16_unterminated",
    "C17_utf8_ill_formed",
    "C17_utf16_le_unterminated",
    "C17_utf16_be_ill_formed",
    "C17_utf16_le_ill_formed",
    "C17_vec_of_strings"
   ],
   "note": ""
  },
  {
   "property": "C18",
   "status": "proved",
   "theorems": [
    "C18_message_id_value",
    "C18_message_id_inverse",
    "C18_message_id_wire",
    "C18_request_id_value",
    "C18_request_id_inverse",
    "C18_request_id_wire",
    "C18_builders",
    "C18_order"
   ],
   "note": ""
  },
  {
   "property": "C19",
   "status": "proved",
   "theorems": [
    "C19_increment",
    "C19_sequence",
    "C19_from_enabled",
    "C19_no_repeat",
    "C19_disabled_is_zero_only"
   ],
   "note": ""
  },
  {
   "property": "C20",
   "status": "proved",
   "theorems": [
    "C20_with_prefix",
    "C20_prefix_is_high_byte",
    "C20_prefix_set_iff",
    "C20_every_prefix_iff_none_before"
   ],
   "note": ""
  },
  {
   "property": "C21",
   "status": "proved",
   "theorems": [
    "C21_message_type_of_byte",
    "C21_message_type_injective",
    "C21_message_type_back_iff",
    "C21_return_code_of_byte",
    "C21_return_code_injective",
    "C21_return_code_back_iff",
    "C21_wire"
   ],
   "note": ""
  },
  {
   "property": "C22",
   "status": "proved",
   "theorems": [
    "C22_flag_leaves_type",
    "C22_is_tp_is_bit",
    "C22_type_ignores_flag",
    "C22_from_type_iff",
    "C22_other_flags_change_type"
   ],
   "note": ""
  },
  {
   "property": "C23",
   "status": "proved",
   "theorems": [
    "C23_layout",
    "C23_too_long",
    "C23_unencodable_body",
    "C23_to_bytes",
    "C23_to_bytes_fails"
   ],
   "note": ""
  },
  {
   "property": "C24",
   "status": "proved",
   "theorems": [
    "C24_round_trip",
    "C24_bytes",
    "C24_noncanonical_code",
    "C24_generic_header"
   ],
   "note": ""
  },
  {
   "property": "C25",
   "status": "proved",
   "theorems": [
    "C25_packet",
    "C25_short_tail",
    "C25_bad_message"
   ],
   "note": ""
  },
  {
   "property": "C26",
   "status": "proved",
   "theorems": [
    "C26_any_input",
    "C26_truncated_accepted",
    "C26_total"
   ],
   "note": ""
  },
  {
   "property": "C27",
   "status": "proved",
   "theorems": [
    "C27_new",
    "C27_builders",
    "C27_type_builder",
    "C27_header_builders",
    "C27_maps"
   ],
   "note": ""
  },
  {
   "property": "C28",
   "status": "proved",
   "theorems": [
    "C28_answers"
   ],
   "note": ""
  },
  {
   "property": "C29",
   "status": "proved",
   "theorems": [
    "C29_terminates",
    "C29_reassembly",
    "C29_on_wire",
    "C29_end_to_end",
    "C29_segment_messages",
    "C29_into_segment_total"
   ],
   "note": ""
  },
  {
   "property": "C30",
   "status": "proved",
   "theorems": [
    "C30_split",
    "C30_small_limit",
    "C30_pieces",
    "C30_resplit_drops_flag"
   ],
   "note": ""
  },
  {
   "property": "C31",
   "status": "proved",
   "theorems": [
    "C31_join",
    "C31_unaligned_accepted"
   ],
   "note": ""
  },
  {
   "property": "C32",
   "status": "proved",
   "theorems": [
    "C32_unreliable_delivery",
    "C32_wrong_start_refuted"
   ],
   "note": ""
  },
  {
   "property": "C33",
   "status": "proved",
   "theorems": [
    "C33_wire_form",
    "C33_saturates",
    "C33_wraps_on_32_bit",
    "C33_too_large",
    "C33_any_input"
   ],
   "note": ""
  },
  {
   "property": "C34",
   "status": "proved",
   "theorems": [
    "C34_check",
    "C34_builders",
    "C34_new"
   ],
   "note": ""
  },
  {
   "property": "C35",
   "status": "proved",
   "theorems": [
    "C35_poll_ok",
    "C35_poll_rejects",
    "C35_poll_other",
    "C35_poll_total"
   ],
   "note": ""
  },
  {
   "property": "C36",
   "status": "proved",
   "theorems": [
    "C36_process_writes",
    "C36_process_only",
    "C36_process_rejected",
    "C36_process_rejects_how",
    "C36_process_too_long"
   ],
   "note": ""
  },
  {
   "property": "C37",
   "status": "proved",
   "theorems": [
    "C37_both_ends",
    "C37_nothing_else"
   ],
   "note": ""
  },
  {
   "property": "C38",
   "status": "proved",
   "theorems": [
    "C38_requests_only",
    "C38_wrong_type"
   ],
   "note": ""
  },
  {
   "property": "C39",
   "status": "proved",
   "theorems": [
    "C39_endpoint_history",
    "C39_interface_history"
   ],
   "note": ""
  },
  {
   "property": "C40",
   "status": "proved",
   "theorems": [
    "C40_types",
    "C40_codes",
    "C40_same_bytes",
    "C40_same_decoding",
    "C40_exists_in_runtime",
    "C40_exists_in_proto"
   ],
   "note": ""
  },
  {
   "property": "C41",
   "status": "proved",
   "theorems": [
    "C41_only_from_peer",
    "C41_at_most_once",
    "C41_connections_distinct",
    "C41_nothing_lost",
    "C41_nothing_lost_accepted"
   ],
   "note": ""
  },
  {
   "property": "C42",
   "status": "proved",
   "theorems": [
    "C42_new_peer",
    "C42_nobody_listens",
    "C42_known_peer",
    "C42_backlog",
    "C42_first_datagram",
    "C42_not_yet_there_refuted"
   ],
   "note": ""
  },
  {
   "property": "C43",
   "status": "proved",
   "theorems": [
    "C43_second_connect",
    "C43_told_within_ten",
    "C43_closed_is_final",
    "C43_race_overwritten",
    "C43_race_removed"
   ],
   "note": ""
  },
  {
   "property": "C44",
   "status": "proved",
   "theorems": [
    "C44_lossy_queue"
   ],
   "note": ""
  },
  {
   "property": "C45",
   "status": "proved",
   "theorems": [
    "C45_send_complete",
    "C45_send_incomplete",
    "C45_sends_in_order",
    "C45_send_succeeds",
    "C45_zero_writes_spin",
    "C45_spurious_wakeup",
    "C45_recv_in_order",
    "C45_recv_piece",
    "C45_recv_what_there_is",
    "C45_end_of_stream",
    "C45_never_closed",
    "C45_closed_is_final_refuted",
    "C45_both_ends"
   ],
   "note": ""
  },
  {
   "property": "C46",
   "status": "proved",
   "theorems": [
    "C46_stub_routing",
    "C46_proxy_routing",
    "C46_receiver_created"
   ],
   "note": ""
  },
  {
   "property": "C47",
   "status": "proved",
   "theorems": [
    "C47_in_order",
    "C47_at_most_once",
    "C47_backlog_bounded",
    "C47_nothing_lost_stub",
    "C47_nothing_lost_proxy"
   ],
   "note": ""
  },
  {
   "property": "C48",
   "status": "proved",
   "theorems": [
    "C48_call_refused",
    "C48_check_refuses",
    "C48_still_refused_stub",
    "C48_still_refused_proxy",
    "C48_freed",
    "C48_one_user"
   ],
   "note": ""
  },
  {
   "property": "C49",
   "status": "proved",
   "theorems": [
    "C49_packet_read",
    "C49_packet_all",
    "C49_packet_spoiled",
    "C49_spoiled_packet",
    "C49_malformed_dropped",
    "C49_good_packet"
   ],
   "note": ""
  },
  {
   "property": "C50",
   "status": "proved",
   "theorems": [
    "C50_after_refusal",
    "C50_send_not_connected",
    "C50_proxy_closed",
    "C50_stub_closed",
    "C50_udp_limit",
    "C50_encode_form",
    "C50_encode_too_long"
   ],
   "note": ""
  },
  {
   "property": "C51",
   "status": "proved",
   "theorems": [
    "C51_answers_pass"
   ],
   "note": ""
  },
  {
   "property": "C52",
   "status": "proved",
   "theorems": [
    "C52_error_answer"
   ],
   "note": ""
  },
  {
   "property": "C53",
   "status": "proved",
   "theorems": [
    "C53_round_trip",
    "C53_too_long",
    "C53_ids",
    "C53_builders",
    "C53_new"
   ],
   "note": ""
  },
  {
   "property": "C54",
   "status": "proved",
   "theorems": [
    "C54_task_returns"
   ],
   "note": ""
  },
  {
   "property": "C55",
   "status": "proved",
   "theorems": [
    "C55_no_more_packets",
    "C55_silent"
   ],
   "note": ""
  },
  {
   "property": "C56",
   "status": "proved",
   "theorems": [
    "C56_any_boundaries"
   ],
   "note": ""
  },
  {
   "property": "C57",
   "status": "proved",
   "theorems": [
    "C57_fifo_sends",
    "C57_why_ended"
   ],
   "note": ""
  },
  {
   "property": "C58",
   "status": "proved",
   "theorems": [
    "C58_stub_sends",
    "C58_proxy_sends",
    "C58_only_sends",
    "C58_one_address"
   ],
   "note": ""
  },
  {
   "property": "C59",
   "status": "proved",
   "theorems": [
    "C59_head_of_line_stub",
    "C59_head_of_line_proxy",
    "C59_stalled_blocks",
    "C59_stalled_proxy_blocks"
   ],
   "note": ""
  },
  {
   "property": "C60",
   "status": "proved",
   "theorems": [
    "C60_deadlock",
    "C60_reachable"
   ],
   "note": ""
  },
  {
   "property": "C61",
   "status": "proved",
   "theorems": [
    "C61_no_busy_loop",
    "C61_comes_to_rest"
   ],
   "note": ""
  },
  {
   "property": "C62",
   "status": "proved",
   "theorems": [
    "C62_at_rest",
    "C62_delivered_stub",
    "C62_delivered_proxy",
    "C62_sent_all"
   ],
   "note": ""
  },
  {
   "property": "C63",
   "status": "proved",
   "theorems": [
    "C63_u16",
    "C63_u8",
    "C63_decimal",
    "C63_ids",
    "C63_header",
    "C63_message",
    "C63_runtime_message",
    "C63_interface_id",
    "C63_messages_told_apart",
    "C63_runtime_messages_told_apart",
    "C63_interface_ids_told_apart",
    "C63_types_told_apart",
    "C63_codes_told_apart",
    "C63_same_print"
   ],
   "note": ""
  },
  {
   "property": "C64",
   "status": "proved",
   "theorems": [
    "C64_shared_map",
    "C64_poisoning"
   ],
   "note": ""
  },
  {
   "property": "C65",
   "status": "proved",
   "theorems": [
    "C65_response",
    "C65_held"
   ],
   "note": ""
  },
  {
   "property": "C66",
   "status": "proved",
   "theorems": [
    "C66_sizes",
    "C66_round_trip",
    "C66_len_round_trip"
   ],
   "note": ""
  },
  {
   "property": "C67",
   "status": "proved",
   "theorems": [
    "C67_only_what_arrived",
    "C67_order_kept",
    "C67_only_what_was_accepted"
   ],
   "note": ""
  },
  {
   "property": "C68",
   "status": "proved",
   "theorems": [
    "C68_end_to_end",
    "C68_at_most_once",
    "C68_in_order",
    "C68_read_back"
   ],
   "note": ""
  },
  {
   "property": "C69",
   "status": "proved",
   "theorems": [
    "C69_stub_connected",
    "C69_stub_accepted",
    "C69_proxy",
    "C69_sent",
    "C69_between"
   ],
   "note": ""
  },
  {
   "property": "C70",
   "status": "proved",
   "theorems": [
    "C70_second_connection",
    "C70_cut_off_for_good",
    "C70_one_connection_each",
    "C70_proxies_apart",
    "C70_second_proxy",
    "C70_cut_off",
    "C70_cut_off_by_stub"
   ],
   "note": ""
  },
  {
   "property": "C71",
   "status": "proved",
   "theorems": [
    "C71_used_conn_ended",
    "C71_listener_ended"
   ],
   "note": ""
  },
  {
   "property": "C72",
   "status": "proved",
   "theorems": [
    "C72_nothing_left"
   ],
   "note": ""
  },
  {
   "property": "C73",
   "status": "proved",
   "theorems": [
    "C73_call_exists",
    "C73_stub_result",
    "C73_proxy_result",
    "C73_call_fails",
    "C73_serve_succeeds",
    "C73_serve_stuck",
    "C73_proxy_succeeds",
    "C73_proxy_stuck"
   ],
   "note": ""
  },
  {
   "property": "C74",
   "status": "proved",
   "theorems": [
    "C74_send_fails",
    "C74_send_reuses",
    "C74_send_opens",
    "C74_send_recovers"
   ],
   "note": ""
  },
  {
   "property": "C75",
   "status": "proved",
   "theorems": [
    "C75_reads",
    "C75_given",
    "C75_given_order",
    "C75_stub_gets",
    "C75_proxy_gets",
    "C75_written",
    "C75_written_all"
   ],
   "note": ""
  },
  {
   "property": "C76",
   "status": "proved",
   "theorems": [
    "C76_whole",
    "C76_end_to_end",
    "C76_all_got",
    "C76_any_cut",
    "C76_cut_message",
    "C76_cut_header",
    "C76_smuggled",
    "C76_small",
    "C76_only_what_was_sent_refuted"
   ],
   "note": ""
  },
  {
   "property": "C77",
   "status": "proved",
   "theorems": [
    "C77_spins",
    "C77_not_noticed"
   ],
   "note": ""
  },
  {
   "property": "C78",
   "status": "proved",
   "theorems": [
    "C78_opened",
    "C78_send_to"
   ],
   "note": ""
  },
  {
   "property": "C79",
   "status": "proved",
   "theorems": [
    "C79_cut_off_by_dropped",
    "C79_dropped",
    "C79_sent_by",
    "C79_way_out",
    "C79_left_behind",
    "C79_abandoned_calls"
   ],
   "note": ""
  },
  {
   "property": "C80",
   "status": "proved",
   "theorems": [
    "C80_requests",
    "C80_answers",
    "C80_exchange"
   ],
   "note": ""
  },
  {
   "property": "C81",
   "status": "proved",
   "theorems": [
    "C81_service",
    "C81_client",
    "C81_requests",
    "C81_goes_on",
    "C81_in_order",
    "C81_stale"
   ],
   "note": ""
  },
  {
   "property": "C82",
   "status": "proved",
   "theorems": [
    "C82_stops",
    "C82_stopped",
    "C82_comes_to_rest"
   ],
   "note": ""
  },
  {
   "property": "C83",
   "status": "proved",
   "theorems": [
    "C83_serialize_text",
    "C83_deserialize_text",
    "C83_segment_text",
    "C83_endpoint_text",
    "C83_read",
    "C83_polled",
    "C83_serialize_told_apart",
    "C83_deserialize_told_apart",
    "C83_check_told_apart",
    "C83_segment_told_apart",
    "C83_endpoint_told_apart"
   ],
   "note": ""
  },
  {
   "property": "C84",
   "status": "proved",
   "theorems": [
    "C84_stops",
    "C84_stopped",
    "C84_comes_to_rest",
    "C84_answers",
    "C84_exchange"
   ],
   "note": ""
  },
  {
   "property": "C85",
   "status": "proved",
   "theorems": [
    "C85_two_ends",
    "C85_every_end",
    "C85_stream",
    "C85_closed",
    "C85_authentic",
    "C85_in_order"
   ],
   "note": ""
  },
  {
   "property": "C86",
   "status": "proved",
   "theorems": [
    "C86_stops",
    "C86_stopped",
    "C86_comes_to_rest",
    "C86_all_got",
    "C86_exchange",
    "C86_closing_refuted"
   ],
   "note": ""
  },
  {
   "property": "C87",
   "status": "proved",
   "theorems": [
    "C87_endpoint",
    "C87_udp",
    "C87_tcp",
    "C87_tcp_net",
    "C87_delivered",
    "C87_idle_stays",
    "C87_udp_still",
    "C87_tcp_still",
    "C87_net_still",
    "C87_endpoint_runs",
    "C87_udp_runs",
    "C87_tcp_runs",
    "C87_net_runs",
    "C87_left_undone_refuted"
   ],
   "note": ""
  },
  {
   "property": "C88",
   "status": "proved",
   "theorems": [
    "C88_upgrade",
    "C88_same",
    "C88_dropped",
    "C88_for_good",
    "C88_dropped_refuted"
   ],
   "note": ""
  },
  {
   "property": "C89",
   "status": "proved",
   "theorems": [
    "C89_invents_nothing",
    "C89_every_network",
    "C89_accounts",
    "C89_brought",
    "C89_stops",
    "C89_stopped",
    "C89_comes_to_rest",
    "C89_fair",
    "C89_runs",
    "C89_requests",
    "C89_exchange"
   ],
   "note": ""
  },
  {
   "property": "C90",
   "status": "proved",
   "theorems": [
    "C90_refines",
    "C90_order",
    "C90_bypass",
    "C90_life",
    "C90_executed",
    "C90_never_refused",
    "C90_stub_owned",
    "C90_proxy_owned"
   ],
   "note": ""
  },
  {
   "property": "C91",
   "status": "proved",
   "theorems": [
    "C91_answered",
    "C91_all_finished",
    "C91_comes_to_rest",
    "C91_bound",
    "C91_rest",
    "C91_fair",
    "C91_fair_exists"
   ],
   "note": ""
  },
  {
   "property": "C92",
   "status": "proved",
   "theorems": [
    "C92_halves",
    "C92_stops",
    "C92_stopped",
    "C92_still",
    "C92_comes_to_rest",
    "C92_answered",
    "C92_fair",
    "C92_fair_exists",
    "C92_socket_last"
   ],
   "note": ""
  },
  {
   "property": "C93",
   "status": "proved",
   "theorems": [
    "C93_halves",
    "C93_stops",
    "C93_stopped",
    "C93_still",
    "C93_comes_to_rest",
    "C93_answered",
    "C93_fair",
    "C93_fair_exists"
   ],
   "note": ""
  },
  {
   "property": "C94",
   "status": "proved",
   "theorems": [
    "C94_accept",
    "C94_line",
    "C94_end_is_final",
    "C94_dropped_line",
    "C94_drop_keeps_the_rest"
   ],
   "note": ""
  },
  {
   "property": "C95",
   "status": "proved",
   "theorems": [
    "C95_endpoints",
    "C95_network",
    "C95_same_events",
    "C95_stops",
    "C95_stopped",
    "C95_still",
    "C95_comes_to_rest",
    "C95_answered",
    "C95_fair",
    "C95_fair_exists",
    "C95_requests",
    "C95_exchange"
   ],
   "note": "The network is not code of the repository: it brings, loses and copies datagrams in any way. Handles and futures may be dropped at finitely many endpoints during a fair run."
  },
  {
   "property": "C96",
   "status": "proved",
   "theorems": [
    "C96_endpoints",
    "C96_network",
    "C96_same_events",
    "C96_stops",
    "C96_stopped",
    "C96_still",
    "C96_comes_to_rest",
    "C96_answered",
    "C96_rest",
    "C96_fair",
    "C96_fair_exists",
    "C96_requests",
    "C96_exchange"
   ],
   "note": "The network is not code of the repository: it brings bytes in pieces of any size, and the end of a stream after them. Handles and futures may be dropped, and streams fail, at finitely many endpoints during a fair run."
  },
  {
   "property": "C97",
   "status": "proved",
   "theorems": [
    "C97_returns",
    "C97_sends",
    "C97_room",
    "C97_written",
    "C97_routed"
   ],
   "note": "C97_returns is about calls, C97_sends about sends of stubs, C97_room about room in a connection, C97_written about what was accepted for it, C97_routed about what arrived at it. Fairness is stated without classical axioms: at any time each actor goes on at some later time, or from some later time on it never can. It covers tokio's scheduler, the locks and the channels; sockets may fail at any time but a write that was begun ends. left_unread is the exception in the statement."
  },
  {
   "property": "C98",
   "status": "proved",
   "theorems": [
    "C98_seen",
    "C98_returns",
    "C98_sends",
    "C98_written",
    "C98_read",
    "C98_routed"
   ],
   "note": "C98_seen says that the calls and tasks of such a run make a run of C97, so C97_room holds of it too; C98_returns, C98_sends and C98_routed follow from C97. C98_written is about the bytes handed to the stream, C98_read about the bytes taken from it. Fairness is stated without classical axioms, as in C97. The streams are not code of the repository: that each takes or gives some bytes again and again, or fails, is part of the fairness."
  },
  {
   "property": "C99",
   "status": "proved",
   "theorems": [
    "C99_endpoints",
    "C99_returns",
    "C99_arrives",
    "C99_read",
    "C99_requests",
    "C99_replies",
    "C99_requests_received",
    "C99_replies_received"
   ],
   "note": "C99_endpoints says that each endpoint of such a run is one of C98, so all of C98 holds of it. C99_arrives is about the streams, C99_read about bytes, C99_requests and C99_replies about messages for stubs and proxies: they are given in order, from a time at which the stub or proxy was there and nothing had been read from the connection. That every read stops where a message stops (never_cut) is a hypothesis because C76 shows that messages are damaged otherwise. C99_requests_received and C99_replies_received add that what was put into the queue is received by a program that goes on receiving (stub_emptied, proxy_emptied in LoadNetSpec.v; for a proxy only what came over that connection is counted). The network is not code of the repository: that bytes which can arrive again and again do arrive is part of the fairness."
  },
  {
   "property": "C100",
   "status": "proved",
   "theorems": [
    "C100_seen",
    "C100_returns",
    "C100_sends",
    "C100_handed",
    "C100_read",
    "C100_routed"
   ],
   "note": "C100_seen says that what happens to the calls in such a run is a run of C97. C100_handed is about the datagrams the system took, for all connections together: the messages accepted for one connection are among them, in order. A wait for the lock which connect and listen share with the task of the socket is inside a step nobody can give up, so somebody who waits for it counts as being able to go on (LoadUdpSpec.v). C100_read has the further hypothesis that connections which can take something from the socket again and again do (reads_go). It starts from the channel of a connection: what the task of the socket puts there, and what a slow receiver loses and is told of, is C44 and C69."
  }
 ]
}