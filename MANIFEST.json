{
 "claims": [
  {
   "property": "C01",
   "status": "proved",
   "theorems": [
    "mod_new_exact",
    "mod_add_spec",
    "mod_sub_spec",
    "reaches_unique",
    "mod_add_sub_inverse",
    "mod_signed_distance",
    "mod_mul_spec",
    "mod_lshift_spec",
    "mod_pow_spec",
    "mod_divide_spec"
   ],
   "note": "all moduli, all operands"
  },
  {
   "property": "C02",
   "status": "proved",
   "theorems": [
    "mod_lt_spec",
    "mod_gt_spec",
    "mod_le_spec",
    "mod_trichotomy",
    "mod_lt_shift",
    "mod_lt_unwrapped"
   ],
   "note": "all even moduli; antipodal values incomparable"
  },
  {
   "property": "C03",
   "status": "proved",
   "theorems": [
    "timer_expires_on_its_tick",
    "timer_expires_in_time",
    "timer_islinked_spec",
    "timer_start_spec",
    "timer_negative_refuted"
   ],
   "note": "every interleaving of the node and timer threads; timeouts not negative (negative ones are accepted by the code and expire late: timer_negative_refuted)"
  },
  {
   "property": "C04",
   "status": "proved",
   "theorems": [
    "timeout_not_stale",
    "timeout_delivered"
   ],
   "note": "every interleaving"
  },
  {
   "property": "C05",
   "status": "proved",
   "theorems": [
    "wheel_integrity",
    "timers_fifo",
    "timer_start_spec"
   ],
   "note": "pointer level model of Cque"
  },
  {
   "property": "C06",
   "status": "proved",
   "theorems": [
    "packet_round_trip",
    "packet_of_bytes",
    "packet_round_trip_refuted"
   ],
   "note": "All layouts over B, SIGNED, CTR, I, A, EX, BV, PAYLOAD, LIST, BM, RES, TLV and nested packets. packet_round_trip_refuted shows the well-formedness hypotheses are needed."
  },
  {
   "property": "C07",
   "status": "proved",
   "theorems": [
    "packet_decode_safe",
    "packet_decode_safe_refuted",
    "tlv_unknown"
   ],
   "note": "Holds for every layout whose uncounted lists have non-empty elements and whose EX fields allow a byte; both conditions shown necessary."
  },
  {
   "property": "C08",
   "status": "proved",
   "theorems": [
    "ex_encoding",
    "ex_decoding",
    "ex_prefix_code",
    "ex_negative_refuted"
   ],
   "note": "Encoding, decoding of arbitrary bytes, prefix property; negative integers loop forever."
  },
  {
   "property": "C09",
   "status": "proved",
   "theorems": [
    "ctr_saturates",
    "nice_round_trip"
   ],
   "note": "Packet CTR for widths 0..8; NICE CTR1/2/4 and CTM1/2/4."
  },
  {
   "property": "C10",
   "status": "proved",
   "theorems": [
    "crc_class_ok",
    "crc_is_division",
    "crc_remainder_unique",
    "crc_coeffs_exist",
    "crc_update_app",
    "crc_update_bits",
    "crc_update_bits_refuted",
    "crc_bytes_refuted"
   ],
   "note": "All polynomials, widths, bit orders. Refuted parts: update_bits on a longer buffer with a whole byte count, and __bytes__ for forward CRCs whose width is not a multiple of 8."
  },
  {
   "property": "C11",
   "status": "proved",
   "theorems": [
    "crc_accepts",
    "crc_burst",
    "ddcmp_crc_burst",
    "ddcmp_crc_odd",
    "ddcmp_crc_double"
   ],
   "note": "Burst errors up to 16 bits, odd numbers of bit errors, and double bit errors up to 32766 bits apart."
  },
  {
   "property": "C12",
   "status": "proved",
   "theorems": [
    "bridge_forwarding",
    "bridge_multicast_refuted"
   ],
   "note": "Multicast is not special-cased: it is flooded as long as the group address was not heard as a source (refutation shows the exception)."
  },
  {
   "property": "C13",
   "status": "proved",
   "theorems": [
    "bridge_learning",
    "bridge_keeps"
   ],
   "note": ""
  },
  {
   "property": "C14",
   "status": "proved",
   "theorems": [
    "nodeid_string",
    "nodeid_print_parse",
    "nodeid_print_inj",
    "nodeid_valid",
    "nodeid_parts",
    "nodeid_bytes",
    "nodeid_mac",
    "nicenode_round_trip",
    "mac_print_parse",
    "nodeid_negative_refuted",
    "nodeid_area_refuted",
    "nodeid_area0_refuted",
    "nicenode_long_refuted",
    "mac_nodeid_string_refuted",
    "mac_case"
   ],
   "note": "nodeid_string is the exact accepted set, which is wider than documented: area 0 with a dot, a trailing newline and bare numbers up to 65535 are accepted."
  },
  {
   "property": "C15",
   "status": "proved",
   "theorems": [
    "backoff_values",
    "backoff_one_arg"
   ],
   "note": ""
  },
  {
   "property": "C16",
   "status": "proved",
   "theorems": [
    "ddcmp_delivery",
    "ddcmp_acked",
    "ddcmp_no_crash",
    "ddcmp_restart_refuted"
   ],
   "note": "Two stations over lossy FIFO channels, one start-up; ddcmp_restart_refuted shows the claim fails across a restart with a stale STACK in flight."
  },
  {
   "property": "C17",
   "status": "proved",
   "theorems": [
    "ddcmp_window",
    "ddcmp_bad_ack",
    "ddcmp_good_ack",
    "ddcmp_nak_retransmits",
    "ddcmp_reports",
    "ddcmp_lost_silent"
   ],
   "note": ""
  },
  {
   "property": "C18",
   "status": "proved",
   "theorems": [
    "ddcmp_telnet_transparent",
    "ddcmp_telnet_receive",
    "ddcmp_telnet_line"
   ],
   "note": ""
  },
  {
   "property": "C19",
   "status": "proved",
   "theorems": [
    "ddcmp_only_good",
    "ddcmp_header_search",
    "ddcmp_resync",
    "ddcmp_receive_exact",
    "ddcmp_serial_line",
    "ddcmp_tcp_receive",
    "ddcmp_udp_receive",
    "ddcmp_udp_only_good",
    "ddcmp_frame_sent",
    "ddcmp_udp_fill_refuted",
    "ddcmp_udp_errors"
   ],
   "note": "Serial, TCP, Telnet and UDP receivers."
  },
  {
   "property": "C20",
   "status": "proved",
   "theorems": [
    "decision",
    "decision_reachable",
    "decision_unreachable",
    "decision_refuted",
    "decision_tie_refuted"
   ],
   "note": "The entry is the first least-cost candidate in column order, reachable exactly when that candidate is within both limits. The stronger reading (some path within limits suffices) is refuted: a cheaper path with too many hops hides one within limits; ties go by column order, not by node address."
  },
  {
   "property": "C21",
   "status": "proved",
   "theorems": [
    "routing_tables",
    "routing_changes_flagged",
    "routing_own_refuted",
    "routing_endnode_crash_refuted",
    "routing_message_crash_refuted",
    "routing_area_limit_refuted",
    "routing_two_endnodes_refuted",
    "routing_loss_refuted"
   ],
   "note": "After every valid history of adjacency and routing message events the level 1 and level 2 tables equal the decision over the current columns, and every changed entry was flagged for sending. Refuted corners: own entry before first decision, out of range endnodes, routing messages from endnodes, level 2 using the level 1 limits, two endnodes with one address, partial loss event."
  },
  {
   "property": "C22",
   "status": "proved",
   "theorems": [
    "forward_transit",
    "packet_lifetime",
    "forward_local",
    "send_result",
    "forward_aged_return_refuted"
   ],
   "note": "Per-router effect for any table; over any chain of routers with any tables at most 63 forwards and one return; local delivery and local send for every reached router state. With a visit limit of 63 aged packets cannot be returned (refuted corner)."
  },
  {
   "property": "C23",
   "status": "proved",
   "theorems": [
    "updates_built",
    "updates_decode",
    "updates_built3",
    "updates_none_refuted",
    "updates_learned"
   ],
   "note": "Block sizes from 16 on; with no flagged entry the code raises AttributeError (updates_none_refuted)."
  },
  {
   "property": "C24",
   "status": "proved",
   "theorems": [
    "routing_msg_round_trip",
    "routing_msg3_round_trip",
    "routing_checksum_detects",
    "routing_checksum_detects_ptp",
    "routing_checksum_refuted",
    "routing_checksum_header_refuted",
    "routing_msg_crash_refuted",
    "routing_msg_truncated_refuted",
    "routing_msg_enc_range"
   ],
   "note": "Detection holds for every class but the point-to-point Phase III/IV one, where the only alterations accepted are those that change the format (routing_checksum_detects_ptp); a witness is routing_checksum_refuted. The four header octets are not covered by the checksum."
  },
  {
   "property": "C25",
   "status": "proved",
   "theorems": [
    "routing_converges",
    "fair_runs_exist",
    "converges"
   ],
   "note": "Level 1 tables, any finite topology, any reached initial states and any stale messages in flight: in every fair run the entries stop changing, recorded routes are real paths whose next hop is one step closer, unreachable destinations are recorded so, and the cost is the least path cost provided least cost paths are within the hop limit (decision_refuted shows why that is needed). Each router must have decided its own entry (routing_own_refuted). Networks of several areas, with level 2 tables: C64."
  },
  {
   "property": "C26",
   "status": "proved",
   "theorems": [
    "dr_election",
    "dr_is_greatest",
    "dr_after_delay",
    "dr_same_address_refuted",
    "silent_router_refuted",
    "dr_needs_start"
   ],
   "note": "dr_election: routers that hear exactly each other elect exactly one, the greatest; at any time a self-declared DR is the greatest of those it hears. Two routers with one address elect none; a router heard once without two-way contact is never timed out (refuted companions)."
  },
  {
   "property": "C27",
   "status": "proved",
   "theorems": [
    "router_list_bound",
    "router_displaces_least",
    "router_list_is_top"
   ],
   "note": "Bound for every history; displacement of the least; retained set is the top nr of those heard for histories in which nodes keep type and priority and no adjacency times out."
  },
  {
   "property": "C28",
   "status": "proved",
   "theorems": [
    "two_way_history",
    "omitted_goes_down",
    "up_is_timed",
    "timeout_goes_down",
    "routing_is_told",
    "packets_from_up",
    "orphan_timer_refuted",
    "timeout_tells_twice_refuted",
    "timeout_never_up_refuted",
    "hello_crash_refuted",
    "phase2_hello_refuted",
    "foreign_hello_ignored",
    "listed_hello_up",
    "known_hello_quiet"
   ],
   "note": "Listen timer guarantee excludes hellos that claim the Phase II node type (phase2_hello_refuted)."
  },
  {
   "property": "C29",
   "status": "proved",
   "theorems": [
    "running_history",
    "passes_only_running",
    "adjacency_told",
    "bad_restarts",
    "rv2_nodeinit_refuted",
    "rv2_nopassword_refuted",
    "second_init_refuted",
    "requeued_init_refuted",
    "phase2_restart_refuted",
    "init_accepted",
    "verify_accepted",
    "init_noticed"
   ],
   "note": "Point to point circuit state machine over arbitrary event sequences; parsing outcomes, timers and the work queue are part of the environment. Refuted parts: five cases where the code crashes or misses a restart."
  },
  {
   "property": "C30",
   "status": "proved",
   "theorems": [
    "status_alternates",
    "status_accurate",
    "status_down",
    "stale_timer_refuted",
    "status_reconnect"
   ],
   "note": "For the Multinet instance of the point to point datalink."
  },
  {
   "property": "C31",
   "status": "proved",
   "theorems": [
    "ids_unique",
    "id_reuse"
   ],
   "note": "All open/close histories for max-connections 2^k-1, k = 8..15. Reuse bound is exact in the worst case (example)."
  },
  {
   "property": "C32",
   "status": "proved",
   "theorems": [
    "nsp_in_order",
    "nsp_window_refuted"
   ],
   "note": "Any execution of a connection: packets passed up on each subchannel are segments 1..k in order, and every segment up to the first gap that arrived was passed up. Refuted outside the window: a number exactly 2048 away raises TypeError."
  },
  {
   "property": "C33",
   "status": "proved",
   "theorems": [
    "nsp_end_to_end",
    "nsp_acknowledged_delivered"
   ],
   "note": "Two connections joined by a network that loses, duplicates, delays and reorders; every schedule of API calls, timers and receptions; the delay is limited to half the number space. Also: when the transmit queue of a running connection is empty, everything sent was delivered."
  },
  {
   "property": "C34",
   "status": "proved",
   "theorems": [
    "nsp_segmentation",
    "nsp_reassembly",
    "nsp_reassembled"
   ],
   "note": "Cut is well formed (sizes, flags, concatenation); a connection that passed up a prefix of the segments of some messages gave Session Control exactly the complete messages."
  },
  {
   "property": "C35",
   "status": "proved",
   "theorems": [
    "nsp_flow_control",
    "nsp_interrupt_credit",
    "nsp_in_flight"
   ],
   "note": "All executions of a connection (trace of API calls, received packets, timers): every data transmission lies within qmax of what packets received so far acknowledge and within the credit and XON/XOFF state granted by accepted Link Service messages; interrupts within 1 + granted credit."
  },
  {
   "property": "C36",
   "status": "proved",
   "theorems": [
    "nsp_retransmission_bounded",
    "nsp_timer_running",
    "nsp_timeout",
    "nsp_unacknowledged_closes"
   ],
   "note": "Transmission counts are exact for data segments, interrupt/Link Service messages and the Connect Initiate; Connect Confirm and Disconnect Initiate entries are covered by the per-entry counter (ttries) in the invariant. A data segment stopped by the other end's flow control is not retransmitted while stopped, as in the code."
  },
  {
   "property": "C37",
   "status": "proved",
   "theorems": [
    "nsp_table",
    "nsp_remote_table",
    "nsp_closed_once",
    "nsp_closed_forever",
    "nsp_data_states",
    "nsp_new_silent",
    "nsp_one_connection",
    "nsp_unknown_link",
    "nsp_wrong_peer",
    "nsp_early_link",
    "nsp_returned_unknown",
    "nsp_remote_table_refuted",
    "nsp_early_peer_refuted",
    "nsp_early_confirm",
    "nsp_partner_heard"
   ],
   "note": "For all reachable states of the NSP layer of a node (any number of connections, any packets). Two parts of the statement are false of the code and stated as _refuted: an entry of the table of remote addresses recorded from a third node survives the close, and such a packet sets the remote address of an outgoing connection."
  },
  {
   "property": "C38",
   "status": "proved",
   "theorems": [
    "nsp_round_trip",
    "nsp_injective",
    "nsp_decode_safe",
    "second_ack_refuted",
    "same_channel_refuted",
    "empty_packet_refuted",
    "short_data_refuted"
   ],
   "note": "Every NSP message class; the wire format is specified separately. A message with only the second acknowledgement field set does not round trip (refuted), and an empty packet decodes to a header without fields."
  },
  {
   "property": "C39",
   "status": "proved",
   "theorems": [
    "sci_round_trip",
    "sci_decode_safe",
    "sci_not_truncated",
    "sci_empty_name_refuted",
    "sci_flags_fit"
   ],
   "note": "Session connect message codec (session.py:119-215). An object with empty name and number 0 is encodable but refused by the receiver."
  },
  {
   "property": "C40",
   "status": "proved",
   "theorems": [
    "sess_access_control",
    "sess_refusals",
    "sess_runs_as",
    "sess_connect_delivered",
    "sess_name_case",
    "sess_letters",
    "sess_special_letters"
   ],
   "note": "An object with login authentication and a default user starts without credentials, by design of the code; stated in may_start."
  },
  {
   "property": "C41",
   "status": "proved",
   "theorems": [
    "sess_bind_refused",
    "sess_bind_ok",
    "sess_gone_exact",
    "sess_exit_aborts",
    "sess_safe",
    "sess_alias_refuted",
    "sess_twice_refuted",
    "sess_orphan_refuted"
   ],
   "note": "For histories that fit: upper case names, no request or exit from an application after its connector has failed, nothing on a refused connection. The refuted theorems show what the code does otherwise."
  },
  {
   "property": "C42",
   "status": "proved",
   "theorems": [
    "eth_sends_frame",
    "eth_too_long",
    "eth_port_ok",
    "eth_round_trip_pad",
    "eth_round_trip_nopad",
    "eth_filter",
    "eth_runt_refuted",
    "eth_sap_refuted"
   ],
   "note": "Exact in padded mode for all payloads, unpadded with fill below 46 bytes. SAP ports cannot be created; a runt raises IndexError."
  },
  {
   "property": "C43",
   "status": "proved",
   "theorems": [
    "tcp_frame_stream",
    "tcp_frame_long",
    "tcp_delivery",
    "tcp_delivery_prefix",
    "tcp_short_send_refuted"
   ],
   "note": "Proved when socket.send takes all the data; a short send is refuted."
  },
  {
   "property": "C44",
   "status": "proved",
   "theorems": [
    "udp_sequence",
    "udp_round_trip",
    "udp_no_runts",
    "udp_long_refuted"
   ],
   "note": ""
  },
  {
   "property": "C45",
   "status": "proved",
   "theorems": [
    "gre_sends_frame",
    "gre_port_ok",
    "gre_round_trip",
    "gre_truncated_dropped",
    "gre_truncated_refuted"
   ],
   "note": "Round trip proved when the datagram fits the receive buffer; frames cut by one or two bytes are delivered short (refuted), by more are dropped."
  },
  {
   "property": "C46",
   "status": "proved",
   "theorems": [
    "mop_receipts",
    "mop_reply_matched",
    "mop_reply_once",
    "mop_reply_delivered",
    "mop_loop_course",
    "mop_counters_refuted",
    "mop_end_api_refuted",
    "mop_loop_alive",
    "mop_loop_not_started"
   ],
   "note": "Covers every request the code can send (loop requests). Counter requests and all others for which MopCircuit.request must choose the receipt crash on a shadowed name (mop_counters_refuted); a multi-packet loop outlives its API client (mop_end_api_refuted). mop_reply_delivered assumes no request stays open while 65535 further receipts are drawn."
  },
  {
   "property": "C47",
   "status": "partial",
   "theorems": [
    "carrier_input_partial",
    "carrier_typed_partial",
    "carrier_output_partial",
    "carrier_once_partial",
    "carrier_start_refuted",
    "carrier_output_refuted",
    "carrier_input_refuted",
    "carrier_gives_up",
    "carrier_released"
   ],
   "note": "Proved for the data phase, from the first poll on, over in-order lossy links: input reaches the terminal in order and at most once, output reaches the client in order with none left out. Missing, because the code does not do it: exactly once (carrier_output_refuted: repeated responses are delivered again; carrier_input_refuted: a failed terminal write drops input), and the client cannot start at all (carrier_start_refuted)."
  },
  {
   "property": "C48",
   "status": "proved",
   "theorems": [
    "loop_returns",
    "loop_assist_returns",
    "loop_refused",
    "loop_station",
    "loop_crash_refuted",
    "loop_padding_refuted"
   ],
   "note": "For any padding appended by the links; the data come back followed by that padding (loop_padding_refuted). A truncated message stops the node instead of being ignored (loop_crash_refuted). Assumes the LAN delivers a frame to the station it is addressed to."
  },
  {
   "property": "C49",
   "status": "proved",
   "theorems": [
    "event_queue",
    "event_queue_zero_refuted",
    "event_transmit",
    "event_connect",
    "event_stopped"
   ],
   "note": "Whole remote sink, for limit at least 1."
  },
  {
   "property": "C50",
   "status": "proved",
   "theorems": [
    "parse_events_correct",
    "parse_events_accepts",
    "parse_events_known",
    "split_comma_unique",
    "filter_correct"
   ],
   "note": ""
  },
  {
   "property": "C51",
   "status": "proved",
   "theorems": [
    "nice_round_trip",
    "nice_request_round_trip",
    "nice_decode_safe_partial",
    "nice_decode_safe_refuted",
    "nice_cm_empty_refuted",
    "nice_cm_32_refuted",
    "nice_pnum_refuted"
   ],
   "note": "Responses and requests; nested coded multiples raise TypeError on decode."
  },
  {
   "property": "C52",
   "status": "proved",
   "theorems": [
    "i3_lookup",
    "i3_spellings",
    "i3_delete",
    "i3eq_spec",
    "i3_short_refuted",
    "i3_overwrite_refuted",
    "i3_setdefault_refuted",
    "i3eq_list_spec",
    "i3_in"
   ],
   "note": "Full characterisation; abbreviations under three characters and keys sharing three characters are refuted."
  },
  {
   "property": "C53",
   "status": "proved",
   "theorems": [
    "icpt_relay",
    "icpt_routed",
    "icpt_no_spoofing",
    "icpt_send_exact",
    "icpt_fails",
    "icpt_crosstalk_refuted",
    "icpt_crash_refuted",
    "icpt_p2_refuted",
    "icpt_send_simple"
   ],
   "note": "Full intercept over all histories. icpt_relay needs that no disconnect sent to the neighbor has, as the remote end's address, the number of another open link of the neighbor; without that the claim is false of the code (icpt_crosstalk_refuted). icpt_fails says exactly which packets stop the node. A Phase II router never relays (icpt_p2_refuted)."
  },
  {
   "property": "C54",
   "status": "proved",
   "theorems": [
    "dap_blocks",
    "dap_exact",
    "dap_stream",
    "dap_buffers",
    "dap_stray_config",
    "dap_stream_id_refuted",
    "dap_truncated_refuted",
    "dap_bufsiz_refuted",
    "dap_single"
   ],
   "note": "Messages without stream id and bit count (this implementation sends neither). With either, the length field is ignored by the splitter (dap_stream_id_refuted); a truncated message is an AssertionError (dap_truncated_refuted); a blocked buffer can exceed the peer's buffer size by up to two bytes (dap_bufsiz_refuted). The fields behind the header are not modelled."
  },
  {
   "property": "C55",
   "status": "proved",
   "theorems": [
    "sess_delivery",
    "sess_delivered",
    "sess_connect_delivered",
    "sess_orphan_refuted"
   ],
   "note": "owner is read off the history of inputs and outputs, independent of the session tables."
  },
  {
   "property": "C56",
   "status": "proved",
   "theorems": [
    "nsp_ack_owed",
    "nsp_ack_timely",
    "nsp_ack_at_once",
    "nsp_cross_ack"
   ],
   "note": "Every execution of one connection. nsp_ack_at_once concerns steps after which the connection is still up, and old segments within half the sequence space."
  },
  {
   "property": "C57",
   "status": "proved",
   "theorems": [
    "nsp_dialogue",
    "nsp_end_told",
    "nsp_end_final",
    "nsp_refusal"
   ],
   "note": "Per connection, over all executions; Phase 2 or higher. NSP.dispatch's setting of the peer's link address is a step of the execution."
  },
  {
   "property": "C58",
   "status": "proved",
   "theorems": [
    "nsp_disconnect_ends",
    "nsp_disconnect_sent",
    "nsp_wait_ends",
    "nsp_disconnect_confirmed",
    "nsp_bad_reason_refuted",
    "nsp_cross_ack_disconnect_refuted"
   ],
   "note": "Timers are events: the theorem says what happens at each expiry, not when it comes. Executions in which a call raised RangeError are excluded from the first two; nsp_bad_reason_refuted shows why."
  },
  {
   "property": "C59",
   "status": "proved",
   "theorems": [
    "endnode_next_hop",
    "endnode_gateway_unique",
    "endnode_hello",
    "endnode_reports",
    "endnode_delivers",
    "endnode_return_partial",
    "endnode_return_refuted",
    "endnode_cache_refuted",
    "endnode_listen_refuted"
   ],
   "note": "Proved for every history. The last sentence of the statement is false of the code for cached destinations (endnode_return_refuted) and proved for the others (endnode_return_partial)."
  },
  {
   "property": "C60",
   "status": "partial",
   "theorems": [
    "applyroot_contained",
    "fal_contained_partial",
    "fal_one_level",
    "fal_by_name",
    "fal_escape_refuted"
   ],
   "note": "containment is proved for all requests without a component ..;*, ..*.* or ..*.*;*; those escape by one level, proved with a witness (fal_escape_refuted) and bounded for every request (fal_one_level)"
  },
  {
   "property": "C61",
   "status": "proved",
   "theorems": [
    "conn_in_order",
    "conn_next",
    "conn_listen",
    "conn_listen_next",
    "conn_listen_pipe",
    "conn_answer",
    "conn_tags",
    "conn_closed",
    "conn_no_listener",
    "conn_fails",
    "conn_crossing_refuted",
    "conn_cancel_refuted"
   ],
   "note": "conn_fails says exactly when the receiver fails; that it fails in normal use is shown by the two refutations"
  },
  {
   "property": "C62",
   "status": "proved",
   "theorems": [
    "cons_user",
    "cons_password",
    "cons_private",
    "cons_sysid",
    "cons_bystander",
    "cons_fresh",
    "cons_input",
    "cons_off",
    "cons_fork_refuted"
   ],
   "note": "Hypothesis works: the login process can be started; cons_fork_refuted shows what happens otherwise."
  },
  {
   "property": "C63",
   "status": "proved",
   "theorems": [
    "nml_read",
    "nml_read_phase2",
    "nml_unsupported",
    "nml_api_read",
    "nml_loop_refused",
    "nml_loop_start",
    "nml_loop_pending",
    "nml_loop_success",
    "nml_loop_failure",
    "nml_loop_cases",
    "mirror_echo",
    "nml_mirror",
    "nml_loop_path",
    "nml_mop_done",
    "nml_loop_nocircuit",
    "nml_phase2_refuted",
    "nml_overlap_refuted",
    "nml_empty_refuted",
    "nml_loop_noname_refuted",
    "mirror_empty_refuted",
    "nml_version"
   ],
   "note": "What the layers answer and the decoding of requests are inputs; the refuted theorems show where the code fails."
  },
  {
   "property": "C64",
   "status": "proved",
   "theorems": [
    "areas_converge",
    "packets_arrive",
    "network_delivers",
    "area_fair_runs_exist"
   ],
   "note": "Networks of level 1 and level 2 routers, any finite topology, any reached initial states and any stale messages in flight, links losing messages: in every fair run the area entries, the attached flags and then the node entries stop changing, and are the real least-cost paths (under the hop limit condition of C25). network_delivers: when least-cost paths are within the limits, a packet for a node of the same area or of another area gets there (trip: finitely many hops over real links, at each of which forward sends it on). Adjacencies do not change during the run; every level 2 router of the sender's area must have a path to the destination area (an attached router without one drops the packet, as the code does)."
  },
  {
   "property": "C65",
   "status": "proved",
   "theorems": [
    "ddcmp_live",
    "quiet_fair"
   ],
   "note": "Liveness of two stations under fairness; the assumption that a waiting station has a timeout is examined in C66."
  },
  {
   "property": "C66",
   "status": "proved",
   "theorems": [
    "timer_runs",
    "timer_expires",
    "timer_put_off",
    "reply_timer_refuted"
   ],
   "note": "The timer runs exactly while an answer is missing and expires if nothing arrives; with unhelpful traffic from the other side it is put off without limit (finding)."
  },
  {
   "property": "C67",
   "status": "proved",
   "theorems": [
    "host_address",
    "host_rotation",
    "host_preference",
    "host_accepts",
    "host_accepts_last_refuted",
    "host_wild",
    "host_asks",
    "host_new_ok",
    "source_is_local",
    "host_families"
   ],
   "note": "The claim about the last lookup is refuted with a witness; what holds is host_accepts.  Lookups are taken to be atomic."
  },
  {
   "property": "C68",
   "status": "proved",
   "theorems": [
    "api_stream",
    "api_layer",
    "api_parse_error",
    "api_list",
    "api_own",
    "api_open",
    "api_bad_refuted",
    "api_bridge_refuted",
    "api_words",
    "api_falsy",
    "api_case",
    "api_eof"
   ],
   "note": "JSON decoding and the layers are arbitrary functions; sends succeed."
  },
  {
   "property": "C69",
   "status": "proved",
   "theorems": [
    "conf_expands_unique",
    "conf_accepted",
    "conf_content",
    "conf_nodes",
    "conf_resolve",
    "conf_cycle",
    "conf_repeat_refuted",
    "conf_blank_refuted",
    "conf_words",
    "conf_object_keys"
   ],
   "note": "The argument parser is a function from command lines to entries, errors and exceptions; files are lists of lines.  The two refuted theorems say where the code differs from what a user expects."
  },
  {
   "property": "C70",
   "status": "proved",
   "theorems": [
    "ndb_one",
    "ndb_distinct",
    "ndb_config",
    "ndb_names",
    "ndb_loop",
    "ndb_connect",
    "ndb_executor",
    "ndb_listing",
    "ndb_short_refuted",
    "ndb_twice_refuted",
    "ndb_shadow_refuted"
   ],
   "note": "config_ok asks for what the configuration reader checks, and for distinct addresses after the area is put in, which it does not check (ndb_twice_refuted)."
  },
  {
   "property": "C71",
   "status": "proved",
   "theorems": [
    "pmr_parse",
    "pmr_direct",
    "pmr_other",
    "pmr_request",
    "pmr_journey",
    "pmr_answer",
    "pmr_forward",
    "pmr_end",
    "pmr_last_hop",
    "pmr_next_hop",
    "pmr_accept_refuted",
    "pmr_stuck_refuted",
    "pmr_none_refuted",
    "pmr_blank_refuted",
    "pmr_quote_refuted",
    "pmr_reject_refuted",
    "pmr_accept_data"
   ],
   "note": "For objects that can be written in a request (a number, or a name without blanks).  The refuted theorems say where the code differs: above all the relay never accepts the incoming connection (its accept is not awaited), so the journey is that of the requests it would serve."
  },
  {
   "property": "C72",
   "status": "proved",
   "theorems": [
    "dap_message",
    "dap_told",
    "dap_extra",
    "dap_layouts",
    "dap_apart",
    "dap_prot",
    "dap_calm",
    "dap_lookup",
    "dap_clear",
    "dap_defaults",
    "dap_wire",
    "dap_spool_refuted",
    "dap_password_refuted",
    "dap_wire_optional"
   ],
   "note": "All message layouts. Configuration and attribute messages each use one name for two fields (dap_spool_refuted); for the others dap_clear gives the reader exactly what was sent."
  },
  {
   "property": "C73",
   "status": "proved",
   "theorems": [
    "show_plural",
    "show_listed",
    "show_order",
    "show_executor",
    "show_nsp",
    "show_route",
    "show_neighbours",
    "show_one",
    "show_names",
    "show_areas_all",
    "show_area_one",
    "show_maxarea_refuted",
    "show_range_refuted",
    "show_loop_refuted",
    "show_circuit_refuted",
    "show_abroad"
   ],
   "note": "What is listed, in which order, and what is said of nodes and areas; the exceptions are the four refutations."
  },
  {
   "property": "C74",
   "status": "proved",
   "theorems": [
    "update_runs",
    "update_spacing",
    "update_prompt",
    "update_periodic",
    "update_complete",
    "update_addressee",
    "update_starved_refuted",
    "update_early_refuted",
    "update_settled",
    "update_rotates"
   ],
   "note": "That complete updates come every T1 is false of the code while changes go on (update_starved_refuted); proved is that some update does, and a complete one when nothing changes."
  },
  {
   "property": "C75",
   "status": "proved",
   "theorems": [
    "hello_paced",
    "hello_prompt",
    "hello_steady",
    "listen_silence",
    "listen_dropped",
    "hello_keeps",
    "hello_margin",
    "hello_spacing_refuted",
    "hello_overflow_refuted",
    "listen_own_refuted"
   ],
   "note": "Times in milliseconds, the timer wheel by when it can fire.  The minimum spacing of hellos, a listen time too long for the wheel and Phase III neighbours with a longer timer are refuted with witnesses."
  },
  {
   "property": "C76",
   "status": "proved",
   "theorems": [
    "delay_range",
    "delay_moves",
    "delay_converges",
    "retry_count",
    "retry_gap",
    "retry_none",
    "retry_steady",
    "retry_ends",
    "delay_resent_refuted",
    "delay_givenup_refuted",
    "factor_refuted",
    "retry_unblocked"
   ],
   "note": "Rational time, without float rounding.  That only round trips are measured, and that the configured factor is checked, is refuted with witnesses."
  },
  {
   "property": "C77",
   "status": "proved",
   "theorems": [
    "http_contained",
    "lexical_normal",
    "http_file",
    "http_reach",
    "http_home",
    "http_right",
    "http_answered",
    "http_decode_refuted",
    "http_query_refuted",
    "http_words",
    "http_scheme",
    "http_percent",
    "http_case",
    "http_noscheme"
   ],
   "note": "Containment for every target and any realpath without . and ..; the failures with a query that names no system and with percent-encoded names are refuted by witness"
  },
  {
   "property": "C78",
   "status": "proved",
   "theorems": [
    "scan_once",
    "scan_all",
    "scan_inc",
    "scan_ends",
    "item_state",
    "item_since",
    "item_scan",
    "item_fades",
    "item_second_refuted",
    "scan_event_refuted",
    "item_news"
   ],
   "note": "The poll of a single node is modelled by its report; two failures of the full claim are refuted by witness"
  },
  {
   "property": "C79",
   "status": "proved",
   "theorems": [
    "poll_once",
    "poll_up",
    "poll_sound",
    "poll_full",
    "poll_full2",
    "poll_error",
    "poll_empty"
   ],
   "note": "poll_empty states what an empty message does (an exception that is waited out)."
  },
  {
   "property": "C80",
   "status": "partial",
   "theorems": [
    "mapdb_names",
    "mapdb_record",
    "mapdb_others",
    "mapdb_answer",
    "mapdb_file",
    "mapdb_load",
    "mapdb_forgets",
    "mapdb_noloc",
    "mapdb_keeps_refuted",
    "mapdb_unique_refuted",
    "mapdb_found_refuted",
    "mapdb_answer_refuted",
    "mapdb_load_refuted",
    "mapdb_mapnode",
    "mapdb_scan"
   ],
   "note": "The code violates parts of it, refuted with witnesses: a record does not leave what scans have seen, names are not unique, fields of a scrapped node leak into the next, and a crash between the renames loads no data.  The rest is proved."
  },
  {
   "property": "C81",
   "status": "partial",
   "theorems": [
    "topol_names",
    "topol_reply",
    "topol_count",
    "topol_client_refuted",
    "topol_long",
    "topol_split",
    "topol_upper"
   ],
   "note": "The names and their coding are right (proved), but the count in the reply is always 0, so a client reads none: topol_count, topol_client_refuted."
  },
  {
   "property": "C82",
   "status": "partial",
   "theorems": [
    "p2_send",
    "p2_loop",
    "p2_self",
    "p2_two_refuted",
    "p2_rqr"
   ],
   "note": "Proved for neighbours with one circuit each and for loop nodes; the code violates the rest: sending to itself is an exception (p2_self), a second circuit to a neighbour is lost (p2_two_refuted), connect requests do not come back (p2_rqr)."
  },
  {
   "property": "C83",
   "status": "partial",
   "theorems": [
    "lsn_formats",
    "lsn_talk",
    "lsn_who",
    "lsn_refuses",
    "lsn_lengths",
    "lsn_format_refuted",
    "lsn_end"
   ],
   "note": "Proved except that connect data of another format are not refused: any of 7 bytes or more are taken as format 0 (lsn_lengths, lsn_format_refuted)."
  },
  {
   "property": "C84",
   "status": "proved",
   "theorems": [
    "evt_wire",
    "evt_round",
    "evt_when",
    "evt_order",
    "evt_limit",
    "evt_safe",
    "evt_entity"
   ],
   "note": "The data after the entity are opaque bytes here; their coding is C51."
  },
  {
   "property": "C85",
   "status": "partial",
   "theorems": [
    "memlog_order",
    "memlog_history",
    "memlog_important",
    "memlog_zero_refuted",
    "memlog_bypass",
    "dump_line_read",
    "dump_read",
    "dump_lines"
   ],
   "note": "Proved except that with a capacity of 0 an important record is not written (memlog_zero_refuted)."
  },
  {
   "property": "C86",
   "status": "partial",
   "theorems": [
    "map_tells",
    "map_place",
    "map_empty_refuted",
    "map_best",
    "map_draw"
   ],
   "note": "Proved except that a place without nodes is an exception (map_empty_refuted)."
  },
  {
   "property": "C87",
   "status": "partial",
   "theorems": [
    "mirror1_serves",
    "mirror1_runs",
    "mirror1_apart",
    "mirror1_others_refuted",
    "mirror_same",
    "mirror3_unnamed_refuted",
    "mirror_differ",
    "mirror_start",
    "mirror_stops"
   ],
   "note": "False of mirror3 for a client whose node has no name in the configuration: unpacking its address is a TypeError (mirror3_unnamed_refuted).  Empty data are an IndexError in all, and the disconnect of one connection would end mirror for others, were it given any; Session Control starts a process for each (mirror1_others_refuted).  Everything else is proved."
  },
  {
   "property": "C88",
   "status": "partial",
   "theorems": [
    "html_table",
    "html_details",
    "html_sections",
    "html_shows",
    "html_quote_refuted",
    "html_doc_refuted",
    "html_span_refuted"
   ],
   "note": "Tables and sections nest if the strings in them have no markup.  False of the code otherwise, because nothing is quoted (html_quote_refuted), and of every whole page, because the element flex-page is not closed (html_doc_refuted).  The details of a row span one column too many (html_span_refuted)."
  }
 ]
}