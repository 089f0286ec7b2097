{
 "claims": [
  {
   "property": "C01",
   "status": "proved",
   "theorems": [
    "C01_wire_format",
    "C01_others_rejected"
   ],
   "note": ""
  },
  {
   "property": "C02",
   "status": "proved",
   "theorems": [
    "C02_frame_length"
   ],
   "note": ""
  },
  {
   "property": "C03",
   "status": "proved",
   "theorems": [
    "C03_id_transmitted",
    "C03_ids_distinct",
    "C03_valid_ids_are_positions"
   ],
   "note": ""
  },
  {
   "property": "C04",
   "status": "proved",
   "theorems": [
    "C04_checksum_byte"
   ],
   "note": ""
  },
  {
   "property": "C05",
   "status": "proved",
   "theorems": [
    "C05_block_equals_bytes",
    "C05_sends_concatenate_vector",
    "C05_sends_concatenate_serial"
   ],
   "note": ""
  },
  {
   "property": "C06",
   "status": "proved",
   "theorems": [
    "C06_autosized_fits_exactly",
    "C06_collection_autosized"
   ],
   "note": ""
  },
  {
   "property": "C07",
   "status": "proved",
   "theorems": [
    "C07_autosized_second_send_refuted",
    "C07_overrun_when_too_long",
    "C07_contained_when_it_fits"
   ],
   "note": "Part of the expected property is violated by the code: _refuted proves the violation, the other theorems what holds."
  },
  {
   "property": "C08",
   "status": "proved",
   "theorems": [
    "C08_composition_tees_calls",
    "C08_send_through_composition"
   ],
   "note": ""
  },
  {
   "property": "C09",
   "status": "proved",
   "theorems": [
    "C09_composition_loses_completion_refuted",
    "C09_composed_i2c_overruns"
   ],
   "note": "Part of the expected property is violated by the code: _refuted proves the violation, the other theorems what holds."
  },
  {
   "property": "C10",
   "status": "proved",
   "theorems": [
    "C10_i2c_one_write_per_message"
   ],
   "note": ""
  },
  {
   "property": "C11",
   "status": "proved",
   "theorems": [
    "C11_overloads_agree",
    "C11_single_argument",
    "C11_foreign_argument",
    "C11_integers_convert",
    "C11_in_range_unchanged"
   ],
   "note": ""
  },
  {
   "property": "C12",
   "status": "proved",
   "theorems": [
    "C12_field_round_trip",
    "C12_field_encoding_injective"
   ],
   "note": ""
  },
  {
   "property": "C13",
   "status": "proved",
   "theorems": [
    "C13_tuple_round_trip"
   ],
   "note": ""
  },
  {
   "property": "C14",
   "status": "proved",
   "theorems": [
    "C14_byte_order_reverses",
    "C14_value_preserved_refuted"
   ],
   "note": "Part of the expected property is violated by the code: _refuted proves the violation, the other theorems what holds."
  },
  {
   "property": "C15",
   "status": "proved",
   "theorems": [
    "C15_max_message_length"
   ],
   "note": ""
  },
  {
   "property": "C16",
   "status": "proved",
   "theorems": [
    "C16_message_length_lookup"
   ],
   "note": ""
  },
  {
   "property": "C17",
   "status": "proved",
   "theorems": [
    "C17_fifo_any_layout",
    "C17_fifo"
   ],
   "note": ""
  },
  {
   "property": "C18",
   "status": "proved",
   "theorems": [
    "C18_inside_array"
   ],
   "note": ""
  },
  {
   "property": "C19",
   "status": "proved",
   "theorems": [
    "C19_space"
   ],
   "note": ""
  },
  {
   "property": "C20",
   "status": "proved",
   "theorems": [
    "C20_oversized_append_refuted",
    "C20_other_oversized_appends_caught",
    "C20_unchecked_oversized_append",
    "C20_push_on_full"
   ],
   "note": "Part of the expected property is violated by the code: _refuted proves the violation, the other theorems what holds."
  },
  {
   "property": "C21",
   "status": "proved",
   "theorems": [
    "C21_erase",
    "C21_erase_empty_range_refuted"
   ],
   "note": "Part of the expected property is violated by the code: _refuted proves the violation, the other theorems what holds."
  },
  {
   "property": "C22",
   "status": "proved",
   "theorems": [
    "C22_copies",
    "C22_self_assignment"
   ],
   "note": ""
  },
  {
   "property": "C23",
   "status": "proved",
   "theorems": [
    "C23_receive_from",
    "C23_shipped_adapters"
   ],
   "note": ""
  },
  {
   "property": "C24",
   "status": "proved",
   "theorems": [
    "C24_lossless",
    "C24_lossless_run"
   ],
   "note": ""
  },
  {
   "property": "C25",
   "status": "proved",
   "theorems": [
    "C25_stream_scanner",
    "C25_stream_only",
    "C25_scanner_total"
   ],
   "note": ""
  },
  {
   "property": "C26",
   "status": "proved",
   "theorems": [
    "C26_no_invention",
    "C26_every_call_has_a_frame"
   ],
   "note": ""
  },
  {
   "property": "C27",
   "status": "proved",
   "theorems": [
    "C27_never_full"
   ],
   "note": ""
  },
  {
   "property": "C28",
   "status": "proved",
   "theorems": [
    "C28_terminates_safely"
   ],
   "note": ""
  },
  {
   "property": "C29",
   "status": "proved",
   "theorems": [
    "C29_noise_skipped"
   ],
   "note": ""
  },
  {
   "property": "C30",
   "status": "proved",
   "theorems": [
    "C30_idle_empties",
    "C30_resynchronised"
   ],
   "note": ""
  },
  {
   "property": "C31",
   "status": "proved",
   "theorems": [
    "C31_garbage_swallows",
    "C31_garbage_refuted"
   ],
   "note": "Part of the expected property is violated by the code: _refuted proves the violation, the other theorems what holds."
  },
  {
   "property": "C32",
   "status": "proved",
   "theorems": [
    "C32_single_byte"
   ],
   "note": ""
  },
  {
   "property": "C33",
   "status": "proved",
   "theorems": [
    "C33_swapped_bytes",
    "C33_id_byte_refuted"
   ],
   "note": "Part of the expected property is violated by the code: _refuted proves the violation, the other theorems what holds."
  },
  {
   "property": "C34",
   "status": "proved",
   "theorems": [
    "C34_basic_payload_unprotected"
   ],
   "note": ""
  },
  {
   "property": "C35",
   "status": "proved",
   "theorems": [
    "C35_count_mod_256",
    "C35_count_exact",
    "C35_count_refuted"
   ],
   "note": "Part of the expected property is violated by the code: _refuted proves the violation, the other theorems what holds."
  },
  {
   "property": "C36",
   "status": "proved",
   "theorems": [
    "C36_last_id"
   ],
   "note": ""
  },
  {
   "property": "C37",
   "status": "proved",
   "theorems": [
    "C37_no_handler",
    "C37_handlers"
   ],
   "note": ""
  },
  {
   "property": "C38",
   "status": "proved",
   "theorems": [
    "C38_throwing_handler"
   ],
   "note": ""
  },
  {
   "property": "C39",
   "status": "proved",
   "theorems": [
    "C39_clear_inside_handler",
    "C39_clear_refuted"
   ],
   "note": "Part of the expected property is violated by the code: _refuted proves the violation, the other theorems what holds."
  },
  {
   "property": "C40",
   "status": "proved",
   "theorems": [
    "C40_reentrant",
    "C40_reentrant_refuted"
   ],
   "note": "Part of the expected property is violated by the code: _refuted proves the violation, the other theorems what holds."
  },
  {
   "property": "C41",
   "status": "proved",
   "theorems": [
    "C41_append_inside_handler",
    "C41_append_returns"
   ],
   "note": ""
  },
  {
   "property": "C42",
   "status": "proved",
   "theorems": [
    "C42_builds_agree"
   ],
   "note": ""
  },
  {
   "property": "C43",
   "status": "proved",
   "theorems": [
    "C43_partial_handler",
    "C43_compiles"
   ],
   "note": ""
  },
  {
   "property": "C44",
   "status": "proved",
   "theorems": [
    "C44_copy",
    "C44_assign",
    "C44_variable_refuted",
    "C44_from_handler",
    "C44_self_assign",
    "C44_self_assign_refuted"
   ],
   "note": "Part of the expected property is violated by the code: _refuted proves the violation, the other theorems what holds."
  },
  {
   "property": "C45",
   "status": "proved",
   "theorems": [
    "C45_invalid_value",
    "C45_bool_refuted"
   ],
   "note": "Part of the expected property is violated by the code: _refuted proves the violation, the other theorems what holds."
  },
  {
   "property": "C46",
   "status": "proved",
   "theorems": [
    "C46_wrapping_room_check_refuted",
    "C46_room_check_wraps",
    "C46_safe_capacities",
    "C46_receiver_refuted"
   ],
   "note": "Part of the expected property is violated by the code: _refuted proves the violation, the other theorems what holds."
  },
  {
   "property": "C47",
   "status": "proved",
   "theorems": [
    "C47_push_own_element",
    "C47_push_own_element_refuted"
   ],
   "note": "Part of the expected property is violated by the code: _refuted proves the violation, the other theorems what holds."
  },
  {
   "property": "C48",
   "status": "proved",
   "theorems": [
    "C48_from_array",
    "C48_from_range",
    "C48_from_array_any_length_refuted"
   ],
   "note": "Part of the expected property is violated by the code: _refuted proves the violation, the other theorems what holds."
  },
  {
   "property": "C49",
   "status": "proved",
   "theorems": [
    "C49_at",
    "C49_at_out_of_range_refuted"
   ],
   "note": "Part of the expected property is violated by the code: _refuted proves the violation, the other theorems what holds."
  },
  {
   "property": "C50",
   "status": "proved",
   "theorems": [
    "C50_feedback",
    "C50_feedback_refuted"
   ],
   "note": "Part of the expected property is violated by the code: _refuted proves the violation, the other theorems what holds."
  },
  {
   "property": "C51",
   "status": "proved",
   "theorems": [
    "C51_guarded_reentry",
    "C51_guarded_reentry_refuted",
    "C51_old_message_again_refuted"
   ],
   "note": "Part of the expected property is violated by the code: _refuted proves the violation, the other theorems what holds."
  },
  {
   "property": "C52",
   "status": "proved",
   "theorems": [
    "C52_read_error_drops_refuted",
    "C52_read_error_asserts",
    "C52_read_error_invents_refuted",
    "C52_read_error_overruns_refuted"
   ],
   "note": "Part of the expected property is violated by the code: _refuted proves the violation, the other theorems what holds."
  },
  {
   "property": "C53",
   "status": "proved",
   "theorems": [
    "C53_polling",
    "C53_polling_progress",
    "C53_polling_bound",
    "C53_polling_drains",
    "C53_shipped_ports"
   ],
   "note": ""
  },
  {
   "property": "C54",
   "status": "proved",
   "theorems": [
    "C54_same_sending",
    "C54_old_to_new",
    "C54_new_to_old",
    "C54_phantom_refuted"
   ],
   "note": "Part of the expected property is violated by the code: _refuted proves the violation, the other theorems what holds."
  },
  {
   "property": "C55",
   "status": "proved",
   "theorems": [
    "C55_damage_bounded"
   ],
   "note": ""
  },
  {
   "property": "C56",
   "status": "proved",
   "theorems": [
    "C56_append",
    "C56_check",
    "C56_pop",
    "C56_pop_asserts",
    "C56_no_id",
    "C56_stale_id_refuted"
   ],
   "note": "Part of the expected property is violated by the code: _refuted proves the violation, the other theorems what holds."
  },
  {
   "property": "C57",
   "status": "proved",
   "theorems": [
    "C57_depth_bound",
    "C57_depth_attained"
   ],
   "note": ""
  },
  {
   "property": "C58",
   "status": "proved",
   "theorems": [
    "C58_parameter_handler",
    "C58_no_float_as_integer",
    "C58_float_as_integer_refuted",
    "C58_compiles",
    "C58_parameter_missing"
   ],
   "note": "Part of the expected property is violated by the code: _refuted proves the violation, the other theorems what holds."
  },
  {
   "property": "C59",
   "status": "proved",
   "theorems": [
    "C59_cross_endian",
    "C59_swapped_determined",
    "C59_single_bytes_unchanged",
    "C59_values_changed_refuted"
   ],
   "note": "Part of the expected property is violated by the code: _refuted proves the violation, the other theorems what holds."
  },
  {
   "property": "C60",
   "status": "proved",
   "theorems": [
    "C60_copy_refuted",
    "C60_copy_reset",
    "C60_new",
    "C60_assignment_refuted",
    "C60_i2c_copy_refuted",
    "C60_i2c_original"
   ],
   "note": "Part of the expected property is violated by the code: _refuted proves the violation, the other theorems what holds."
  },
  {
   "property": "C61",
   "status": "proved",
   "theorems": [
    "C61_same_bytes",
    "C61_self_composition_refuted"
   ],
   "note": "Part of the expected property is violated by the code: _refuted proves the violation, the other theorems what holds."
  },
  {
   "property": "C62",
   "status": "proved",
   "theorems": [
    "C62_push_own_range",
    "C62_push_own_range_refuted"
   ],
   "note": "Part of the expected property is violated by the code: _refuted proves the violation, the other theorems what holds."
  },
  {
   "property": "C63",
   "status": "proved",
   "theorems": [
    "C63_relay"
   ],
   "note": ""
  },
  {
   "property": "C64",
   "status": "proved",
   "theorems": [
    "C64_same_bytes_same_messages",
    "C64_prefix",
    "C64_other_order_refuted"
   ],
   "note": "Part of the expected property is violated by the code: _refuted proves the violation, the other theorems what holds."
  },
  {
   "property": "C65",
   "status": "proved",
   "theorems": [
    "C65_payload_damage"
   ],
   "note": ""
  },
  {
   "property": "C66",
   "status": "proved",
   "theorems": [
    "C66_accounting",
    "C66_call_bound"
   ],
   "note": ""
  },
  {
   "property": "C67",
   "status": "proved",
   "theorems": [
    "C67_future"
   ],
   "note": ""
  },
  {
   "property": "C68",
   "status": "proved",
   "theorems": [
    "C68_lost_byte",
    "C68_lost_header_refuted"
   ],
   "note": "Part of the expected property is violated by the code: _refuted proves the violation, the other theorems what holds."
  },
  {
   "property": "C69",
   "status": "proved",
   "theorems": [
    "C69_extra_byte",
    "C69_checksum_4_refuted"
   ],
   "note": "Part of the expected property is violated by the code: _refuted proves the violation, the other theorems what holds."
  },
  {
   "property": "C70",
   "status": "proved",
   "theorems": [
    "C70_same_layout",
    "C70_same_layout_sent",
    "C70_longer_expected",
    "C70_shorter_expected",
    "C70_int_size_refuted"
   ],
   "note": "Part of the expected property is violated by the code: _refuted proves the violation, the other theorems what holds."
  },
  {
   "property": "C71",
   "status": "proved",
   "theorems": [
    "C71_integer_arguments",
    "C71_large_integer_refuted",
    "C71_floating_arguments",
    "C71_floats_are_doubles",
    "C71_overflow_refuted"
   ],
   "note": "Part of the expected property is violated by the code: _refuted proves the violation, the other theorems what holds."
  },
  {
   "property": "C72",
   "status": "proved",
   "theorems": [
    "C72_checksum_to_basic_frame",
    "C72_checksum_to_basic",
    "C72_basic_to_checksum_frame",
    "C72_basic_to_checksum",
    "C72_phantom_refuted"
   ],
   "note": "Part of the expected property is violated by the code: _refuted proves the violation, the other theorems what holds."
  },
  {
   "property": "C73",
   "status": "proved",
   "theorems": [
    "C73_calls",
    "C73_byte_only",
    "C73_serial_writes"
   ],
   "note": ""
  },
  {
   "property": "C74",
   "status": "proved",
   "theorems": [
    "C74_control_code",
    "C74_unknown_id",
    "C74_other_id"
   ],
   "note": ""
  },
  {
   "property": "C75",
   "status": "proved",
   "theorems": [
    "C75_one_check",
    "C75_total_work",
    "C75_counted"
   ],
   "note": ""
  },
  {
   "property": "C76",
   "status": "proved",
   "theorems": [
    "C76_send_overloads",
    "C76_default_handlers",
    "C76_limits",
    "C76_limits_set",
    "C76_enabled",
    "C76_checked_in",
    "C76_model_send",
    "C76_model_handlers",
    "C76_model_invoke"
   ],
   "note": ""
  },
  {
   "property": "C77",
   "status": "proved",
   "theorems": [
    "C77_failed_send",
    "C77_prompt",
    "C77_interrupted",
    "C77_interrupted_start",
    "C77_resend_refuted"
   ],
   "note": "Part of the expected property is violated by the code: _refuted proves the violation, the other theorems what holds."
  },
  {
   "property": "C78",
   "status": "proved",
   "theorems": [
    "C78_serial_port",
    "C78_port_that_takes_all",
    "C78_short_write_refuted",
    "C78_i2c_port",
    "C78_i2c_buffer"
   ],
   "note": "Part of the expected property is violated by the code: _refuted proves the violation, the other theorems what holds."
  },
  {
   "property": "C79",
   "status": "proved",
   "theorems": [
    "C79_in_order",
    "C79_turn_possible",
    "C79_request_response",
    "C79_completes",
    "C79_never_silent"
   ],
   "note": ""
  },
  {
   "property": "C80",
   "status": "proved",
   "theorems": [
    "C80_safe",
    "C80_effect",
    "C80_send",
    "C80_in_order",
    "C80_drained",
    "C80_shipped",
    "C80_shipped_receiver",
    "C80_shipped_sender",
    "C80_no_id_refuted",
    "C80_too_early_refuted",
    "C80_in_place_refuted"
   ],
   "note": "Part of the expected property is violated by the code: _refuted proves the violation, the other theorems what holds."
  },
  {
   "property": "C81",
   "status": "proved",
   "theorems": [
    "C81_field_by_field",
    "C81_bitwise",
    "C81_portable",
    "C81_portable_send",
    "C81_portable_in_order",
    "C81_short_refuted",
    "C81_stateful_refuted",
    "C81_long_refuted"
   ],
   "note": "Part of the expected property is violated by the code: _refuted proves the violation, the other theorems what holds."
  },
  {
   "property": "C82",
   "status": "proved",
   "theorems": [
    "C82_burst",
    "C82_nine_bits_refuted",
    "C82_two_bits",
    "C82_bit_and_checksum",
    "C82_one_in_256"
   ],
   "note": "Part of the expected property is violated by the code: _refuted proves the violation, the other theorems what holds."
  },
  {
   "property": "C83",
   "status": "proved",
   "theorems": [
    "C83_read",
    "C83_limits_first",
    "C83_order",
    "C83_found",
    "C83_texts"
   ],
   "note": ""
  },
  {
   "property": "C84",
   "status": "proved",
   "theorems": [
    "C84_average",
    "C84_rare",
    "C84_exact",
    "C84_run"
   ],
   "note": ""
  },
  {
   "property": "C85",
   "status": "proved",
   "theorems": [
    "C85_lost",
    "C85_never_silent",
    "C85_half",
    "C85_in_step_refuted"
   ],
   "note": "Part of the expected property is violated by the code: _refuted proves the violation, the other theorems what holds."
  },
  {
   "property": "C86",
   "status": "proved",
   "theorems": [
    "C86_same_results",
    "C86_basic",
    "C86_checksum",
    "C86_total",
    "C86_counted",
    "C86_linear_refuted"
   ],
   "note": "Part of the expected property is violated by the code: _refuted proves the violation, the other theorems what holds."
  },
  {
   "property": "C87",
   "status": "proved",
   "theorems": [
    "C87_same_results",
    "C87_each",
    "C87_moves",
    "C87_attained",
    "C87_polled_refuted",
    "C87_thrown_refuted"
   ],
   "note": "Part of the expected property is violated by the code: _refuted proves the violation, the other theorems what holds."
  },
  {
   "property": "C88",
   "status": "proved",
   "theorems": [
    "C88_bytes",
    "C88_blocks",
    "C88_no_write_byte",
    "C88_adapter",
    "C88_no_receive",
    "C88_endless_refuted",
    "C88_throw",
    "C88_append_throw"
   ],
   "note": "Part of the expected property is violated by the code: _refuted proves the violation, the other theorems what holds."
  },
  {
   "property": "C89",
   "status": "proved",
   "theorems": [
    "C89_outlives",
    "C89_process",
    "C89_replaced",
    "C89_other_calls",
    "C89_idle",
    "C89_dangling_refuted"
   ],
   "note": "Part of the expected property is violated by the code: _refuted proves the violation, the other theorems what holds."
  },
  {
   "property": "C90",
   "status": "proved",
   "theorems": [
    "C90_asks",
    "C90_programs",
    "C90_careful"
   ],
   "note": ""
  },
  {
   "property": "C91",
   "status": "proved",
   "theorems": [
    "C91_members",
    "C91_receiver",
    "C91_const_element_refuted",
    "C91_arduino_refuted",
    "C91_vrpn"
   ],
   "note": "Part of the expected property is violated by the code: _refuted proves the violation, the other theorems what holds."
  },
  {
   "property": "C92",
   "status": "proved",
   "theorems": [
    "C92_arrivals",
    "C92_nothing",
    "C92_emptied_refuted",
    "C92_reading_refuted"
   ],
   "note": "Part of the expected property is violated by the code: _refuted proves the violation, the other theorems what holds."
  },
  {
   "property": "C93",
   "status": "proved",
   "theorems": [
    "C93_bytes",
    "C93_frames",
    "C93_vector",
    "C93_i2c",
    "C93_delivered",
    "C93_between",
    "C93_phantom_refuted",
    "C93_overrun_refuted"
   ],
   "note": "Part of the expected property is violated by the code: _refuted proves the violation, the other theorems what holds."
  },
  {
   "property": "C94",
   "status": "proved",
   "theorems": [
    "C94_empties",
    "C94_needed",
    "C94_independent",
    "C94_local"
   ],
   "note": ""
  },
  {
   "property": "C95",
   "status": "proved",
   "theorems": [
    "C95_send",
    "C95_vector",
    "C95_vrpn",
    "C95_composition",
    "C95_composed",
    "C95_delivered",
    "C95_once",
    "C95_twice_refuted"
   ],
   "note": "Part of the expected property is violated by the code: _refuted proves the violation, the other theorems what holds."
  },
  {
   "property": "C96",
   "status": "proved",
   "theorems": [
    "C96_bucket",
    "C96_prompt",
    "C96_sharp"
   ],
   "note": ""
  },
  {
   "property": "C97",
   "status": "proved",
   "theorems": [
    "C97_generate",
    "C97_order",
    "C97_library",
    "C97_checkout",
    "C97_failure",
    "C97_build",
    "C97_minimal",
    "C97_agree",
    "C97_limits",
    "C97_unnamed",
    "C97_emptied_refuted",
    "C97_stale_refuted",
    "C97_queried_refuted"
   ],
   "note": "Part of the expected property is violated by the code: _refuted proves the violation, the other theorems what holds."
  },
  {
   "property": "C98",
   "status": "proved",
   "theorems": [
    "C98_missed",
    "C98_possible",
    "C98_delivered",
    "C98_weighted"
   ],
   "note": ""
  },
  {
   "property": "C99",
   "status": "proved",
   "theorems": [
    "C99_msg",
    "C99_plain",
    "C99_boost",
    "C99_builds",
    "C99_failure",
    "C99_old",
    "C99_together_refuted"
   ],
   "note": "Part of the expected property is violated by the code: _refuted proves the violation, the other theorems what holds."
  },
  {
   "property": "C100",
   "status": "proved",
   "theorems": [
    "C100_quiet",
    "C100_empty",
    "C100_size",
    "C100_index",
    "C100_pop_front",
    "C100_moved",
    "C100_moved_refuted",
    "C100_size_refuted",
    "C100_empty_refuted",
    "C100_pop_back"
   ],
   "note": "Part of the expected property is violated by the code: _refuted proves the violation, the other theorems what holds."
  },
  {
   "property": "C101",
   "status": "proved",
   "theorems": [
    "C101_quiet",
    "C101_found",
    "C101_separate",
    "C101_abort",
    "C101_abort_refuted",
    "C101_lost",
    "C101_lost_refuted",
    "C101_moved_refuted"
   ],
   "note": "Part of the expected property is violated by the code: _refuted proves the violation, the other theorems what holds."
  },
  {
   "property": "C102",
   "status": "proved",
   "theorems": [
    "C102_unknown",
    "C102_lists",
    "C102_programs",
    "C102_sources",
    "C102_coverage",
    "C102_regenerated_first",
    "C102_names_refuted",
    "C102_early_refuted"
   ],
   "note": "Part of the expected property is violated by the code: _refuted proves the violation, the other theorems what holds."
  },
  {
   "property": "C103",
   "status": "proved",
   "theorems": [
    "C103_quiet",
    "C103_separate",
    "C103_again",
    "C103_again_refuted",
    "C103_restored_refuted"
   ],
   "note": "Part of the expected property is violated by the code: _refuted proves the violation, the other theorems what holds."
  },
  {
   "property": "C104",
   "status": "proved",
   "theorems": [
    "C104_quiet",
    "C104_separate",
    "C104_invented_refuted",
    "C104_again_refuted"
   ],
   "note": "Part of the expected property is violated by the code: _refuted proves the violation, the other theorems what holds."
  },
  {
   "property": "C105",
   "status": "proved",
   "theorems": [
    "C105_quiet",
    "C105_change_separate",
    "C105_change_undefined",
    "C105_change_refuted",
    "C105_processing",
    "C105_processing_undefined",
    "C105_processing_refuted"
   ],
   "note": "Part of the expected property is violated by the code: _refuted proves the violation, the other theorems what holds."
  },
  {
   "property": "C106",
   "status": "proved",
   "theorems": [
    "C106_quiet",
    "C106_available"
   ],
   "note": ""
  }
 ]
}