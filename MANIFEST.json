{
 "claims": [
  {
   "property": "C01",
   "status": "proved",
   "theorems": [
    "C01_dispatch_terminates",
    "C01_resume_terminates"
   ],
   "note": ""
  },
  {
   "property": "C02",
   "status": "proved",
   "theorems": [
    "C02_return_values"
   ],
   "note": ""
  },
  {
   "property": "C03",
   "status": "proved",
   "theorems": [
    "C03_error_sticky"
   ],
   "note": ""
  },
  {
   "property": "C04",
   "status": "proved",
   "theorems": [
    "C04_finished_absorbing"
   ],
   "note": ""
  },
  {
   "property": "C05",
   "status": "proved",
   "theorems": [
    "C05_byte_count",
    "C05_byte_count_stream"
   ],
   "note": ""
  },
  {
   "property": "C06",
   "status": "proved",
   "theorems": [
    "C06_byte_count_url_encoded",
    "C06_byte_count_url_stream",
    "C06_byte_count_url_encoded_refuted"
   ],
   "note": "False of the code (refuted); C06_byte_count_url_encoded and C06_byte_count_url_stream are the exact counts for a call and for a stream."
  },
  {
   "property": "C07",
   "status": "proved",
   "theorems": [
    "C07_head_segmentation"
   ],
   "note": ""
  },
  {
   "property": "C08",
   "status": "proved",
   "theorems": [
    "C08_h_methods_segmentation_refuted",
    "C08_h_methods_first_nine_bytes"
   ],
   "note": "False of the code for short first segments (refuted); the whole-buffer case is part of C07 (second form of its hypothesis)."
  },
  {
   "property": "C09",
   "status": "proved",
   "theorems": [
    "C09_chunked_segmentation"
   ],
   "note": ""
  },
  {
   "property": "C10",
   "status": "proved",
   "theorems": [
    "C10_boundary_with_cr_refuted",
    "C10_long_boundary_refuted",
    "C10_multipart_segmentation"
   ],
   "note": ""
  },
  {
   "property": "C11",
   "status": "proved",
   "theorems": [
    "C11_url_encoded_segmentation"
   ],
   "note": ""
  },
  {
   "property": "C12",
   "status": "proved",
   "theorems": [
    "C12_client_progress"
   ],
   "note": ""
  },
  {
   "property": "C13",
   "status": "proved",
   "theorems": [
    "C13_no_fault",
    "C13_no_fault_client"
   ],
   "note": ""
  },
  {
   "property": "C14",
   "status": "proved",
   "theorems": [
    "C14_never_panics_refuted"
   ],
   "note": "False of the code; refuted with five witnesses."
  },
  {
   "property": "C15",
   "status": "proved",
   "theorems": [
    "C15_header_names"
   ],
   "note": ""
  },
  {
   "property": "C16",
   "status": "proved",
   "theorems": [
    "C16_header_values"
   ],
   "note": ""
  },
  {
   "property": "C17",
   "status": "proved",
   "theorems": [
    "C17_first_line_bytes"
   ],
   "note": ""
  },
  {
   "property": "C18",
   "status": "proved",
   "theorems": [
    "C18_request_exact"
   ],
   "note": ""
  },
  {
   "property": "C19",
   "status": "proved",
   "theorems": [
    "C19_response_exact"
   ],
   "note": ""
  },
  {
   "property": "C20",
   "status": "proved",
   "theorems": [
    "C20_chunked_exact"
   ],
   "note": ""
  },
  {
   "property": "C21",
   "status": "proved",
   "theorems": [
    "C21_chunk_data_at_most",
    "C21_chunk_data_exact",
    "C21_last_chunk"
   ],
   "note": ""
  },
  {
   "property": "C22",
   "status": "proved",
   "theorems": [
    "C22_zero_chunk_goes_on",
    "C22_zero_chunk_no_end",
    "C22_zero_chunk_refuted"
   ],
   "note": "False of the code; refuted."
  },
  {
   "property": "C23",
   "status": "proved",
   "theorems": [
    "C23_multipart_exact",
    "C23_multipart_exact_tame"
   ],
   "note": ""
  },
  {
   "property": "C24",
   "status": "proved",
   "theorems": [
    "C24_exact_iff",
    "C24_hidden",
    "C24_multipart_any_data_refuted"
   ],
   "note": "False of the code; refuted."
  },
  {
   "property": "C25",
   "status": "proved",
   "theorems": [
    "C25_multipart_length_exact",
    "C25_boundary_required"
   ],
   "note": ""
  },
  {
   "property": "C26",
   "status": "proved",
   "theorems": [
    "C26_url_encoded_exact",
    "C26_url_encoded_any_pairs"
   ],
   "note": ""
  },
  {
   "property": "C27",
   "status": "proved",
   "theorems": [
    "C27_truncated_escape_dropped",
    "C27_truncated_escape_refuted"
   ],
   "note": "False of the code; refuted."
  },
  {
   "property": "C28",
   "status": "proved",
   "theorems": [
    "C28_ignores_beyond",
    "C28_exact_length"
   ],
   "note": ""
  },
  {
   "property": "C29",
   "status": "proved",
   "theorems": [
    "C29_error_byte"
   ],
   "note": ""
  },
  {
   "property": "C30",
   "status": "proved",
   "theorems": [
    "C30_reset_fresh",
    "C30_init_fresh"
   ],
   "note": ""
  },
  {
   "property": "C31",
   "status": "proved",
   "theorems": [
    "C31_new_like_init_head_refuted",
    "C31_new_like_init_head",
    "C31_new_like_init_head_cuts"
   ],
   "note": "False of the code for leading whitespace (refuted); for every other stream the two cannot be told apart by any caller (C31_new_like_init_head), nor across different cuts and handlers (C31_new_like_init_head_cuts)."
  },
  {
   "property": "C32",
   "status": "proved",
   "theorems": [
    "C32_head_order",
    "C32_new_order"
   ],
   "note": ""
  },
  {
   "property": "C33",
   "status": "proved",
   "theorems": [
    "C33_terminates",
    "C33_overflow_only_short"
   ],
   "note": ""
  },
  {
   "property": "C34",
   "status": "proved",
   "theorems": [
    "C34_segmentation"
   ],
   "note": ""
  },
  {
   "property": "C35",
   "status": "proved",
   "theorems": [
    "C35_every_cut",
    "C35_stream_id_cut_refuted"
   ],
   "note": "False of the code; refuted, and the outcome of every such cut proved."
  },
  {
   "property": "C36",
   "status": "proved",
   "theorems": [
    "C36_every_cut",
    "C36_go_away_cut_refuted",
    "C36_settings_cut_refuted"
   ],
   "note": "False of the code; refuted for GOAWAY and SETTINGS: after every such cut no further input is ever reported (proved)."
  },
  {
   "property": "C37",
   "status": "proved",
   "theorems": [
    "C37_frames_exact"
   ],
   "note": ""
  },
  {
   "property": "C38",
   "status": "proved",
   "theorems": [
    "C38_accounting"
   ],
   "note": ""
  },
  {
   "property": "C39",
   "status": "proved",
   "theorems": [
    "C39_every_frame",
    "C39_long_padding_refuted"
   ],
   "note": "False of the code; refuted for both kinds of build, and the outcome proved of every such DATA frame."
  },
  {
   "property": "C40",
   "status": "proved",
   "theorems": [
    "C40_six_bytes",
    "C40_settings_size_refuted"
   ],
   "note": "False of the code; refuted, and what is read proved of every SETTINGS frame."
  },
  {
   "property": "C41",
   "status": "proved",
   "theorems": [
    "C41_identifiers",
    "C41_reserved_bits_refuted"
   ],
   "note": "Proved for frame header, GOAWAY and priority; false of the code for PUSH_PROMISE and WINDOW_UPDATE (refuted)."
  },
  {
   "property": "C42",
   "status": "proved",
   "theorems": [
    "C42_prompt",
    "C42_every_other_late",
    "C42_late_data_callback_refuted"
   ],
   "note": "Proved for frames that end with data or padding and for frames of fixed fields; false of the code for frames with empty data part (refuted, and proved late for every one of them)."
  },
  {
   "property": "C43",
   "status": "proved",
   "theorems": [
    "C43_frame_type",
    "C43_error_code",
    "C43_setting",
    "C43_flags",
    "C43_frame_format"
   ],
   "note": ""
  },
  {
   "property": "C44",
   "status": "proved",
   "theorems": [
    "C44_decode_exact",
    "C44_round_trip"
   ],
   "note": ""
  },
  {
   "property": "C45",
   "status": "proved",
   "theorems": [
    "C45_first_problem",
    "C45_fails_exactly",
    "C45_total"
   ],
   "note": ""
  },
  {
   "property": "C46",
   "status": "proved",
   "theorems": [
    "C46_plain_utf8",
    "C46_any_bytes",
    "C46_utf8_refuted",
    "C46_query_utf8_refuted",
    "C46_field_utf8_refuted"
   ],
   "note": "False of the code for decode and both iterators (refuted); proved for texts without an escape."
  },
  {
   "property": "C47",
   "status": "proved",
   "theorems": [
    "C47_query_exact"
   ],
   "note": ""
  },
  {
   "property": "C48",
   "status": "proved",
   "theorems": [
    "C48_name_escape_fails",
    "C48_name_escapes_refuted"
   ],
   "note": "False of the code: every escape in a name ends the iteration with an error (theorem and refutation)."
  },
  {
   "property": "C49",
   "status": "proved",
   "theorems": [
    "C49_query_call",
    "C49_query_ends",
    "C49_query_end",
    "C49_field_call",
    "C49_field_ends",
    "C49_field_end",
    "C49_query_fused_refuted"
   ],
   "note": "Proved; the stronger expectation that a QueryIterator is fused is refuted."
  },
  {
   "property": "C50",
   "status": "proved",
   "theorems": [
    "C50_fields"
   ],
   "note": ""
  },
  {
   "property": "C51",
   "status": "proved",
   "theorems": [
    "C51_quoted_last",
    "C51_quoted_inner",
    "C51_quoted_then",
    "C51_last_lost",
    "C51_quoted_anywhere_refuted",
    "C51_last_name_refuted",
    "C51_last_slash_refuted",
    "C51_garbage_refuted"
   ],
   "note": "Proved for the last position; false of the code elsewhere (refuted), as are three further expectations about the last field."
  },
  {
   "property": "C52",
   "status": "proved",
   "theorems": [
    "C52_chunked_order",
    "C52_multipart_order",
    "C52_url_encoded_order"
   ],
   "note": ""
  },
  {
   "property": "C53",
   "status": "proved",
   "theorems": [
    "C53_byte_count"
   ],
   "note": ""
  },
  {
   "property": "C54",
   "status": "proved",
   "theorems": [
    "C54_query_step",
    "C54_query_step_total",
    "C54_query_all"
   ],
   "note": ""
  },
  {
   "property": "C55",
   "status": "proved",
   "theorems": [
    "C55_field_step",
    "C55_field_step_total",
    "C55_field_all",
    "C55_no_panic",
    "C55_panic_refuted"
   ],
   "note": "Complete characterisation proved; absence of panics is false for byte 255 (refuted) and proved without it."
  },
  {
   "property": "C56",
   "status": "proved",
   "theorems": [
    "C56_head_accepted_iff"
   ],
   "note": ""
  },
  {
   "property": "C57",
   "status": "proved",
   "theorems": [
    "C57_chunked_accepted_iff"
   ],
   "note": ""
  },
  {
   "property": "C58",
   "status": "proved",
   "theorems": [
    "C58_multipart_accepted_iff"
   ],
   "note": ""
  },
  {
   "property": "C59",
   "status": "proved",
   "theorems": [
    "C59_url_encoded_accepted_iff"
   ],
   "note": ""
  },
  {
   "property": "C60",
   "status": "proved",
   "theorems": [
    "C60_head_verdict",
    "C60_chunked_verdict",
    "C60_multipart_verdict",
    "C60_url_encoded_verdict"
   ],
   "note": ""
  },
  {
   "property": "C61",
   "status": "proved",
   "theorems": [
    "C61_reset_fresh",
    "C61_frame_fresh"
   ],
   "note": ""
  },
  {
   "property": "C62",
   "status": "proved",
   "theorems": [
    "C62_any_stream",
    "C62_well_formed"
   ],
   "note": ""
  },
  {
   "property": "C63",
   "status": "proved",
   "theorems": [
    "C63_head_understood",
    "C63_chunked_understood",
    "C63_multipart_understood",
    "C63_url_encoded_understood"
   ],
   "note": ""
  },
  {
   "property": "C64",
   "status": "proved",
   "theorems": [
    "C64_http1_pause",
    "C64_http2_pause"
   ],
   "note": ""
  },
  {
   "property": "C65",
   "status": "proved",
   "theorems": [
    "C65_http1_errors",
    "C65_http2_error",
    "C65_util_errors",
    "C65_success",
    "C65_frame_type",
    "C65_error_code",
    "C65_setting",
    "C65_flags",
    "C65_frame_format",
    "C65_distinct",
    "C65_frame_format_distinct",
    "C65_distinct_refuted"
   ],
   "note": "Proved; the exceptions named in the statement are refutations of plain injectivity."
  },
  {
   "property": "C66",
   "status": "proved",
   "theorems": [
    "C66_request_new",
    "C66_response_new",
    "C66_request",
    "C66_response",
    "C66_so_far",
    "C66_nameless_refuted"
   ],
   "note": "Proved; C66_nameless_refuted shows the exception named in the statement."
  },
  {
   "property": "C67",
   "status": "proved",
   "theorems": [
    "C67_every_stream",
    "C67_extends"
   ],
   "note": ""
  },
  {
   "property": "C68",
   "status": "proved",
   "theorems": [
    "C68_every_cut_understood",
    "C68_new_understood",
    "C68_cuts_that_matter"
   ],
   "note": ""
  },
  {
   "property": "C69",
   "status": "proved",
   "theorems": [
    "C69_data_in_piece",
    "C69_calls_of_pieces",
    "C69_same_calls"
   ],
   "note": ""
  },
  {
   "property": "C70",
   "status": "proved",
   "theorems": [
    "C70_same_calls",
    "C70_same_parser"
   ],
   "note": ""
  },
  {
   "property": "C71",
   "status": "proved",
   "theorems": [
    "C71_data_in_piece",
    "C71_calls_of_pieces"
   ],
   "note": ""
  },
  {
   "property": "C72",
   "status": "proved",
   "theorems": [
    "C72_connection",
    "C72_connection_count"
   ],
   "note": ""
  },
  {
   "property": "C73",
   "status": "proved",
   "theorems": [
    "C73_body_is_query",
    "C73_query_is_decode",
    "C73_body_is_decode",
    "C73_unconditional_refuted"
   ],
   "note": ""
  },
  {
   "property": "C74",
   "status": "proved",
   "theorems": [
    "C74_head_place",
    "C74_cut_head_place",
    "C74_new_place",
    "C74_chunked_place",
    "C74_url_encoded_place",
    "C74_multipart_place",
    "C74_boundary_place_refuted"
   ],
   "note": ""
  },
  {
   "property": "C75",
   "status": "proved",
   "theorems": [
    "C75_one_call",
    "C75_calls",
    "C75_message"
   ],
   "note": ""
  },
  {
   "property": "C76",
   "status": "proved",
   "theorems": [
    "C76_one_call",
    "C76_calls",
    "C76_connection"
   ],
   "note": ""
  },
  {
   "property": "C77",
   "status": "proved",
   "theorems": [
    "C77_head",
    "C77_cut_head",
    "C77_new_head",
    "C77_chunked",
    "C77_url_encoded",
    "C77_multipart",
    "C77_head_bytewise",
    "C77_cut_head_bytewise",
    "C77_new_bytewise",
    "C77_chunked_bytewise",
    "C77_url_encoded_bytewise",
    "C77_multipart_bytewise"
   ],
   "note": ""
  },
  {
   "property": "C78",
   "status": "proved",
   "theorems": [
    "C78_program_understood",
    "C78_cuts_do_not_matter"
   ],
   "note": ""
  },
  {
   "property": "C79",
   "status": "proved",
   "theorems": [
    "C79_head",
    "C79_head_plain",
    "C79_chunked",
    "C79_multipart",
    "C79_url_encoded",
    "C79_url_encoded_plain"
   ],
   "note": ""
  },
  {
   "property": "C80",
   "status": "proved",
   "theorems": [
    "C80_passed_on",
    "C80_one_piece",
    "C80_well_formed"
   ],
   "note": ""
  },
  {
   "property": "C81",
   "status": "proved",
   "theorems": [
    "C81_head",
    "C81_chunked",
    "C81_multipart",
    "C81_url_encoded",
    "C81_heads_agree",
    "C81_chunked_agree",
    "C81_multipart_agree",
    "C81_url_encoded_agree"
   ],
   "note": ""
  },
  {
   "property": "C82",
   "status": "proved",
   "theorems": [
    "C82_boundary_unseen",
    "C82_length_unseen",
    "C82_chunked_length_refuted",
    "C82_no_boundary",
    "C82_no_length"
   ],
   "note": ""
  },
  {
   "property": "C83",
   "status": "proved",
   "theorems": [
    "C83_form_received",
    "C83_parameters",
    "C83_file_upload_refuted",
    "C83_files"
   ],
   "note": ""
  },
  {
   "property": "C84",
   "status": "proved",
   "theorems": [
    "C84_post_received",
    "C84_get_received",
    "C84_plain_names",
    "C84_get_refuted"
   ],
   "note": ""
  },
  {
   "property": "C85",
   "status": "proved",
   "theorems": [
    "C85_streams_heard",
    "C85_data",
    "C85_any_cut_refuted"
   ],
   "note": ""
  },
  {
   "property": "C86",
   "status": "proved",
   "theorems": [
    "C86_requests_served",
    "C86_capitals_refuted",
    "C86_capitals"
   ],
   "note": ""
  },
  {
   "property": "C87",
   "status": "proved",
   "theorems": [
    "C87_responses_received",
    "C87_reason_refuted",
    "C87_bad_reason"
   ],
   "note": ""
  },
  {
   "property": "C88",
   "status": "proved",
   "theorems": [
    "C88_values_refuted",
    "C88_request_value",
    "C88_response_value",
    "C88_request_stops",
    "C88_response_stops",
    "C88_space_refuted",
    "C88_space"
   ],
   "note": ""
  },
  {
   "property": "C89",
   "status": "proved",
   "theorems": [
    "C89_methods_refuted",
    "C89_methods"
   ],
   "note": ""
  },
  {
   "property": "C90",
   "status": "proved",
   "theorems": [
    "C90_sizes_refuted",
    "C90_sizes",
    "C90_digit"
   ],
   "note": ""
  },
  {
   "property": "C91",
   "status": "proved",
   "theorems": [
    "C91_framing_refuted",
    "C91_delimiter_first",
    "C91_preamble",
    "C91_padding"
   ],
   "note": ""
  },
  {
   "property": "C92",
   "status": "proved",
   "theorems": [
    "C92_spaces_refuted",
    "C92_size_followed",
    "C92_name_followed",
    "C92_value_space"
   ],
   "note": ""
  },
  {
   "property": "C93",
   "status": "proved",
   "theorems": [
    "C93_names_refuted",
    "C93_empty_name",
    "C93_request_name",
    "C93_response_name",
    "C93_trailer_name",
    "C93_part_name"
   ],
   "note": ""
  },
  {
   "property": "C94",
   "status": "proved",
   "theorems": [
    "C94_request_field",
    "C94_response_field",
    "C94_request_empty_line",
    "C94_response_empty_line",
    "C94_request_first_line",
    "C94_response_first_line",
    "C94_request_bare_lf",
    "C94_response_bare_lf",
    "C94_chunk_line",
    "C94_chunk_data",
    "C94_last_chunk_line",
    "C94_trailers_empty_line"
   ],
   "note": ""
  }
 ]
}