{
 "claims": [
  {
   "property": "C01",
   "status": "proved",
   "theorems": [
    "C01_literal_router_is_a_map"
   ],
   "note": ""
  },
  {
   "property": "C02",
   "status": "proved",
   "theorems": [
    "C02_routing_sound"
   ],
   "note": ""
  },
  {
   "property": "C03",
   "status": "proved",
   "theorems": [
    "C03_unambiguous_route_found"
   ],
   "note": ""
  },
  {
   "property": "C04",
   "status": "partial",
   "theorems": [
    "C04_registered_routes_reachable_refuted",
    "C04_registered_routes_reachable_partial"
   ],
   "note": "The statement is false of the code: refuted by C04_registered_routes_reachable_refuted. Holds when every registration overlapping the path fits it entirely and answers the method (_partial)."
  },
  {
   "property": "C05",
   "status": "proved",
   "theorems": [
    "C05_reference_semantics"
   ],
   "note": ""
  },
  {
   "property": "C06",
   "status": "partial",
   "theorems": [
    "C06_later_registrations_do_not_disturb_refuted",
    "C06_later_registrations_do_not_disturb_partial"
   ],
   "note": "The statement is false of the code: refuted by C06_later_registrations_do_not_disturb_refuted. A later longer literal route can hide a routed request. Holds for later routes starting with a parameter (_partial) and for non-overlapping ones (C77)."
  },
  {
   "property": "C07",
   "status": "proved",
   "theorems": [
    "C07_every_path",
    "C07_every_path_has_segments",
    "C07_segments_exactly",
    "C07_white_space",
    "C07_paths_normalised",
    "C07_root_paths",
    "C07_root_first_no_slash_inside"
   ],
   "note": ""
  },
  {
   "property": "C08",
   "status": "proved",
   "theorems": [
    "C08_combined_methods"
   ],
   "note": ""
  },
  {
   "property": "C09",
   "status": "proved",
   "theorems": [
    "C09_parameters_never_leak"
   ],
   "note": ""
  },
  {
   "property": "C10",
   "status": "proved",
   "theorems": [
    "C10_find_always_returns",
    "C10_bounded_steps"
   ],
   "note": ""
  },
  {
   "property": "C11",
   "status": "proved",
   "theorems": [
    "C11_returned_set_was_registered"
   ],
   "note": ""
  },
  {
   "property": "C12",
   "status": "partial",
   "theorems": [
    "C12_soundness_any_route_refuted",
    "C12_soundness_any_route_partial"
   ],
   "note": "The statement is false of the code: refuted by C12_soundness_any_route_refuted. Routes with an empty segment can overwrite handler sets of other routes; what still holds is C11."
  },
  {
   "property": "C13",
   "status": "proved",
   "theorems": [
    "C13_regexp_lookup"
   ],
   "note": ""
  },
  {
   "property": "C14",
   "status": "partial",
   "theorems": [
    "C14_regexp_routing_deterministic_refuted",
    "C14_regexp_routing_deterministic_partial",
    "C14_possible_answers",
    "C14_deterministic_exactly"
   ],
   "note": "The statement is false of the code: refuted by C14_regexp_routing_deterministic_refuted. "
  },
  {
   "property": "C15",
   "status": "proved",
   "theorems": [
    "C15_path_routes_first"
   ],
   "note": ""
  },
  {
   "property": "C16",
   "status": "proved",
   "theorems": [
    "C16_regexp_methods"
   ],
   "note": ""
  },
  {
   "property": "C17",
   "status": "partial",
   "theorems": [
    "C17_no_set_panics",
    "C17_optional_set_refuted",
    "C17_with_set_partial"
   ],
   "note": "The statement is false of the code: refuted by C17_optional_set_refuted. Every call without a set panics (C17_no_set_panics); holds when a set is given."
  },
  {
   "property": "C18",
   "status": "proved",
   "theorems": [
    "C18_pipeline_order"
   ],
   "note": ""
  },
  {
   "property": "C19",
   "status": "proved",
   "theorems": [
    "C19_full_pipeline"
   ],
   "note": ""
  },
  {
   "property": "C20",
   "status": "proved",
   "theorems": [
    "C20_first_error"
   ],
   "note": ""
  },
  {
   "property": "C21",
   "status": "proved",
   "theorems": [
    "C21_stop_is_last"
   ],
   "note": ""
  },
  {
   "property": "C22",
   "status": "partial",
   "theorems": [
    "C22_stop_in_init_refuted",
    "C22_stop_in_init_partial",
    "C22_exactly_one_more"
   ],
   "note": "The statement is false of the code: refuted by C22_stop_in_init_refuted. "
  },
  {
   "property": "C23",
   "status": "proved",
   "theorems": [
    "C23_skip_main"
   ],
   "note": ""
  },
  {
   "property": "C24",
   "status": "proved",
   "theorems": [
    "C24_last_handler"
   ],
   "note": ""
  },
  {
   "property": "C25",
   "status": "proved",
   "theorems": [
    "C25_abort"
   ],
   "note": ""
  },
  {
   "property": "C26",
   "status": "partial",
   "theorems": [
    "C26_ctx_live_in_last_refuted",
    "C26_ctx_live_partial"
   ],
   "note": "The statement is false of the code: refuted by C26_ctx_live_in_last_refuted. "
  },
  {
   "property": "C27",
   "status": "proved",
   "theorems": [
    "C27_debug_names",
    "C27_request_debug_names"
   ],
   "note": ""
  },
  {
   "property": "C28",
   "status": "proved",
   "theorems": [
    "C28_no_route_no_handler"
   ],
   "note": ""
  },
  {
   "property": "C29",
   "status": "proved",
   "theorems": [
    "C29_router_route_snapshot",
    "C29_router_route_registers"
   ],
   "note": ""
  },
  {
   "property": "C30",
   "status": "partial",
   "theorems": [
    "C30_set_route_snapshot_refuted",
    "C30_set_route_snapshot_partial"
   ],
   "note": "Refuted with the Go runtime's growth policy when the program clones the handler set; proved for programs that never call HandlerSet.Clone."
  },
  {
   "property": "C31",
   "status": "partial",
   "theorems": [
    "C31_clone_independent_refuted",
    "C31_set_clone_independent_refuted",
    "C31_router_clone_partial",
    "C31_set_clone_partial",
    "C31_router_before_partial"
   ],
   "note": "Refuted (LastAfter / After on both share spare capacity). Proved when only one of original and clone is operated on afterwards."
  },
  {
   "property": "C32",
   "status": "proved",
   "theorems": [
    "C32_router_lists",
    "C32_set_lists",
    "C32_last_and_main"
   ],
   "note": ""
  },
  {
   "property": "C33",
   "status": "proved",
   "theorems": [
    "C33_refused",
    "C33_admitted",
    "C33_not_selected",
    "C33_configured",
    "C33_concurrent"
   ],
   "note": ""
  },
  {
   "property": "C34",
   "status": "partial",
   "theorems": [
    "C34_unknown_user_admitted",
    "C34_only_listed_users_refuted",
    "C34_only_listed_users_partial"
   ],
   "note": "The statement is false of the code: refuted by C34_only_listed_users_refuted. An unlisted user with an empty password is admitted (C34_unknown_user_admitted); holds for listed users."
  },
  {
   "property": "C35",
   "status": "proved",
   "theorems": [
    "C35_admitted_iff",
    "C35_nonempty_password_listed",
    "C35_carries_unique"
   ],
   "note": ""
  },
  {
   "property": "C36",
   "status": "proved",
   "theorems": [
    "C36_correct_credentials"
   ],
   "note": ""
  },
  {
   "property": "C37",
   "status": "partial",
   "theorems": [
    "C37_colon_password_refuted",
    "C37_other_direction",
    "C37_colon_password_partial",
    "C37_colon_entry_unusable_partial"
   ],
   "note": "The statement is false of the code: refuted by C37_colon_password_refuted. Only the part of the password before its first colon is compared; entries whose password has a colon can never be used."
  },
  {
   "property": "C38",
   "status": "proved",
   "theorems": [
    "C38_peek_param",
    "C38_peek_multi_param",
    "C38_peek_multi_string_param"
   ],
   "note": ""
  },
  {
   "property": "C39",
   "status": "partial",
   "theorems": [
    "C39_first_of_multi_refuted",
    "C39_first_of_multi_partial",
    "C39_first_of_multi_exactly"
   ],
   "note": "The statement is false of the code: refuted by C39_first_of_multi_refuted. An empty URL value makes PeekParam fall through to the next source while PeekMultiParam stops there."
  },
  {
   "property": "C40",
   "status": "proved",
   "theorems": [
    "C40_bool_param"
   ],
   "note": ""
  },
  {
   "property": "C41",
   "status": "proved",
   "theorems": [
    "C41_squeeze_no_loss"
   ],
   "note": ""
  },
  {
   "property": "C42",
   "status": "partial",
   "theorems": [
    "C42_squeeze_order_refuted",
    "C42_squeeze_order_partial"
   ],
   "note": "The statement is false of the code: refuted by C42_squeeze_order_refuted. The second value comes first; exactly the first two are exchanged."
  },
  {
   "property": "C43",
   "status": "proved",
   "theorems": [
    "C43_context_data",
    "C43_set_get"
   ],
   "note": ""
  },
  {
   "property": "C44",
   "status": "proved",
   "theorems": [
    "C44_host_total",
    "C44_cookie_domain"
   ],
   "note": ""
  },
  {
   "property": "C45",
   "status": "proved",
   "theorems": [
    "C45_names_valid",
    "C45_handlers"
   ],
   "note": ""
  },
  {
   "property": "C46",
   "status": "partial",
   "theorems": [
    "C46_mount_refuted",
    "C46_mount_partial"
   ],
   "note": "The statement is false of the code: refuted by C46_mount_refuted. SetPath decodes percent escapes a second time, so /static/%252e%252e/x leaves the file path. Holds when neither the decoded request path nor the file path contains an escape (and the file path no '..')."
  },
  {
   "property": "C47",
   "status": "proved",
   "theorems": [
    "C47_directory_forbidden",
    "C47_listing_independent",
    "C47_serve_file_independent"
   ],
   "note": ""
  },
  {
   "property": "C48",
   "status": "proved",
   "theorems": [
    "C48_ranges_inside",
    "C48_no_overflow"
   ],
   "note": ""
  },
  {
   "property": "C49",
   "status": "proved",
   "theorems": [
    "C49_range_specs",
    "C49_other_units_rejected",
    "C49_no_header"
   ],
   "note": ""
  },
  {
   "property": "C50",
   "status": "proved",
   "theorems": [
    "C50_single_range"
   ],
   "note": ""
  },
  {
   "property": "C51",
   "status": "proved",
   "theorems": [
    "C51_whole_content",
    "C51_head"
   ],
   "note": ""
  },
  {
   "property": "C52",
   "status": "proved",
   "theorems": [
    "C52_no_overlap",
    "C52_malformed"
   ],
   "note": ""
  },
  {
   "property": "C53",
   "status": "proved",
   "theorems": [
    "C53_multi_range"
   ],
   "note": "For equally long boundaries (mime/multipart draws 30 random bytes) and a body below 2^63 bytes."
  },
  {
   "property": "C54",
   "status": "proved",
   "theorems": [
    "C54_decision_order",
    "C54_not_modified"
   ],
   "note": ""
  },
  {
   "property": "C55",
   "status": "proved",
   "theorems": [
    "C55_if_match",
    "C55_if_none_match",
    "C55_etag_lists",
    "C55_star"
   ],
   "note": ""
  },
  {
   "property": "C56",
   "status": "proved",
   "theorems": [
    "C56_terminates",
    "C56_preconditions_terminate"
   ],
   "note": ""
  },
  {
   "property": "C57",
   "status": "proved",
   "theorems": [
    "C57_total",
    "C57_first_512"
   ],
   "note": ""
  },
  {
   "property": "C58",
   "status": "partial",
   "theorems": [
    "C58_content_type_refuted",
    "C58_content_type_partial"
   ],
   "note": "The statement is false of the code: refuted by C58_content_type_refuted. serveContent looks at the request's Content-Type instead of the response's; holds for requests that carry one."
  },
  {
   "property": "C59",
   "status": "partial",
   "theorems": [
    "C59_redirect_refuted",
    "C59_redirect_partial",
    "C59_never_only_the_query"
   ],
   "note": "The statement is false of the code: refuted by C59_redirect_refuted. The query part is '?' followed by the whole request URI, path included, and is there even without a query. Proved: 301, nothing opened, Location './?' and the URI."
  },
  {
   "property": "C60",
   "status": "partial",
   "theorems": [
    "C60_path_restored_refuted",
    "C60_path_restored_partial"
   ],
   "note": "The statement is false of the code: refuted by C60_path_restored_refuted. Decoded a second time when the decoded path still contains %XX; holds otherwise."
  },
  {
   "property": "C61",
   "status": "proved",
   "theorems": [
    "C61_dir_confined",
    "C61_serve_file_opens"
   ],
   "note": ""
  },
  {
   "property": "C62",
   "status": "proved",
   "theorems": [
    "C62_dotdot_rejected"
   ],
   "note": ""
  },
  {
   "property": "C63",
   "status": "proved",
   "theorems": [
    "C63_open_errors",
    "C63_serve_file_errors"
   ],
   "note": ""
  },
  {
   "property": "C64",
   "status": "proved",
   "theorems": [
    "C64_trim_string",
    "C64_trimmed_unique",
    "C64_agree_idempotent",
    "C64_letters"
   ],
   "note": ""
  },
  {
   "property": "C65",
   "status": "proved",
   "theorems": [
    "C65_string",
    "C65_parse",
    "C65_round_trip"
   ],
   "note": "Outside ASCII the Unicode tables decide (U+0130 lower-cases to i), see C65_non_ascii."
  },
  {
   "property": "C66",
   "status": "proved",
   "theorems": [
    "C66_threshold",
    "C66_nil_writer",
    "C66_named"
   ],
   "note": ""
  },
  {
   "property": "C67",
   "status": "partial",
   "theorems": [
    "C67_level_field_partial",
    "C67_level_field_refuted"
   ],
   "note": "The statement is false of the code: refuted by C67_level_field_refuted. The field holds the logger's configured level, whatever level was logged; right for calls at that level."
  },
  {
   "property": "C68",
   "status": "partial",
   "theorems": [
    "C68_rename_partial",
    "C68_first_and_same",
    "C68_rename_refuted",
    "C68_unknown_key"
   ],
   "note": "The statement is false of the code: refuted by C68_rename_refuted. The first renaming leaves an existing field under the old name; renaming to the current name deletes it (C68_first_and_same). Holds for later renamings to a new name."
  },
  {
   "property": "C69",
   "status": "proved",
   "theorems": [
    "C69_config_isolated",
    "C69_logger_isolated",
    "C69_copies"
   ],
   "note": ""
  },
  {
   "property": "C70",
   "status": "proved",
   "theorems": [
    "C70_errors_accumulate"
   ],
   "note": ""
  },
  {
   "property": "C71",
   "status": "proved",
   "theorems": [
    "C71_one_shutdown",
    "C71_stable"
   ],
   "note": ""
  },
  {
   "property": "C72",
   "status": "partial",
   "theorems": [
    "C72_result",
    "C72_first_error",
    "C72_serve_failure",
    "C72_cancel_refuted",
    "C72_returns_partial",
    "C72_stays_returned"
   ],
   "note": "Proved: Run returns only after both goroutines ended, with the first error (C72_result, C72_first_error); a failing serve makes Run return that error (C72_serve_failure). Cancellation leading to a return is refuted (C72_cancel_refuted): a shutdown that comes before Serve has registered its listener is lost; proved when the listener is registered first (C72_returns_partial)."
  },
  {
   "property": "C73",
   "status": "partial",
   "theorems": [
    "C73_refuted",
    "C73_waits",
    "C73_returns_partial"
   ],
   "note": "Refuted for every schedule: without cancellation, signal or serve error Run never returns, whatever Shutdown does (C73_refuted, C73_waits); with cancellation or a signal in addition it returns (C73_returns_partial)."
  },
  {
   "property": "C74",
   "status": "proved",
   "theorems": [
    "C74_address",
    "C74_environment"
   ],
   "note": ""
  },
  {
   "property": "C75",
   "status": "partial",
   "theorems": [
    "C75_add_partial",
    "C75_find_partial",
    "C75_lookups_race",
    "C75_refuted",
    "C75_reregistration_races",
    "C75_regexp_races",
    "C75_writes_listed",
    "C75_regexp_writes_listed",
    "C75_listed_writes_happen",
    "C75_lookup_races_exactly"
   ],
   "note": "Refuted: every lookup of a non-root path races with some registration (C75_lookups_race, C75_reregistration_races), regexp routes have no lock (C75_regexp_races). Proved race-free: registrations among themselves and with root lookups, and lookups among themselves. Locations: Children and Handlers of each node, the regexp maps."
  },
  {
   "property": "C76",
   "status": "partial",
   "theorems": [
    "C76_get",
    "C76_by_name_refuted",
    "C76_by_name_partial",
    "C76_by_name_panics_partial"
   ],
   "note": "The statement is false of the code: refuted by C76_by_name_refuted. Get is right; ByName panics on an entry with an empty value list, and only then."
  },
  {
   "property": "C77",
   "status": "proved",
   "theorems": [
    "C77_unrelated_registration_changes_nothing"
   ],
   "note": ""
  },
  {
   "property": "C78",
   "status": "proved",
   "theorems": [
    "C78_cookie_value"
   ],
   "note": ""
  },
  {
   "property": "C79",
   "status": "partial",
   "theorems": [
    "C79_every_206_partial",
    "C79_partial_content_refuted",
    "C79_partial_content_partial"
   ],
   "note": "The statement is false of the code: refuted by C79_partial_content_refuted. bytes=-0 yields an empty 206; holds without zero-length suffixes on non-empty contents. C79_every_206_partial covers every 206, multipart included: it carries at least one byte of the content unless the content is empty or the header asks for a zero-length suffix."
  },
  {
   "property": "C80",
   "status": "partial",
   "theorems": [
    "C80_malformed_refuted",
    "C80_accepted_headers_partial",
    "C80_every_header"
   ],
   "note": "The statement is false of the code: refuted by C80_malformed_refuted. Signs, '-0' as end position, and anything after the '-' of a spec starting beyond the content are accepted; the partial theorem gives the exact accepted language and C80_every_header the exact answer for every header."
  },
  {
   "property": "C81",
   "status": "proved",
   "theorems": [
    "C81_html_exact"
   ],
   "note": ""
  },
  {
   "property": "C82",
   "status": "proved",
   "theorems": [
    "C82_plain_text"
   ],
   "note": ""
  },
  {
   "property": "C83",
   "status": "proved",
   "theorems": [
    "C83_total",
    "C83_negative_size"
   ],
   "note": ""
  },
  {
   "property": "C84",
   "status": "proved",
   "theorems": [
    "C84_file_server_answers",
    "C84_handlers_answer"
   ],
   "note": ""
  },
  {
   "property": "C85",
   "status": "partial",
   "theorems": [
    "C85_message_partial",
    "C85_message_refuted",
    "C85_message_key_names_error"
   ],
   "note": "The statement is false of the code: refuted by C85_message_refuted. MessageKey renames the error field instead (C85_message_key_names_error); Logf always writes 'message'."
  },
  {
   "property": "C86",
   "status": "proved",
   "theorems": [
    "C86_sniff_table",
    "C86_unique"
   ],
   "note": ""
  },
  {
   "property": "C87",
   "status": "proved",
   "theorems": [
    "C87_extension_unique",
    "C87_type_by_extension"
   ],
   "note": ""
  },
  {
   "property": "C88",
   "status": "partial",
   "theorems": [
    "C88_static_file_partial",
    "C88_static_embed_partial",
    "C88_fix_static_partial",
    "C88_whole_file_partial",
    "C88_fix_index_redirect",
    "C88_index_redirect",
    "C88_mount_refuted"
   ],
   "note": "index.html is never served: the mount answers a redirect to ./ (C88_mount_refuted, C88_index_redirect). Otherwise proved for paths without a second layer of percent escapes."
  },
  {
   "property": "C89",
   "status": "partial",
   "theorems": [
    "C89_sent_value_refuted",
    "C89_sent_value_partial",
    "C89_no_attributes",
    "C89_cookies_get"
   ],
   "note": "The statement is false of the code: refuted by C89_sent_value_refuted. The value is parsed as a cookie once more, so everything up to its first '=' is lost; exact answer given for all values."
  },
  {
   "property": "C90",
   "status": "partial",
   "theorems": [
    "C90_read_back_refuted",
    "C90_read_back_partial"
   ],
   "note": "The statement is false of the code: refuted by C90_read_back_refuted. The value stays query-escaped; equal for values of letters, digits and -_.~ ; an empty value is 'not found'."
  },
  {
   "property": "C91",
   "status": "proved",
   "theorems": [
    "C91_fields"
   ],
   "note": ""
  },
  {
   "property": "C92",
   "status": "proved",
   "theorems": [
    "C92_isolation",
    "C92_final"
   ],
   "note": ""
  },
  {
   "property": "C93",
   "status": "partial",
   "theorems": [
    "C93_partial",
    "C93_refuted",
    "C93_weak_refuted"
   ],
   "note": "The parameter object goes back to fasthttp's pool when runHTTP returns: afterwards the Context sees no parameters or those of a request being handled at that moment (C93_partial); both forms of the claim refuted."
  },
  {
   "property": "C94",
   "status": "proved",
   "theorems": [
    "C94_data"
   ],
   "note": ""
  },
  {
   "property": "C95",
   "status": "proved",
   "theorems": [
    "C95_response"
   ],
   "note": ""
  },
  {
   "property": "C96",
   "status": "proved",
   "theorems": [
    "C96_params"
   ],
   "note": ""
  },
  {
   "property": "C97",
   "status": "proved",
   "theorems": [
    "C97_pipeline",
    "C97_order"
   ],
   "note": ""
  },
  {
   "property": "C98",
   "status": "proved",
   "theorems": [
    "C98_every_request_ends",
    "C98_goes_on"
   ],
   "note": ""
  },
  {
   "property": "C99",
   "status": "partial",
   "theorems": [
    "C99_answer_has_claimant",
    "C99_mounted_path_answered",
    "C99_mount_partial",
    "C99_download_file_partial",
    "C99_download_embed_partial",
    "C99_unreachable_mounts",
    "C99_mount_refuted"
   ],
   "note": "Refuted: the mount point is used as a regular expression, so a mount at /v1.0 answers /v1x0/a too (C99_mount_refuted); a mount point ending in a slash or not beginning with one answers nothing (C99_unreachable_mounts). Proved exactly for mount points without special characters, with arbitrary other registrations, and end to end to the file's bytes."
  },
  {
   "property": "C100",
   "status": "partial",
   "theorems": [
    "C100_fixed_file_partial",
    "C100_other_methods_partial",
    "C100_fixed_file_refuted"
   ],
   "note": "Refuted: registered for GET and POST, so HEAD is 404 (C100_fixed_file_refuted). Proved for GET and POST."
  },
  {
   "property": "C101",
   "status": "partial",
   "theorems": [
    "C101_loggers_can_be_shared_refuted",
    "C101_clash_table_exact",
    "C101_unlisted_calls_share_a_logger_partial",
    "C101_config_clash_table_exact",
    "C101_unlisted_calls_share_a_config_partial",
    "C101_collecting_is_safe",
    "C101_effects_are_listed"
   ],
   "note": "Refuted: e.g. two goroutines that print with one Logger race on its field map (Logf writes it without the lock). The table of racing pairs of methods is exact, and goroutines avoiding them never race; the listed writes cover every effect of the sequential model (C101_effects_are_listed)."
  },
  {
   "property": "C102",
   "status": "partial",
   "theorems": [
    "C102_settings_can_change_while_serving_refuted",
    "C102_name_and_writer_can_change_partial",
    "C102_other_settings_race",
    "C102_clash_table_exact",
    "C102_unlisted_calls_are_safe"
   ],
   "note": "Refuted, e.g. for SetLogLevel; SetServerName and SetLoggerWriter are the only safe setters (C102_other_settings_race is an equivalence); requests do not race with each other."
  },
  {
   "property": "C103",
   "status": "partial",
   "theorems": [
    "C103_context_methods_from_goroutines_refuted",
    "C103_stop_from_a_goroutine_races",
    "C103_clash_table_exact",
    "C103_unlisted_calls_are_safe_partial",
    "C103_always_safe"
   ],
   "note": "Refuted: PeekParam parses the query at the first use; Stop from a goroutine races with the pipeline. Exact table of racing pairs; Ctx, Logger, Debugf, EGGo safe with anything but SetLogger and EGSetLimit."
  },
  {
   "property": "C104",
   "status": "proved",
   "theorems": [
    "C104_no_deadlock",
    "C104_writer_that_logs_deadlocks"
   ],
   "note": "For all call sequences of any number of goroutines, by a lock order and a decreasing measure. The proviso is needed: C104_writer_that_logs_deadlocks."
  },
  {
   "property": "C105",
   "status": "partial",
   "theorems": [
    "C105_gone_before_last_partial",
    "C105_gone_at_return_partial",
    "C105_each_condition_matters",
    "C105_goroutines_outlive_refuted"
   ],
   "note": "Refuted; the three exceptions are each shown to be needed (C105_each_condition_matters), and without them all goroutines are gone at return."
  },
  {
   "property": "C106",
   "status": "proved",
   "theorems": [
    "C106_ctx_done_exactly",
    "C106_woken_only_then",
    "C106_done_after_return",
    "C106_waiter_is_woken"
   ],
   "note": ""
  },
  {
   "property": "C107",
   "status": "proved",
   "theorems": [
    "C107_limit_holds",
    "C107_refused_exactly",
    "C107_leaving_never_blocks",
    "C107_late_limit_hangs"
   ],
   "note": "Under the condition errgroup documents; C107_late_limit_hangs shows what happens otherwise."
  },
  {
   "property": "C108",
   "status": "proved",
   "theorems": [
    "C108_last_gets_both_errors",
    "C108_result"
   ],
   "note": ""
  },
  {
   "property": "C109",
   "status": "partial",
   "theorems": [
    "C109_no_endless_request",
    "C109_requests_get_stuck_refuted",
    "C109_only_waits_for_context_partial",
    "C109_ended_context_means_progress_partial",
    "C109_other_ways_to_hang"
   ],
   "note": "No endless run: for all programs. Getting stuck: refuted (goroutine waiting for Ctx(); limit 0; nested EGGo at the limit; EGWait in a goroutine). Partial: without these a request only waits for Ctx(), and goes on once that is done."
  },
  {
   "property": "C110",
   "status": "proved",
   "theorems": [
    "C110_order",
    "C110_start_conditions",
    "C110_skip_main",
    "C110_all_called"
   ],
   "note": ""
  },
  {
   "property": "C111",
   "status": "partial",
   "theorems": [
    "C111_last_runs_after_abort_refuted",
    "C111_abort_in_time_partial"
   ],
   "note": "Refuted by a goroutine that aborts while the request is in EGWait; the in-time version is proved."
  },
  {
   "property": "C112",
   "status": "proved",
   "theorems": [
    "C112_flags_exact"
   ],
   "note": ""
  },
  {
   "property": "C113",
   "status": "partial",
   "theorems": [
    "C113_cannot_delete",
    "C113_received_refuted",
    "C113_received_partial",
    "C113_path_is_rewritten"
   ],
   "note": "Refuted for negative ages (C113_cannot_delete: same bytes as age 0). Proved for ages >= 0 and paths without escapes or dot elements; C113_path_is_rewritten says what happens to other paths."
  },
  {
   "property": "C114",
   "status": "partial",
   "theorems": [
    "C114_every_call_refuted",
    "C114_headers_partial",
    "C114_every_name_has_a_last_call",
    "C114_names"
   ],
   "note": "Refuted: a later call of the same name replaces the header even if path or domain differ. The headers are given exactly for all call sequences."
  },
  {
   "property": "C115",
   "status": "partial",
   "theorems": [
    "C115_challenge_refuted",
    "C115_challenge_partial",
    "C115_one_challenge"
   ],
   "note": "Refuted for texts with quotes, backslashes or line breaks; the partial theorem is an equivalence."
  },
  {
   "property": "C116",
   "status": "partial",
   "theorems": [
    "C116_unique_refuted",
    "C116_same_path_partial",
    "C116_gap_is_exact",
    "C116_paths_partial",
    "C116_paths_collide"
   ],
   "note": "Refuted (same path in November 2023 and February 2025; also two paths at one time). The bound for the same path is exact (C116_gap_is_exact)."
  },
  {
   "property": "C117",
   "status": "partial",
   "theorems": [
    "C117_usable_refuted",
    "C117_panics_exactly_partial",
    "C117_fresh_clone_answers"
   ],
   "note": "Refuted (Stop on a fresh clone panics); the partial theorem is the exact table for every call, context and history."
  },
  {
   "property": "C118",
   "status": "proved",
   "theorems": [
    "C118_own_flags",
    "C118_cancelled",
    "C118_one_body",
    "C118_cookies"
   ],
   "note": ""
  },
  {
   "property": "C119",
   "status": "proved",
   "theorems": [
    "C119_no_endless_run",
    "C119_numbered",
    "C119_no_deadlock",
    "C119_all_can_return",
    "C119_own_logger_hangs"
   ],
   "note": "Locks as micro-operations of sync.RWMutex (a waiting writer shuts out new readers). C119_numbered is the general rule: handlers and Writers use only lower-numbered sets and loggers."
  },
  {
   "property": "C120",
   "status": "partial",
   "theorems": [
    "C120_own_set_hangs",
    "C120_modify_in_use_refuted",
    "C120_modify_from_outside_partial"
   ],
   "note": "Refuted; also two examples with sets modified only from outside or by other sets' handlers that hang. Missing from the partial theorem: handlers that modify sets or serve requests themselves."
  },
  {
   "property": "C121",
   "status": "proved",
   "theorems": [
    "C121_slow_handlers",
    "C121_only_there"
   ],
   "note": "The hypothesis that sets in use are not modified is needed (C121_needs_unmodified)."
  },
  {
   "property": "C122",
   "status": "partial",
   "theorems": [
    "C122_used_server_never_stops",
    "C122_second_run_never_stops",
    "C122_no_shutdown_gets_there",
    "C122_closed_listener_serves_nothing",
    "C122_shut_down_leaves_it_closed",
    "C122_stops_again_partial",
    "C122_refuted"
   ],
   "note": "Refuted by two whole Runs; the partial theorem covers time outs, unused servers and signals, and C122_used_server_never_stops shows that the rest never stops."
  },
  {
   "property": "C123",
   "status": "partial",
   "theorems": [
    "C123_panics_exactly",
    "C123_not_called_partial",
    "C123_refuted",
    "C123_then_unstoppable"
   ],
   "note": "Refuted; C123_panics_exactly says when it panics; partial: without such a call."
  },
  {
   "property": "C124",
   "status": "partial",
   "theorems": [
    "C124_layers",
    "C124_both_names_partial",
    "C124_one_name_refuted"
   ],
   "note": "Refuted for one name only; C124_layers gives the exact number of layers."
  },
  {
   "property": "C125",
   "status": "proved",
   "theorems": [
    "C125_as_if_alone",
    "C125_exclusive",
    "C125_pool_is_empty",
    "C125_nothing_leaks",
    "C125_all_returned",
    "C125_never_waits",
    "C125_always_ends"
   ],
   "note": ""
  },
  {
   "property": "C126",
   "status": "partial",
   "theorems": [
    "C126_objects_made",
    "C126_pool_grows",
    "C126_bounded_objects_refuted",
    "C126_pool_partial"
   ],
   "note": "The statement is false of the code: refuted by C126_bounded_objects_refuted. "
  },
  {
   "property": "C127",
   "status": "proved",
   "theorems": [
    "C127_copies",
    "C127_safe_iff"
   ],
   "note": ""
  },
  {
   "property": "C128",
   "status": "proved",
   "theorems": [
    "C128_who_answers",
    "C128_at_most_one",
    "C128_not_found"
   ],
   "note": ""
  },
  {
   "property": "C129",
   "status": "proved",
   "theorems": [
    "C129_taking_over",
    "C129_taken_over",
    "C129_still_nobody"
   ],
   "note": ""
  },
  {
   "property": "C130",
   "status": "proved",
   "theorems": [
    "C130_who_can_answer",
    "C130_who_is_ever_served"
   ],
   "note": ""
  },
  {
   "property": "C131",
   "status": "proved",
   "theorems": [
    "C131_end_to_end",
    "C131_choice",
    "C131_normal_request",
    "C131_no_route",
    "C131_refused"
   ],
   "note": ""
  },
  {
   "property": "C132",
   "status": "proved",
   "theorems": [
    "C132_bystanders"
   ],
   "note": ""
  },
  {
   "property": "C133",
   "status": "proved",
   "theorems": [
    "C133_new_route"
   ],
   "note": ""
  },
  {
   "property": "C134",
   "status": "proved",
   "theorems": [
    "C134_directory_mount",
    "C134_embedded_mount",
    "C134_fixed_file"
   ],
   "note": ""
  },
  {
   "property": "C135",
   "status": "proved",
   "theorems": [
    "C135_path_afterwards",
    "C135_kept_exactly"
   ],
   "note": ""
  },
  {
   "property": "C136",
   "status": "proved",
   "theorems": [
    "C136_every_file_exposed",
    "C136_every_file_downloadable"
   ],
   "note": ""
  },
  {
   "property": "C137",
   "status": "proved",
   "theorems": [
    "C137_dotted_mount",
    "C137_remainder",
    "C137_below_included"
   ],
   "note": ""
  },
  {
   "property": "C138",
   "status": "proved",
   "theorems": [
    "C138_loggers_are_values"
   ],
   "note": ""
  },
  {
   "property": "C139",
   "status": "proved",
   "theorems": [
    "C139_answer",
    "C139_total",
    "C139_complete",
    "C139_unique",
    "C139_no_seek"
   ],
   "note": ""
  },
  {
   "property": "C140",
   "status": "partial",
   "theorems": [
    "C140_refuted",
    "C140_drained_partial",
    "C140_with_timeout_partial",
    "C140_missed_refuted"
   ],
   "note": "The statement is false of the code: refuted by C140_refuted, C140_missed_refuted. False in general (two witnesses); proved when no Shutdown call is inside the underlying server, or with a shutdown timeout, and no shutdown came before the listener was known."
  },
  {
   "property": "C141",
   "status": "partial",
   "theorems": [
    "C141_refuted",
    "C141_drained_partial"
   ],
   "note": "The statement is false of the code: refuted by C141_refuted. False for calls after the first; proved for the call that reaches the underlying server, unless Run's own shutdown ended with an error or came before the listener was known."
  },
  {
   "property": "C142",
   "status": "proved",
   "theorems": [
    "C142_answers",
    "C142_before_listening"
   ],
   "note": ""
  },
  {
   "property": "C143",
   "status": "proved",
   "theorems": [
    "C143_level",
    "C143_names",
    "C143_fresh"
   ],
   "note": ""
  },
  {
   "property": "C144",
   "status": "proved",
   "theorems": [
    "C144_response",
    "C144_total",
    "C144_unique",
    "C144_directory_mount",
    "C144_embedded_mount",
    "C144_fixed_file"
   ],
   "note": ""
  },
  {
   "property": "C145",
   "status": "proved",
   "theorems": [
    "C145_programs_followed",
    "C145_function_unique",
    "C145_wait_exact"
   ],
   "note": ""
  },
  {
   "property": "C146",
   "status": "proved",
   "theorems": [
    "C146_code_obeyed",
    "C146_context_determined"
   ],
   "note": ""
  },
  {
   "property": "C147",
   "status": "proved",
   "theorems": [
    "C147_histories",
    "C147_no_panic"
   ],
   "note": ""
  },
  {
   "property": "C148",
   "status": "proved",
   "theorems": [
    "C148_follows",
    "C148_applies",
    "C148_unambiguous",
    "C148_panics"
   ],
   "note": ""
  },
  {
   "property": "C149",
   "status": "proved",
   "theorems": [
    "C149_report",
    "C149_no_route",
    "C149_silent_iff"
   ],
   "note": ""
  },
  {
   "property": "C150",
   "status": "partial",
   "theorems": [
    "C150_forged_line",
    "C150_lines_refuted",
    "C150_lines_partial"
   ],
   "note": "Refuted: %0A in the target puts any line into the log (C150_forged_line); a report is one line exactly if the error's text has no line break."
  },
  {
   "property": "C151",
   "status": "proved",
   "theorems": [
    "C151_listing",
    "C151_unreadable",
    "C151_escaping",
    "C151_slash_added",
    "C151_slash_removed",
    "C151_listed"
   ],
   "note": ""
  },
  {
   "property": "C152",
   "status": "proved",
   "theorems": [
    "C152_down_iff",
    "C152_nothing_after",
    "C152_waits_exactly",
    "C152_panics_exactly"
   ],
   "note": ""
  },
  {
   "property": "C153",
   "status": "proved",
   "theorems": [
    "C153_one_call",
    "C153_page_by_page",
    "C153_not_a_directory"
   ],
   "note": ""
  },
  {
   "property": "C154",
   "status": "proved",
   "theorems": [
    "C154_logging_is_values",
    "C154_server_settings",
    "C154_server_debugf"
   ],
   "note": ""
  },
  {
   "property": "C155",
   "status": "partial",
   "theorems": [
    "C155_handlers_logger",
    "C155_ctx_debugf",
    "C155_loggers_isolated",
    "C155_own_loggers",
    "C155_sesinit_fields_reach_handlers_refuted",
    "C155_sesinit_fields_partial"
   ],
   "note": "Refuted: the request gets a new logger after SesInit; what the handlers get, isolation and ctx.Debugf are exact."
  },
  {
   "property": "C156",
   "status": "partial",
   "theorems": [
    "C156_content_never_read",
    "C156_index_directory",
    "C156_index_partial",
    "C156_index_is_served_refuted"
   ],
   "note": "Refuted: index.html is closed right after Stat, before its content is read; what is answered instead is exact. Reachable only through serveFile's showDir, which no exported function sets."
  },
  {
   "property": "C157",
   "status": "proved",
   "theorems": [
    "C157_any_mount",
    "C157_starred_mount"
   ],
   "note": ""
  },
  {
   "property": "C158",
   "status": "proved",
   "theorems": [
    "C158_request",
    "C158_handlers",
    "C158_not_found",
    "C158_files",
    "C158_barred",
    "C158_reached",
    "C158_directory_mount",
    "C158_embedded_mount",
    "C158_fixed_file",
    "C158_path_restored"
   ],
   "note": ""
  },
  {
   "property": "C159",
   "status": "proved",
   "theorems": [
    "C159_refused",
    "C159_admitted",
    "C159_panics",
    "C159_only_with_credentials"
   ],
   "note": ""
  },
  {
   "property": "C160",
   "status": "partial",
   "theorems": [
    "C160_private_files_partial",
    "C160_every_file_without_credentials",
    "C160_private_files_refuted"
   ],
   "note": "Refuted: escapes left in the path are decoded a second time after the mount's prefix was checked (C46, C136), so '%252e%252e' leaves the mounted directory. The partial covers all paths without such escapes."
  },
  {
   "property": "C161",
   "status": "proved",
   "theorems": [
    "C161_text",
    "C161_possible",
    "C161_unambiguous",
    "C161_found",
    "C161_registered"
   ],
   "note": ""
  },
  {
   "property": "C162",
   "status": "proved",
   "theorems": [
    "C162_last_modified",
    "C162_calendar"
   ],
   "note": ""
  },
  {
   "property": "C163",
   "status": "proved",
   "theorems": [
    "C163_imf_fixdate",
    "C163_rfc850_date",
    "C163_asctime_date",
    "C163_nothing_after",
    "C163_own_dates"
   ],
   "note": ""
  },
  {
   "property": "C164",
   "status": "partial",
   "theorems": [
    "C164_date_sent",
    "C164_revalidate_partial",
    "C164_far_years",
    "C164_unmodified",
    "C164_resume",
    "C164_revalidate_refuted"
   ],
   "note": "Refuted: HTTP dates have seconds, so a change within the second is not seen; the partial says exactly when 304 is sent, and C164_unmodified, C164_resume, C164_far_years are exact too."
  },
  {
   "property": "C165",
   "status": "partial",
   "theorems": [
    "C165_stamp_partial",
    "C165_time_of_record_refuted"
   ],
   "note": "Refuted: @timestamp is set by logger.New only; the partial says exactly which time a record carries."
  },
  {
   "property": "C166",
   "status": "partial",
   "theorems": [
    "C166_local_clock",
    "C166_one_reading",
    "C166_utc_partial",
    "C166_utc_refuted"
   ],
   "note": "Refuted: time.Now() is local time and the layout's Z is a literal; the partial is exact (right iff the offset is 0)."
  },
  {
   "property": "C167",
   "status": "partial",
   "theorems": [
    "C167_sorted_partial",
    "C167_sorted_refuted"
   ],
   "note": "Refuted within one second (.999 drops zeros at the end); proved for different seconds, and distinctness for different milliseconds."
  },
  {
   "property": "C168",
   "status": "partial",
   "theorems": [
    "C168_dates_ignored",
    "C168_not_modified_partial",
    "C168_mount_partial",
    "C168_no_date",
    "C168_not_modified_refuted"
   ],
   "note": "Refuted for files without a modification time (embed.FS); the partial is exact, and C168_dates_ignored says that for such files date conditions have no effect at all."
  },
  {
   "property": "C169",
   "status": "proved",
   "theorems": [
    "C169_example_server",
    "C169_example_1"
   ],
   "note": ""
  },
  {
   "property": "C170",
   "status": "proved",
   "theorems": [
    "C170_example_2",
    "C170_example_3",
    "C170_downloads_2",
    "C170_downloads_3",
    "C170_icon"
   ],
   "note": ""
  },
  {
   "property": "C171",
   "status": "partial",
   "theorems": [
    "C171_routes",
    "C171_video_partial",
    "C171_missing_file",
    "C171_video_refuted"
   ],
   "note": "The content type the handler sets is replaced (refuted); routes, body, status, cache policy and the failing open are proved."
  }
 ]
}