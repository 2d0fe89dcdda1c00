#!/usr/bin/env python3
"""Writes MANIFEST.json."""
import json,os
C=[]
def c(p,status,theorems,note=""):
    C.append({"property":p,"status":status,"theorems":theorems,"note":note})
c("C01","proved",["C01_pruning_preserves_digest"])
c("C02","proved",["C02_digest_is_binding","C02_full_tree_determines_witness"],"Either the trees agree up to pruning or an explicit hash collision is exhibited.")
c("C03","proved",["C03_found_is_sound","C03_found_subtree_is_sound"])
c("C04","proved",["C04_absent_is_sound"])
c("C05","partial",["C05_lookup_is_spec_partial","C05_lookup_is_spec_refuted","C05_absent_unsound_on_empty_forks"],"Proved on well-formed trees; false on trees with Empty nodes under forks, shown on the interface specification's own example tree.")
c("C06","proved",["C06_lookup_path_vs_subtree"])
c("C07","proved",["C07_list_paths_complete"])
c("C08","proved",["C08_rbtree_refines_map"])
c("C09","proved",["C09_rbtree_never_panics_and_is_balanced"])
c("C10","proved",["C10_rbtree_lookup_is_logarithmic"])
c("C11","proved",["C11_root_hash_is_digest","C11_nested_root_hash_is_digest"])
c("C12","proved",["C12_witnesses_have_root_hash"])
c("C13","proved",["C13_witness_decides_key"])
c("C14","proved",["C14_range_witnesses_decide_range","C14_key_witnesses_hide_values"])
c("C15","proved",["C15_iteration_sorted_and_complete","C15_for_each_sorted_and_complete"])
c("C16","proved",["C16_nested_tree_refines_path_map"])
c("C17","proved",["C17_no_empty_subtrees"])
c("C18","proved",["C18_nested_witness_decides_path"])
c("C19","proved",["C19_merge_reveals_both"])
c("C20","proved",["C20_hash_tree_cbor_round_trip","C20_encoding_injective","C20_decoded_hashes_are_32_bytes"])
c("C21","proved",["C21_certificate_cbor_round_trip"])
c("C22","partial",["C22_cbor_total_and_exact_partial","C22_cbor_total_refuted"],"Termination, exact consumption and prefix-freeness (map-free values) proved; totality is false: a map header announcing 2^64-1 entries makes HashMap::with_capacity panic. Stack depth not modelled.")
c("C23","partial",["C23_cbor_integers_partial","C23_cbor_negative_refuted"],"Unsigned exact; negative exact iff the argument is below half its width, refuted otherwise (0x3880).")
c("C24","partial",["C24_map_length_partial","C24_map_length_refuted"],"Refuted: fewer entries than announced are accepted. Proved: never more.")
c("C25","proved",["C25_ri_hash_ignores_order"])
c("C26","proved",["C26_ri_hash_is_binding"])
c("C27","proved",["C27_response_hash_covers","C27_body_hash_override","C27_pseudo_header_confusion"],"The ':' hypothesis is necessary: C27_pseudo_header_confusion.")
c("C28","proved",["C28_request_hash_covers","C28_covered_parts_exist","C28_empty_parameter_name"],"Uri parsing is a parameter; the empty parameter name must not be certified (C28_empty_parameter_name shows why).")
c("C29","proved",["C29_header_filter_exact","C29_header_filter_case_insensitive"])
c("C30","proved",["C30_cel_round_trip"])
c("C31","partial",["C31_header_names_partial","C31_every_header_name_refuted"],"Refuted: header names containing any of !#$%&'*+.^_`|~ (valid RFC 9110 tokens) are printed by the builder but rejected by the verifier. Proved: exactly the expressions with alphanumeric/'-' names survive, all others are rejected.")
c("C32","proved",["C32_whitespace_insignificant"])
c("C33","partial",["C33_accepted_says_one_thing_partial","C33_both_lists_accepted_refuted","C33_parser_terminates"],"Refuted for the two response lists: one may be present without headers; duplicate properties are accepted (last wins). Proved: everything else, and exactly one response list carries headers.")
c("C34","proved",["C34_more_specific_wildcards_terminates"])
c("C35","proved",["C35_lists_exactly_the_more_specific","C35_canister_side","C35_slash_wildcard_missing","C35_reserved_names_refuted"],"Request paths whose last segment is a terminator, and (canister side) first segment http_expr, are excluded: C35_reserved_names_refuted shows why.")
c("C36","partial",["C36_accepted_path_is_most_specific_partial","C36_slash_wildcard_refuted","C36_reserved_segment_refuted"],"Proved except: wildcard r/ accepted for request r is not compared with shorter ones, and request paths ending in a literal terminator segment (both refuted with concrete trees).")
c("C37","proved",["C37_exact_path_accepted_iff","C37_segments_of_path"])
c("C38","proved",["C38_time_window_sound","C38_time_window_exact","C38_time_encoding"],"Acceptance implies within the window for every u128 now/offset, wrapping or checked; exact when now-offset and now+offset are representable (otherwise C39).")
c("C39","partial",["C39_time_check_total_refuted","C39_time_check_total_partial","C39_time_check_outcomes"],"Refuted: offset > now panics (overflow checks) or wraps and rejects a current certificate. Proved for representable bounds; C39_time_check_outcomes gives the result for every now, offset < 2^127 and every certificate.")
c("C40","proved",["C40_accepted_iff","C40_ranges_round_trip","C40_shows_certified_state"],"BLS core_verify and Principal's order are parameters.")
c("C41","proved",["C41_cache_never_changes_verdict","C41_sequential","C41_calls_are_well_sized","C41_lru_is_sound"],"Over every cache implementation that invents no keys, and every interleaving of the lock-protected steps.")
c("C42","proved",["C42_within_capacity","C42_least_recently_used_evicted"],"SizedCache's source (crate cached) is not in /repo; modelled from its published behaviour.")
c("C43","proved",["C43_base64_round_trip","C43_partial_padding"],"The base64 crate is not in /repo; modelled from its published behaviour.")
c("C44","proved",["C44_certificate_header_round_trip"])
c("C45","proved",["C45_first_field_wins","C45_extra_field_ignored","C45_version_is_decimal"])
c("C46","proved",["C46_no_success_below_version"])
c("C47","proved",["C47_v2_soundness","C47_v2_shows_canister_tree"],"Expression path specificity as in C36 (its two exceptions apply). Uri parsing and BLS are parameters.")
c("C48","proved",["C48_v2_returns_only_certified_data"])
c("C49","proved",["C49_v1_accepted_iff","C49_v1_soundness"],"gzip/deflate decoding and Uri parsing are parameters.")
c("C50","partial",["C50_index_fallback_only_if_absent_refuted","C50_index_fallback_partial"],"Refuted: a genuine witness that prunes the request path's entry makes /index.html's body pass for it. Proved: if the entry is not pruned away, the fallback implies the tree has no value at the path.")
c("C63","proved",["C63_request_path_exact","C63_text_is_unicode"],"Uri parsing is a parameter; percent decoding modelled from the urlencoding crate.")
c("C51","proved",["C51_certified_entry_verifies","C51_certified_response_is_accepted","C51_reserved_prefix_refuted"],"Request paths reserved by the format are excluded for wildcards; C51_reserved_prefix_refuted is a concrete tree showing that the exclusion of first segment http_expr is needed (a code defect: the witness lacks a needed absence proof).")
c("C52","proved",["C52_witness_never_panics"])
c("C53","proved",["C53_expr_path_is_verifier_path"])
c("C54","proved",["C54_requires_exact_cel_header"])
c("C55","proved",["C55_skip_path_accepted","C55_skip_response_is_accepted","C55_skip_never_shows_content"])
c("C64","proved",["C64_accepted_response_was_certified"],"For a wildcard expression r/ and request r the verifier does not compare shorter wildcards (C36), stated as answers_or_slash.")
c("C56","partial",["C56_stored_is_certified_or_overlapped","C56_the_first_configuration_for_an_asset_is_used","C56_configuration_is_determined","C56_configurations_are_accepted","C56_the_first_given_configuration_is_used","C56_stored_is_certified_partial","C56_deleting_another_url_refuted"],"Refuted in general: deleting /a//b takes away the certification of /a/b. Proved for all histories when configured headers are not ones the router adds, urls avoid the reserved segments and differ in more than slashes (or a hash collision is exhibited); in general: a stored response is certified or another response of the history lies on an overlapping tree path.")
c("C57","partial",["C57_delete_removes_whole_responses_partial","C57_small_assets_are_revoked","C57_delete_all_revokes_everything","C57_chunks_stay_certified_refuted","C57_exprs_do_not_collide"],"Refuted for chunks: for every asset longer than the chunk size, every chunk response is still certified after delete_assets (C57_chunks_stay_certified_refuted holds for every such asset and state). Proved for whole responses, for assets without chunks, and for delete_all_assets.")
c("C58","partial",["C58_certify_never_revokes_refuted","C58_old_content_stays_certified_refuted"],"Refuted: certify_assets never removes the old response's entry, so the old content stays certified.")
c("C61","proved",["C61_range_header_parsed_iff","C61_canonical_range_accepted","C61_malformed_range_refuted"],"The property lists the accepted deviations ('+' sign, repeated prefix) from RFC 9110; C61_malformed_range_refuted shows one accepted malformed header.")
c("C66","proved",["C66_calls_never_panic","C66_serve_asset_result"],"Over every reachable state, also trees shared with the application.")
c("C67","proved",["C67_certify_stores_and_certifies","C67_valid_calls_succeed","C67_written_is_configured"],"Uri parsing and globset are parameters.")
c("C68","partial",["C68_order_does_not_matter_partial","C68_order_matters_refuted"],"Refuted when two assets share a url (names a and /a): the one iterated last wins. Proved when no two responses share a key or overlap.")
c("C69","proved",["C69_tree_operations_are_exact","C69_unrelated_unless_equal"])
c("C60","proved",["C60_chunks_partition_content","C60_shipped_chunks_hold_two_million_bytes"],"For every reachable router and every asset longer than the (positive) chunk size.")
c("C62","partial",["C62_which_response","C62_scope_itself_refuted"],"'Prefix' is scope_of: a proper directory of the request path, with or without its slash ; refuted for a scope equal to the request path, which is not looked up (C62_scope_itself_refuted).")
c("C65","partial",["C65_served_encoding_is_accepted","C65_quality_values_ignored_refuted"],"Refuted for quality values: they are ignored, br;q=0 still gets br. Proved: only encodings named in the header (or none) are served, in the router's own order of preference.")
c("C59","partial",["C59_served_response_is_accepted_partial","C59_plain_get_is_accepted_partial","C59_served_response_is_rejected_refuted"],"Refuted for requests with a query string, another method than GET, a Range header (the chunk is certified for a request without one), a path that is a fallback scope, and paths differing in slashes. Proved: GET without query and Range header, for names without reserved segments and slash variants, and fallbacks with nothing more specific ever certified.")
c("C70","proved",["C70_only_router_responses_are_accepted"],"Urls without query component, configured headers without pseudo headers; signature unforgeability is a hypothesis (unforgeable); conclusions name explicit hash collisions.")
c("C71","partial",["C71_verifier_panics_only_partial","C71_response_header_panics_refuted"],"Panic freedom is refuted: a 26-byte certificate header makes the verifier panic for every request and key (C71_response_header_panics_refuted). Proved: every reason for a panic is one of the listed ones, and the model's recursion bound is never the result. Stack depth is not modelled.")
c("C72","proved",["C72_only_covered_data_matters","C72_uncovered_response_header_is_irrelevant","C72_header_name_case_is_irrelevant","C72_header_order_is_irrelevant","C72_request_is_irrelevant_unless_certified","C72_uncovered_request_header_is_irrelevant"],"Header order: if the three headers the verifier reads are not repeated with different values.")
c("C73","partial",["C73_equality_is_same_entries","C73_order_is_lexicographic","C73_order_is_total_and_consistent","C73_from_iter_last_wins","C73_equal_trees_have_equal_root_hash_refuted"],"Everything but the last clause is proved; the last clause is refuted: equal trees built in different orders can have different root hashes. Keys compare as their bytes.")
c("C74","proved",["C74_rbtree_redundant_operations","C74_nested_redundant_operations","C74_http_tree_redundant_operations"])
c("C75","partial",["C75_accepted_shapes","C75_round_trip","C75_pruned_trees_need_borrowed_bytes","C75_label_round_trip","C75_human_readable_label_round_trip_refuted","C75_agrees_with_ic_cbor","C75_ic_cbor_agrees_with_serde_refuted","C75_cbor_bytes"],"At the level of serde's data model; the formats (serde_cbor, serde_json) are not modelled beyond how they hand out bytes. Refuted parts: trees with pruned nodes do not round trip from a stream or a textual format, a Label does not round trip through a human-readable format, ic-cbor accepts extra elements and drops a delegation written as a sequence.")
c("C76","partial",["C76_equal_iff_same_fields_in_any_order","C76_equality_is_an_equivalence","C76_equal_responses_are_certified_alike","C76_equal_responses_get_the_same_verdict_partial","C76_equal_responses_get_the_same_verdict_refuted","C76_others_compare_in_order"],"Proved except the verdict: with two different certificate headers it depends on their order, for every accepted response (C76_equal_responses_get_the_same_verdict_refuted); proved when each header the verifier reads has one value.")
c("C77","proved",["C77_request_builder","C77_request_verbs","C77_response_builder","C77_response_builder_from_response","C77_update_conversions","C77_cel_builders"],"")
c("C78","partial",["C78_maps_list_what_is_stored","C78_certified_assets_can_be_got","C78_deleted_assets_cannot_be_got","C78_chunks_are_of_the_current_asset_refuted"],"All clauses proved but the last, which is refuted: certifying a small asset over a large one leaves the old chunks in the map.")
c("C79","proved",["C79_lookups_find_the_leaves","C79_built_certificates_verify","C79_nested_delegations_are_refused","C79_invalid_signatures_are_refused","C79_building_never_fails"],"Key generation, signing, principals and the IC crate's tree conversion are parameters with stated properties (keys_sign, arranges). Times are taken modulo 2^64, as the code does.")
c("C80","proved",["C80_v1_header_round_trip","C80_witnesses_exist","C80_certified_assets_verify","C80_built_and_certified_assets_verify"],"")
c("C81","proved",["C81_accepted_iff","C81_time_check_against_rust"],"@dfinity/agent (Certificate.create, Cbor.decode, reconstruct) and lebDecode are parameters; numbers are exact.")
c("C82","partial",["C82_objects_convert","C82_same_verdict","C82_bad_objects_trap_refuted"],"Refuted for malformed objects: a missing or invalid method or status code makes the call trap instead of returning an error. JavaScript values are modelled without getters, proxies and array elements that are not numbers.")
c("C83","partial",["C83_same_verdict","C83_header_errors","C83_expression_path_errors","C83_reported_error","C83_missing_expression_refuted"],"Refuted in one point: MissingCertificateExpression is never reported, a missing expression header is reported as MissingCertification. The error for every other failed check is exactly characterised, for request paths not ending in a reserved segment. Messages of the libraries inside errors are left out.")
c("C84","proved",["C84_certificate_errors"],"For canister ids of at most 29 bytes and times whose sum and difference with the offset fit u128 (else see C40, C71).")
c("C85","proved",["C85_merge_is_the_overlay"],"")
c("C86","proved",["C86_same_root_hash_merges"],"For every hash function with 32-byte results; the exception names an explicit collision.")
c("C87","proved",["C87_current_list_is_served_and_accepted","C87_body_determines_list"],"The http crate's Uri and serde_json::from_slice are parameters; the Uri parser maps /todos to path /todos without query. matchit routing is modelled for the example's patterns.")
c("C88","proved",["C88_accepted_responses_are_current"],"For request paths not ending in a reserved segment and header names without a leading colon; exceptions are named hash collisions.")
c("C89","proved",["C89_refusals_and_not_found_are_accepted"],"405: or the hashes of two certified methods' requests collide. 404: for paths not ending in a reserved segment and not below http_expr.")
c("C90","partial",["C90_every_query_verifies_refuted"],"Refuted: query strings, bodies, lower-case methods on /todos and //todos are served but rejected; GET / and PATCH /todos trap (the certified 405 for PATCH is unreachable).")
c("C91","proved",["C91_update_answers"],"serde_json::from_slice and the http crate's Uri are parameters; a trap rolls back the call.")
c("C92","proved",["C92_honest_count_is_shown","C92_increments_count"],"Certificate.create, Cbor.decode and lookup_path of @dfinity/agent are parameters.")
c("C93","proved",["C93_shown_count_is_current"],"The exception names an explicit hash collision.")
c("C94","partial",["C94_skip_only_where_certified_partial","C94_router_never_skips","C94_skip_without_skip_entry_refuted"],"Proved when no certified path contains the segments <$> and <*>. Refuted without this: a response certified at /a/<$>/ followed by the hash of a variant of the skip expression makes every response for /a acceptable (concrete SHA-256 instance).")
c("C95","proved",["C95_shared_stored_is_certified"],"")
c("C96","partial",["C96_shared_served_response_is_accepted_partial","C96_shared_plain_get_is_accepted_partial"],"For GET requests without query string, body and (for fallbacks: overriding entries) as in C59; C59 shows other requests are rejected.")
c("C97","proved",["C97_shared_only_certified_is_accepted","C97_shared_skips_only_direct"],"The exceptions name explicit hash collisions. The second theorem needs paths without the segments <$> and <*> (C94 refutes it otherwise).")
c("C98","partial",["C98_direct_entry_stays_partial","C98_delete_all_assets_clears_shared_tree_refuted"],"Proved for all calls except delete_all_assets, for which it is refuted: the whole tree is cleared.")
c("C99","proved",["C99_site_starts","C99_metrics_is_accepted"],"")
c("C100","partial",["C100_site_get_is_accepted_partial","C100_site_get_is_rejected_refuted"],"Proved for GET requests without query string, body and Range header whose path is not a slash variant of a known one; refuted for the others by a concrete site. The exception names an explicit hash collision of two of the site's responses.")
c("C101","proved",["C101_only_site_content_is_accepted"],"For request paths that are not themselves written with the reserved segments.")
c("C102","partial",["C102_custom_assets_start","C102_custom_answers_are_accepted_partial","C102_other_spellings_are_rejected_refuted"],"Proved for request paths that are not another spelling (doubled slashes) of a certified path and do not start with the segments of the reserved prefix http_expr; the third theorem refutes the claim for other spellings.")
c("C103","proved",["C103_custom_only_files_are_accepted"],"For request paths not written with the reserved segments; the exceptions name explicit hash collisions.")
c("C104","proved",["C104_custom_skips_only_uncertified"],"For request paths not written with the reserved segments; the exceptions name explicit hash collisions.")
c("C105","proved",["C105_skip_example_is_accepted","C105_skip_example_vouches_for_nothing","C105_skip_example_answers_queries_only"],"")
c("C106","proved",["C106_upgrade_example"],"")
c("C107","proved",["C107_label_texts","C107_pruned_from_hex"],"")
c("C108","proved",["C108_js_error_codes","C108_codes_tell_kinds_apart"],"The text of the message: C138.")
c("C109","proved",["C109_requests_are_read","C109_responses_are_read","C109_values_are_the_protocols","C109_round_trip"],"At the level of Candid values; the binary format (candid crate) is not modelled.")
c("C110","proved",["C110_site_headers"],"Partial refinements of the content (which file, which part) are C99-C101.")
c("C111","proved",["C111_reversed_ranges"],"")
c("C112","proved",["C112_witness_is_logarithmic"],"Nodes of the tree, not bytes of its encoding.")
c("C113","proved",["C113_nested_witness_is_logarithmic","C113_merge_adds_nothing"],"")
c("C114","proved",["C114_http_witness_is_logarithmic"],"")
c("C115","proved",["C115_v2_fixtures_verify","C115_v2_fixtures_are_made"],"For request paths without a segment <*>, ids of canisters in the order of their numbers, and the hypotheses of C51 and C79 on strings and keys.")
c("C116","proved",["C116_certificates_built_in_javascript","C116_building_in_javascript_fails"],"")
c("C117","proved",["C117_every_item_is_read","C117_only_items_are_read","C117_without_maps_exactly_the_items"],"Items are syntax trees with their headers (CborGrammar.v); lengths are reduced to a usize as the code does; maps are at most as large as memory (C22).")
c("C118","proved",["C118_hash_trees","C118_certificates","C118_ranges_and_strings"],"Items as in C117, so short maps are also accepted; ids above 29 bytes panic (C71).")
c("C119","proved",["C119_decoders_agree_on_trees","C119_decoders_agree_on_certificates","C119_array_delegations_differ"],"What serde_cbor shows of an item is serde_view in Props_Agree.v; serde accepts no simple value anywhere, and ic-cbor no indefinite length.")
c("C120","proved",["C120_v2_accepted_iff","C120_expression_path_accepted_iff"],"For request paths not ending in a reserved segment (see C36). C49 is the same for version 1; certificates are C38-C42, headers C43-C45, trees C118.")
c("C121","proved",["C121_base64_exactly"],"The base64 crate is not in /repo; modelled from its published behaviour for the configuration in base64.rs.")
c("C122","proved",["C122_syntax_exactly","C122_unambiguous","C122_last_field_counts","C122_accepted_exactly"],"nom 7.1.3 is not in /repo; its combinators are modelled from their published behaviour. Closes C33 from the other side: C33 says what acceptance implies, C122 is an equivalence.")
c("C123","proved",["C123_number_read_exactly","C123_time_accepted_exactly"],"The leb128 crate is not in /repo; modelled from its published source.")
c("C124","partial",["C124_linear_time_refuted","C124_counting_changes_nothing","C124_calls_bounded_by_map_bytes_partial","C124_one_call_per_item_partial"],"Refuted as stated (exponential work for accepted inputs, before any signature is checked); proved for well-formed items, and a general bound. The count is that of the calls of the recursive parser in an instrumented copy of the model, shown to return the same results.")
c("C125","proved",["C125_one_pass","C125_bound_is_met"],"Counts calls of the recursive parser in an instrumented copy of the model, shown to return the same results.")
c("C126","partial",["C126_constant_depth_refuted","C126_depth_at_most_length_partial"],"Refuted as stated; proved with the input length as bound. The depth is the fuel of the model, which falls by one per nested call.")
c("C127","proved",["C127_certificate_header_length"],"From the bound on the nodes of the witness (C114), the size of each node in CBOR and base64.")
c("C128","partial",["C128_one_policy_per_expression_partial","C128_one_policy_per_expression_refuted"],"Refuted for names with a double quote; proved for all other names.")
c("C129","partial",["C129_headers_are_one_line","C129_any_name_refuted"],"Proved for the certificate header, and for the expression exactly when the names are printable; refuted for arbitrary names, which the builder accepts.")
c("C130","partial",["C130_body_is_what_the_decoder_produces","C130_chunking_is_invisible","C130_other_encodings_are_left_alone","C130_bounded_work_refuted"],"Everything is proved except the bound on the work, which is refuted. The decoders of flate2 are parameters (any Read).")
c("C131","proved",["C131_digest_is_the_specified_root_hash","C131_map_root_hash","C131_certification_tree_root_hash","C131_signed_message"],"The relation reconstructs is written from the interface specification, with its own separators.")
c("C132","partial",["C132_variant_is_served","C132_compressed_file","C132_any_case_refuted"],"Proved for names as registered (lower case) and responses up to the chunk size (larger ones: C60); refuted for other spellings. Url parsing and globset are parameters.")
c("C133","proved",["C133_accepted_state_is_recent","C133_accepted_content_was_certified_recently","C133_withdrawn_pages_are_refused","C133_delegations_of_any_age"],"The canister's changing tree is a relation between times and histories of calls. Unforgeable signatures as in C40. Paths ending in a reserved segment are excepted in the third theorem.")
c("C134","proved",["C134_router_content_was_certified_recently","C134_deleted_assets_are_refused"],"C70 for a router that changes over time. Which entries are still certified after which calls: C57, C58 (chunks and replaced contents stay).")
c("C135","proved",["C135_changes_are_logarithmic","C135_histories_are_m_log_m"],"Counted on copies of the functions (RbCost.v) that are proved to return the same trees: one unit per node looked at and one per subtree hash recomputed (each of at most three hash calls). Comparing keys and hashing the value itself count as one step whatever their length.")
c("C136","partial",["C136_count_since_upgrade_is_shown_partial","C136_shown_count_is_since_upgrade_partial","C136_after_an_upgrade_refuted"],"Refuted between an upgrade and the next increment: the canister has no upgrade hook, so its own response is rejected, and if the certified data is kept the response from before the upgrade is still shown although the counter is 0. Proved for every history with an increment after the last upgrade.")
c("C137","proved",["C137_accepted_todos_are_recent"],"C88 for a canister that changes over time; signatures unforgeable (hypothesis), exceptions are named hash collisions; the content clause is for ordinary paths, as in C88.")
c("C138","proved",["C138_message_tells_the_error","C138_versions_are_shown","C138_same_text_same_fault","C138_js_messages","C138_paths_are_readable"],"Rust's Debug escaping of strings is modelled; which non-ASCII characters it prints as they are is a parameter. Texts of other libraries inside IoError and Utf8ConversionError are parameters.")
c("C139","partial",["C139_messages_are_one_line_partial","C139_malformed_urls_break_lines_refuted"],"Refuted for urls that cannot be parsed: MalformedUrl shows the url as it is, with its line breaks. Proved for all other errors.")
c("C140","proved",["C140_json_is_unambiguous","C140_bodies_are_json"],"serde_json::to_vec is written out for the types of types.rs. The grammar is RFC 8259 without white space, fractions, exponents, signs and \\u escapes above ASCII. The responses are those of C87-C91, whose headers the specification lists.")
c("C141","proved",["C141_same_verdict","C141_reported_error","C141_one_error"],"The text of nom's error is left out; the value found is the value, not its Debug text. The specification has the quirks C142 shows.")
c("C142","partial",["C142_unused_errors_refuted","C142_object_named_refuted","C142_element_shown_refuted"],"Refuted: UnrecognizedFunction and IncorrectFunctionParameterType are never reported; a missing response_certification is reported as missing in RequestCertification, which may not even occur; for an element that is no string the whole array is shown as found. What is reported instead is C141.")
c("C143","proved",["C143_same_verdict","C143_reported_error","C143_one_error"],"Texts of nom's and the standard library's errors are left out. Which bytes are CBOR values is C117.")
c("C144","partial",["C144_end_of_input_refuted"],"Refuted: UnexpectedEndOfInput is never reported, input that ends too early is MalformedCbor.")
c("C145","proved",["C145_errors_forgotten","C145_certification_error_iff","C145_every_fault_is_reported","C145_witness_error_iff"],"InvalidHttpStatusCode is not returned by the package. The witness can also panic or fail otherwise only as HttpTree.v says; its error value is the one the code has.")
c("C146","proved",["C146_errors_forgotten","C146_serve_error_iff","C146_call_error_sound","C146_bad_pattern_iff"],"Of the error of the globset library only the pattern is kept; the texts of range errors, with the standard library's texts of integer errors, are modelled. For certify_assets and delete_assets the error is sound, not chosen: which of several wrong assets is reported depends on the iteration order of a HashMap.")
c("C147","proved",["C147_message_tells_the_error","C147_fields_are_shown","C147_same_text_same_fault"],"How candid writes principals is a parameter, assumed to be readable where the next fixed text follows (C147_ex gives such a way).")
c("C148","partial",["C148_message_tells_the_error_partial","C148_same_text_other_error_refuted","C148_router_text_tells_the_error","C148_fields_are_shown"],"Proved for everything an asset router reports (globset's errors up to their text). Refuted in general: quotes are not escaped, so two errors about wildcard paths can have one text; with the same wildcard, or the same expected expression, the text tells the error.")
c("C149","partial",["C149_what_is_shown","C149_time_is_shown_refuted"],"Refuted: the reader has moved past the number when the error is built, so the error carries the bytes after it, none in the usual case. What leb128 0.2.5 leaves unread after an overflow follows its published source; that it is less than all of the bytes only needs that one byte was read.")
c("C150","partial",["C150_download_yields_the_content_partial","C150_stale_chunk_refuted"],"Proved for every size and chunk size when no chunk of another encoding had been stored for the url. Refuted in general: certifying a small variant over a large one leaves the old chunks, deleting does not remove them either, and a client that prefers that encoding gets them in the middle of another download.")
c("C151","proved",["C151_text_shows_the_tree","C151_text_is_written_by_the_rules","C151_readable_contents_are_told_apart","C151_some_trees_share_a_text"],"The last theorem shows the limits: trees with different root hashes and the same text.")
c("C152","proved",["C152_nested_proof_discloses_only_the_path","C152_http_proof_discloses_only_the_request"],"For a wildcard: the wildcard matches the request, which does not use reserved names (those are in C35's refutation).")
c("C153","proved",["C153_cbor_text_tells_the_error","C153_cel_text_tells_the_error","C153_reported_errors_can_be_told","C153_fields_are_shown","C153_example"],"The texts of nom's and the standard library's errors are parameters, as is which characters Debug prints as they are.")
c("C154","proved",["C154_certifying_what_is_certified","C154_certifying_twice","C154_deleting_what_is_not_there","C154_deleting_twice","C154_hypotheses"],"Certifying twice: one response for each place and no entry inside another one (C58 and C67 say what happens otherwise). Deleting twice has no such condition.")
c("C155","partial",["C155_minimum_only_filters","C155_version_is_one_of_the_tree","C155_version_1_checks_the_body_only","C155_downgrade_of_trees_with_both_parts_refuted"],"Proved but for the last clause, which is refuted for canisters that certify the same body for both versions: callers that accept version 1 get any status and headers with it. The second theorem exhibits a hash collision otherwise.")
c("C156","partial",["C156_narrow_build_accepts_what_wide_build_does","C156_never_two_results","C156_wide_build_accepts_what_narrow_build_does_refuted"],"Proved in the first direction, refuted in the other: a certificate whose signature is said to be 2^32 + 3 bytes long is read, and accepted, by 32-bit builds only. The signed content is the same, so nothing unsigned gets accepted. Both builds are given the same largest map capacity, below the narrower width.")
c("C157","proved",["C157_what_a_header_says_decides","C157_order_of_fields","C157_spelling_of_the_certificate_header"],"About accepted headers and responses; which error is reported for a refused header may depend on the order of its fields (C83).")
c("C158","partial",["C158_one_moment","C158_larger_tolerance_accepts_no_less","C158_accepted_between","C158_expired_stays_expired","C158_any_larger_tolerance_refuted"],"Proved for tolerances up to the clock and clocks plus tolerance below 2^128; refuted for tolerances larger than the clock: the subtraction wraps and the response is refused, or panics where overflow is checked (C39).")
c("C159","proved",["C159_same_result_for_everybody","C159_accepted_elsewhere_iff"],"Verifiers with the same integer width and the same URL and decompression crates; widths are compared in C156.")
c("C160","proved",["C160_for_another_canister_iff","C160_no_replay"],"For a signature scheme no one forges (C40); canisters that certified the very same tree are interchangeable, as the example shows.")
c("C161","proved",["C161_asks_for_an_update_call_iff","C161_changes_are_sent_to_update_calls","C161_sent_on_acts_or_traps"],"Found by seeding: routing PATCH to the query handler had survived.")
c("C162","proved",["C162_root_hash_determines_content","C162_nested_root_hash_determines_content","C162_certification_tree_root_hash_determines_content","C162_changes_change_the_root_hash"],"Red-black trees of values whose hash trees are full and tell the values apart, such as byte strings. The converse is refuted in C73: equal contents may have different root hashes.")
c("C163","proved",["C163_text_tells_the_response","C163_text_tells_short_responses","C163_body_text_is_bounded","C163_text_tells_the_update_response","C163_text_tells_the_request","C163_text_tells_the_update_request"],"Plain form {:?} only; which characters Rust's Debug of str shows as they are is a parameter. Debug of http::StatusCode and http::Method are taken from the http crate's documentation.")
#MORE
json.dump({"claims":C},open(os.path.join(os.path.dirname(__file__),"..","MANIFEST.json"),"w"),indent=1)
