{
 "claims": [
  {
   "property": "C01",
   "status": "proved",
   "theorems": [
    "transferred_is_union_size",
    "number_of_offsets_unique",
    "transferred_several_ops"
   ],
   "note": ""
  },
  {
   "property": "C02",
   "status": "proved",
   "theorems": [
    "completed_order_independent",
    "completed_sorted_separated",
    "completed_covers_exactly",
    "transferred_never_decreases",
    "transferred_stable_on_completion"
   ],
   "note": ""
  },
  {
   "property": "C03",
   "status": "proved",
   "theorems": [
    "authorize_exact"
   ],
   "note": ""
  },
  {
   "property": "C04",
   "status": "proved",
   "theorems": [
    "no_operation_starts_after_cancel",
    "no_context_attached_after_cancel",
    "no_success_reported_after_cancel"
   ],
   "note": ""
  },
  {
   "property": "C05",
   "status": "partial",
   "theorems": [
    "removal_releases_storage",
    "operations_use_open_contexts",
    "removed_with_open_backend_refuted",
    "removed_during_extents_refuted"
   ],
   "note": "Proved for operations and attached contexts. The full claim is false of the code: backends being opened and extents requests are not covered by the wait (refuted by witness)."
  },
  {
   "property": "C06",
   "status": "proved",
   "theorems": [
    "no_lost_wakeup",
    "waiting_removal_can_finish",
    "no_early_wakeup",
    "running_operations_are_told_to_stop"
   ],
   "note": ""
  },
  {
   "property": "C07",
   "status": "partial",
   "theorems": [
    "active_ticket_lives_for_timeout",
    "extend_sets_deadline",
    "timeout_rounding",
    "touch_never_shortens_partial",
    "touch_never_shortens_refuted"
   ],
   "note": "The expiry rule is proved. The last sentence is false after an explicit extension (refuted by witness), and proved when the ticket was not extended."
  },
  {
   "property": "C08",
   "status": "proved",
   "theorems": [
    "read_sends_exact_bytes",
    "read_succeeds",
    "read_terminates"
   ],
   "note": ""
  },
  {
   "property": "C09",
   "status": "proved",
   "theorems": [
    "read_sends_only_a_prefix",
    "short_image_read_fails"
   ],
   "note": ""
  },
  {
   "property": "C10",
   "status": "proved",
   "theorems": [
    "write_stores_exact_bytes",
    "write_without_size",
    "write_succeeds",
    "write_terminates",
    "short_body_write_fails"
   ],
   "note": ""
  },
  {
   "property": "C11",
   "status": "proved",
   "theorems": [
    "write_changes_only_requested_range",
    "canceled_operation_stops"
   ],
   "note": ""
  },
  {
   "property": "C12",
   "status": "proved",
   "theorems": [
    "zero_zeroes_exactly",
    "zero_changes_only_requested_range",
    "zero_succeeds",
    "zero_terminates"
   ],
   "note": ""
  },
  {
   "property": "C13",
   "status": "partial",
   "theorems": [
    "write_stores_data_partial",
    "failed_write_changes_only_its_range",
    "file_write_succeeds",
    "short_block_write_is_reported_done_refuted",
    "short_block_read_destroys_data_refuted",
    "empty_write_grows_file_refuted"
   ],
   "note": "Proved for every kernel that completes one-block requests. The claim is false for short reads or writes of the single block used in read-modify-write, whose results the code ignores, and for empty writes (refuted by witness)."
  },
  {
   "property": "C14",
   "status": "proved",
   "theorems": [
    "write_system_calls_aligned",
    "zero_system_calls_aligned",
    "read_calls_aligned",
    "write_calls_aligned"
   ],
   "note": "System calls of the backend are aligned for write and zero; reads go directly to the system and are aligned because the read operation asks only for aligned ranges. The probing reads of block size detection are unaligned on purpose."
  },
  {
   "property": "C15",
   "status": "proved",
   "theorems": [
    "zero_clears",
    "zero_to_boundary_is_exact",
    "zero_independent_of_features",
    "failed_zero_changes_only_its_range",
    "file_zero_succeeds",
    "file_zero_terminates"
   ],
   "note": "For kernels completing one-block requests, see C13."
  },
  {
   "property": "C16",
   "status": "partial",
   "theorems": [
    "memory_is_array_partial",
    "memory_failure_no_effect",
    "memory_read_past_end_refuted",
    "memory_clone_empty_refuted",
    "memory_empty_write_refuted",
    "memory_negative_seek_refuted"
   ],
   "note": "All sequences of calls at sensible positions (no negative position, reads start at or before the end, writes after the end are not empty, only non-empty data is cloned); each excluded case is refuted by witness. ReaderFrom/WriterTo are not modelled."
  },
  {
   "property": "C17",
   "status": "proved",
   "theorems": [
    "nbd_backend_is_array",
    "array_step_in_bounds",
    "nbd_backend_calls_end",
    "nbd_clone_keeps_sparse_refuted"
   ],
   "note": "Every program of calls, composed with the wire level client and with any server answering the requests it received as the protocol demands, errors included; the connection does not break. A clone does not keep the sparse option (refuted by witness)."
  },
  {
   "property": "C18",
   "status": "partial",
   "theorems": [
    "range_accepts_exactly_the_grammar",
    "range_accepts_exactly",
    "range_rejects_with_416",
    "range_digit_limit",
    "range_selects_rfc_bytes_partial",
    "suffix_zero_selects_everything_refuted",
    "long_range_raises_value_error_refuted"
   ],
   "note": "Acceptance is exact for every string. Two clauses are false: bytes=-0 gives the whole image, and with the digit limit of new Python versions a number of more than 4300 digits raises ValueError."
  },
  {
   "property": "C19",
   "status": "partial",
   "theorems": [
    "content_range_accepts_exactly_the_grammar",
    "content_range_accepts_exactly",
    "content_range_rejects_with_400",
    "content_range_digit_limit",
    "long_content_range_raises_value_error_refuted"
   ],
   "note": "Proved for every string; only with the digit limit of new Python versions a number of more than 4300 digits raises ValueError (refuted by witness)."
  },
  {
   "property": "C20",
   "status": "partial",
   "theorems": [
    "changes_only_inside_ticket",
    "modifying_operation_inside_ticket",
    "get_sends_only_ticket_bytes_partial",
    "get_sends_only_ticket_bytes_refuted",
    "no_access_does_nothing",
    "canceled_ticket_403"
   ],
   "note": "Proved for PUT and PATCH, and for GET unless an open range starts after the end of the ticket. In this case it is false: the server sends bytes after the end of the ticket and old buffer content (refuted by witness)."
  },
  {
   "property": "C21",
   "status": "partial",
   "theorems": [
    "body_never_overread",
    "invalid_length_reads_nothing",
    "body_delivered_in_order",
    "read_gets_the_body",
    "body_never_overread_refuted"
   ],
   "note": "Proved for every handler that does not ask for a negative size and does not read again after a failed read (no handler of the project does). A negative size reads to the end of the stream (refuted by witness)."
  },
  {
   "property": "C22",
   "status": "partial",
   "theorems": [
    "keep_alive_in_sync_partial",
    "put_does_its_part",
    "json_request_does_its_part",
    "answers_do_their_part_without_body",
    "error_closes_or_body_was_read",
    "keep_alive_in_sync_refuted",
    "invalid_length_keeps_connection_refuted",
    "every_request_is_answered_refuted"
   ],
   "note": "Proved for every handler that reads its body and for every failing handler. False when a handler succeeds without reading the body and when Content-Length is not valid (refuted by witness)."
  },
  {
   "property": "C23",
   "status": "proved",
   "theorems": [
    "dispatch_first_match",
    "dispatch_no_match",
    "dispatch_unknown_method",
    "only_the_api_is_served",
    "tickets_only_over_control",
    "the_api_is_served",
    "lost_client_gets_nothing",
    "image_requests_dispatched",
    "error_status",
    "error_after_start",
    "at_most_one_status_line",
    "default_response",
    "unknown_path_gets_404",
    "unknown_method_gets_405",
    "unknown_path_is_rejected_refuted",
    "error_reported",
    "answers_sent",
    "put_errors_are_400",
    "bad_head_closes"
   ],
   "note": "For every route table. The tables of the services use patterns without an end anchor, so more paths match than intended (refuted by witness)."
  },
  {
   "property": "C24",
   "status": "partial",
   "theorems": [
    "extents_cover",
    "extents_never_out_of_fuel",
    "extents_of_honest_server",
    "image_extents_cover_partial",
    "image_extents_of_honest_server",
    "image_extents_distinct_refuted",
    "extents_of_empty_export_refuted"
   ],
   "note": "Covering is proved for every server. Neighbours have different flags in nbdutil.extents(); in the backend API they may be of the same kind, as flags not visible there are compared too, and an empty export fails (refuted by witness)."
  },
  {
   "property": "C25",
   "status": "proved",
   "theorems": [
    "extents_flags",
    "extents_of_honest_server",
    "image_extents_flags",
    "image_extents_of_honest_server",
    "image_extents_unknown",
    "dirty_extents_without_base_refuted"
   ],
   "note": "Proved for every server. A server with a dirty bitmap but no base:allocation makes the request fail with KeyError (refuted by witness)."
  },
  {
   "property": "C26",
   "status": "proved",
   "theorems": [
    "commands_sent",
    "request_decoding",
    "oversized_request_not_sent"
   ],
   "note": "All commands but disconnect. Handles differ until 2^64 commands were sent."
  },
  {
   "property": "C27",
   "status": "proved",
   "theorems": [
    "structured_read",
    "simple_read",
    "read_keeps_buffer_size",
    "op_never_out_of_fuel",
    "read_checks_cover_refuted"
   ],
   "note": "Proved for every compliant server. A server leaving out a part of the reply is not detected (refuted by witness)."
  },
  {
   "property": "C28",
   "status": "partial",
   "theorems": [
    "failed_request_consumes_reply_partial",
    "failed_request_consumes_simple_reply_partial",
    "read_after_failed_request",
    "failed_request_consumes_simple_reply_refuted",
    "failed_request_consumes_reply_refuted",
    "failed_request_big_code_refuted"
   ],
   "note": "Proved for error codes below 2^31, with an error chunk for the whole request being last. False for a simple error reply to block status, for an error chunk that is not last, and for big error codes (refuted by witness)."
  },
  {
   "property": "C29",
   "status": "proved",
   "theorems": [
    "block_status_decoded",
    "extents_well_formed",
    "malformed_status_rejected"
   ],
   "note": ""
  },
  {
   "property": "C30",
   "status": "proved",
   "theorems": [
    "split_partition",
    "split_fuel_irrelevant"
   ],
   "note": ""
  },
  {
   "property": "C31",
   "status": "partial",
   "theorems": [
    "checksum_of_content",
    "returned_checksum_partial",
    "file_checksum_of_content",
    "blocks_determine_image",
    "checksum_of_short_read_refuted",
    "file_checksum_ends_refuted"
   ],
   "note": "Proved for complete reads. The checksum operation ignores the count of readinto(), so a short read gives a checksum of stale buffer content (refuted by witness). The plain pass over a file truncated while it is read never ends (refuted by witness)."
  },
  {
   "property": "C32",
   "status": "proved",
   "theorems": [
    "is_zero_exact"
   ],
   "note": ""
  },
  {
   "property": "C33",
   "status": "proved",
   "theorems": [
    "split_covers",
    "extent_requests"
   ],
   "note": ""
  },
  {
   "property": "C34",
   "status": "partial",
   "theorems": [
    "copy_content_partial",
    "copy_identical_partial",
    "copy_bytes_never_wrong",
    "copy_flushed",
    "copy_short_write_refuted",
    "copy_short_read_refuted"
   ],
   "note": "Proved for any schedule, any number of workers, buffer size and queue depth, for backend calls that do all the work or raise. The copy ignores the counts returned by readinto(), write() and zero(), so it reports success after short calls (refuted by witness)."
  },
  {
   "property": "C35",
   "status": "proved",
   "theorems": [
    "failure_reported",
    "success_executed",
    "no_false_failure"
   ],
   "note": ""
  },
  {
   "property": "C36",
   "status": "partial",
   "theorems": [
    "queue_fifo",
    "queue_closed",
    "requests_delivered",
    "copy_no_deadlock_partial",
    "copy_steps_bounded",
    "copy_completes",
    "copy_deadlock_refuted",
    "queue_deadlock_refuted",
    "copy_without_buffer_refuted"
   ],
   "note": "FIFO, bounded, close: for any producers and consumers. No deadlock: for copy() with at most as many workers as places in the queue (32). With more workers, and in general with several producers, a deadlock is possible because producers and consumers share one condition (refuted by witness)."
  },
  {
   "property": "C37",
   "status": "partial",
   "theorems": [
    "nbd_copy_identical",
    "nbd_copy_never_wrong",
    "nbd_copy_failure_reported",
    "nbd_copy_no_false_failure",
    "nbd_copy_steps_bounded",
    "nbd_copy_no_deadlock_partial",
    "nbd_copy_completes",
    "nbd_copy_stuck",
    "nbd_copy_request_limits",
    "nbd_copy_deadlock_refuted",
    "nbd_copy_thread_leak_refuted",
    "nbd_copy_empty_refuted"
   ],
   "note": "Content, flush and progress for every interleaving and failure; termination while no call raises. After a failing write the reader can wait forever (refuted by witness; nbd_copy_stuck shows it is the only way), after a failing read the writer thread is leaked (refuted), an empty export cannot be copied (refuted)."
  },
  {
   "property": "C38",
   "status": "proved",
   "theorems": [
    "extent_round_trip",
    "from_dict_any_order",
    "old_server_extents",
    "extents_over_http",
    "extents_follow_writes_refuted",
    "no_extents_feature"
   ],
   "note": "Objects in any order of members and with more members, objects of old servers, and end to end through the EXTENTS request. The answer is kept: after a write the extents are those of the old image (refuted by witness)."
  },
  {
   "property": "C39",
   "status": "partial",
   "theorems": [
    "ipv6_round_trip",
    "unquote_cases",
    "unix_url_round_trip_partial",
    "tcp_url_round_trip_partial",
    "nice_url_round_trip",
    "tcp_url_port_like_export_wrong",
    "tcp_url_round_trip_refuted",
    "unix_url_round_trip_refuted",
    "url_export_delimiter_refuted",
    "nice_url_port",
    "url_white_space",
    "url_variants",
    "url_scheme"
   ],
   "note": "Quoting round trips for every host. URLs round trip for every host and port, every socket path without colon and every export name without URL delimiters (for TCP also without a colon followed by a digit: proved wrong for every such name). The excluded cases are refuted by witness."
  },
  {
   "property": "C40",
   "status": "proved",
   "theorems": [
    "flush_after_last_modification",
    "flush_operation_flushes"
   ],
   "note": ""
  },
  {
   "property": "C41",
   "status": "proved",
   "theorems": [
    "readinto_request",
    "write_request",
    "zero_request",
    "flush_request",
    "read_from_request",
    "write_to_request",
    "empty_calls_succeed_refuted",
    "read_from_sends_everything_refuted",
    "write_to_writes_everything_refuted"
   ],
   "note": "For any server and any behaviour of the connection, at positions that are not negative and for lengths that are not 0. Calls with length 0 ask for an invalid range and raise; counts of the writer are ignored by write_to (refuted by witness)."
  },
  {
   "property": "C42",
   "status": "partial",
   "theorems": [
    "ticket_accepted_iff",
    "ticket_values",
    "put_ticket",
    "put_not_json",
    "ticket_size_checked_refuted",
    "ticket_negative_size_refuted",
    "put_uses_url_id_refuted"
   ],
   "note": "Exact for every JSON value with the meaning of types in Python. Booleans pass as integers, negative sizes are accepted, and the id of the URL is ignored (refuted by witness)."
  },
  {
   "property": "C43",
   "status": "partial",
   "theorems": [
    "detected_block_size_works",
    "known_storage_is_detected",
    "unsupported_storage_error_refuted",
    "file_size_is_length"
   ],
   "note": "The detected size is 512 or 4096 and works. The error for unsupported storage is an AttributeError raised while building the intended message (refuted by witness)."
  },
  {
   "property": "C44",
   "status": "partial",
   "theorems": [
    "tls_minimum_version_partial",
    "tls_minimum_version_refuted",
    "enable_tls1_1_refuted"
   ],
   "note": "With enable_tls1_1 nothing below TLS 1.1 is taken; without it (the default) TLS 1.0 is taken, so the property is refuted."
  },
  {
   "property": "C45",
   "status": "proved",
   "theorems": [
    "size_accepted",
    "size_meaning",
    "size_plain",
    "size_grammar_refuted",
    "size_text_partial",
    "size_text_large_wrong",
    "size_text_refuted"
   ],
   "note": "Sizes (number and unit) are accepted exactly within the limits with the number they denote; what else is accepted is characterised with int(). Texts of sizes are right below 1024 TiB and wrong from there on."
  },
  {
   "property": "C46",
   "status": "proved",
   "theorems": [
    "option_priority",
    "option_errors",
    "password_priority",
    "option_values",
    "option_table",
    "any_case"
   ],
   "note": "For the option list of the tool; argparse and the ini format are not modelled."
  },
  {
   "property": "C47",
   "status": "proved",
   "theorems": [
    "config_values",
    "config_errors",
    "config_order",
    "config_listing",
    "largest_name_wins",
    "safe_defaults"
   ],
   "note": "Files as sections with options; unknown sections and options are ignored. The ini text format is not modelled."
  },
  {
   "property": "C48",
   "status": "proved",
   "theorems": [
    "put_stores_body",
    "zero_request_zeroes",
    "flush_request_flushes",
    "get_sends_requested_bytes",
    "out_of_range_is_416",
    "close_as_asked",
    "every_request_ends",
    "error_statuses"
   ],
   "note": "For GET with an open range the start must not be after the end of the ticket, see C20. Empty reads at an unaligned offset fail."
  },
  {
   "property": "C49",
   "status": "proved",
   "theorems": [
    "options_lists_permitted_methods",
    "options_answers"
   ],
   "note": ""
  },
  {
   "property": "C50",
   "status": "partial",
   "theorems": [
    "foreign_chunk_refused",
    "foreign_simple_reply_refused",
    "foreign_simple_error_refused_refuted"
   ],
   "note": "Proved for structured replies and successful simple replies. The handle of a simple error reply is not checked (refuted by witness)."
  },
  {
   "property": "C51",
   "status": "proved",
   "theorems": [
    "copy_progress"
   ],
   "note": ""
  },
  {
   "property": "C52",
   "status": "partial",
   "theorems": [
    "store_is_dictionary",
    "requests_isolated",
    "failed_request_changes_nothing",
    "control_status_codes",
    "get_ticket",
    "put_then_get",
    "patch_ticket",
    "delete_ticket",
    "delete_idempotent",
    "delete_all",
    "ticket_persists",
    "patch_not_object_refuted",
    "delete_without_timeout_refuted",
    "get_ticket_no_more",
    "touch_extends"
   ],
   "note": "Proved with remove_timeout not 0. With remove_timeout 0 a DELETE answers 204 although the ticket is in use and stays; a PATCH that is JSON but no object gives a server error (refuted by witness). Overlapping requests: see AuthRaceModel.v."
  },
  {
   "property": "C53",
   "status": "proved",
   "theorems": [
    "delete_204_ticket_dead",
    "sequential_delete",
    "no_ticket_forgotten",
    "concurrent_delete_refuted",
    "delete_removes_new_ticket_refuted",
    "lost_ticket_in_use_refuted",
    "cleared_ticket_in_use_refuted",
    "delete_204_without_timeout_refuted"
   ],
   "note": "Composed with the ticket objects of C04-C06. When control requests overlap: a second DELETE can fail with 500, and a DELETE can remove a ticket added meanwhile; replaced and cleared tickets stay in use (all shown by witness)."
  },
  {
   "property": "C54",
   "status": "proved",
   "theorems": [
    "http_backend_is_an_array",
    "clones_share_the_array",
    "flush_makes_calls_durable",
    "flush_is_enough",
    "write_over_http_succeeds",
    "zero_over_http_succeeds",
    "flush_over_http_succeeds",
    "readinto_over_http_succeeds",
    "read_from_over_http_succeeds",
    "write_to_over_http_succeeds",
    "emulated_zero_succeeds",
    "size_from_extents_succeeds",
    "readinto_sees_new_size_refuted",
    "size_without_extents_refuted"
   ],
   "note": "Client, message texts and server handlers composed. Lost responses stand for all errors of http.client; after an error the next call starts a new request. The size is kept: an image that grows later is not seen (refuted by witness)."
  },
  {
   "property": "C55",
   "status": "proved",
   "theorems": [
    "connect_features",
    "connect_to_old_server",
    "options_members"
   ],
   "note": ""
  },
  {
   "property": "C56",
   "status": "proved",
   "theorems": [
    "handshake_complete",
    "handshake_sound",
    "handshake_contexts",
    "handshake_client",
    "dirty_bitmap_name_refuted",
    "minimum_block_size_refuted"
   ],
   "note": "Strings as UTF-8 bytes; which bytes are valid UTF-8 is a parameter. Findings: the name of the dirty bitmap is not checked, a minimum block size of 0 is accepted."
  },
  {
   "property": "C57",
   "status": "partial",
   "theorems": [
    "handshake_failure_partial",
    "abort_after_flags_refuted"
   ],
   "note": "Missing: the flags come first. Refuted: when the first message of the server is wrong, ABORT is sent without flags. Sockets that fail while sending are not covered by the failure theorem."
  },
  {
   "property": "C58",
   "status": "proved",
   "theorems": [
    "opened_backend_is_array",
    "opened_backend_extents"
   ],
   "note": "Handshake, transmission, backend and extents composed."
  },
  {
   "property": "C59",
   "status": "proved",
   "theorems": [
    "upload_content",
    "upload_identical",
    "upload_never_wrong",
    "upload_durable",
    "upload_progress",
    "upload_does_not_fit",
    "transfer_failure_reported",
    "transfer_no_false_failure",
    "transfer_never_stuck",
    "transfer_steps_bounded",
    "calm_transfer_succeeds",
    "calm_transfer_completes"
   ],
   "note": "Threads, HTTP backend, message texts and server handlers composed; requests of different workers are served one after the other. Never stuck: with at most 32 workers."
  },
  {
   "property": "C60",
   "status": "proved",
   "theorems": [
    "download_content",
    "download_identical",
    "download_overlay",
    "download_never_wrong",
    "download_progress",
    "incremental_refused",
    "malformed_extents_refused",
    "transfer_failure_reported",
    "transfer_no_false_failure",
    "transfer_never_stuck",
    "transfer_steps_bounded",
    "calm_transfer_succeeds",
    "calm_transfer_completes"
   ],
   "note": "As C59. The extents reported by the server are assumed to tile the image, and to be zero where they say so."
  },
  {
   "property": "C61",
   "status": "proved",
   "theorems": [
    "parallel_requests",
    "parallel_requests_order",
    "parallel_requests_end",
    "parallel_requests_succeed",
    "parallel_requests_fuel"
   ],
   "note": "System calls are atomic steps (POSIX: the range of one call). Ranges of writers with all their blocks are inside of the image; the kernel does one block requests completely."
  },
  {
   "property": "C62",
   "status": "partial",
   "theorems": [
    "parallel_requests",
    "parallel_distinct_ranges_refuted"
   ],
   "note": "True for ranges in different blocks (parallel_requests). Refuted in general: two writers of neighbour bytes in one block, both succeed, one byte is lost."
  },
  {
   "property": "C63",
   "status": "proved",
   "theorems": [
    "upload_success",
    "download_success",
    "command_result"
   ],
   "note": "Engine, qemu-img and the data transfer are oracles. Exit status of a command killed by a signal: for positive signal numbers."
  },
  {
   "property": "C64",
   "status": "partial",
   "theorems": [
    "ended_once",
    "upload_ended",
    "download_ended",
    "transfer_closed_partial",
    "transfer_closed_refuted",
    "disk_left_refuted"
   ],
   "note": "At most once, and finalized or cancelled after the data was transferred: proved. Never left behind: proved when engine can be asked for the transfer and the command is not interrupted, refuted otherwise. The disk: refuted."
  },
  {
   "property": "C65",
   "status": "proved",
   "theorems": [
    "polling_ends",
    "polls_bounded"
   ],
   "note": "The result does not depend on the fuel of the loops once it is more than the bound."
  },
  {
   "property": "C66",
   "status": "proved",
   "theorems": [
    "upload_options",
    "local_host"
   ],
   "note": "qemu-img is an oracle."
  },
  {
   "property": "C67",
   "status": "partial",
   "theorems": [
    "int_text_exact",
    "checksum_invalid_refused",
    "checksum_reply_partial",
    "checksum_succeeds",
    "checksum_reads",
    "checksum_canceled",
    "checksum_outside_ticket_refuted",
    "offered_algorithm_refuted"
   ],
   "note": "Proved for complete reads, with the checksum being that of the whole image. False in two points: the checksum is not limited to the size of the ticket, and some offered algorithms always fail (refuted by witness)."
  },
  {
   "property": "C68",
   "status": "proved",
   "theorems": [
    "uploaded_checksum",
    "verified_transfer",
    "equal_checksums"
   ],
   "note": "For complete reads (see C31). The hash function is a parameter with digests of one length."
  },
  {
   "property": "C69",
   "status": "proved",
   "theorems": [
    "nbd_extents_right",
    "nbd_extents_complete",
    "file_extents_right",
    "upload_from_nbd",
    "download_from_file",
    "download_from_nbd",
    "incremental_from_nbd",
    "round_trip",
    "downloaded_checksum",
    "memory_extents_right"
   ],
   "note": "Composition of Transfer, Extents, Nbd and Checksum. The content read from the local NBD server is the array of C17."
  },
  {
   "property": "C70",
   "status": "partial",
   "theorems": [
    "exits_when_asked_partial",
    "serves_until_asked",
    "terminates_when_asked",
    "signal_asks_partial",
    "exit_status",
    "notify_failure",
    "term_lost_refuted",
    "early_term_lost_refuted",
    "services_left_refuted"
   ],
   "note": "False in three points, refuted by witness: a signal between the check of running and pause() leaves the daemon asleep, one before start() is forgotten, and a socket that cannot be removed leaves services running at exit."
  },
  {
   "property": "C71",
   "status": "proved",
   "theorems": [
    "dropped_completely",
    "dropped_for_good",
    "never_serves_as_root",
    "privileges_when_needed",
    "privileges_kept",
    "control_socket_owner"
   ],
   "note": "Privileged means effective user 0; capabilities are not modelled."
  },
  {
   "property": "C72",
   "status": "partial",
   "theorems": [
    "starts_partial",
    "refuses_unusable",
    "wrong_port_binds_nothing",
    "last_port_refuted",
    "random_control_socket_refuted",
    "one_service_per_socket"
   ],
   "note": "False in two points, refuted by witness: port 65535 is refused, and so is a random (empty) control socket."
  },
  {
   "property": "C73",
   "status": "partial",
   "theorems": [
    "waiting_bounded",
    "waiting_answer",
    "operation_ends",
    "nothing_left_partial",
    "server_connection_closed",
    "success_means_work",
    "proxy_only_when_needed",
    "incremental_needs_qcow2",
    "process_left_refuted",
    "slow_kill_refuted"
   ],
   "note": "False, refuted by witness: a process is left running when connecting to it fails with an unexpected error, and one is not reaped when the killed process does not end in time. Proved for all other failures."
  },
  {
   "property": "C74",
   "status": "partial",
   "theorems": [
    "exposes_disk_partial",
    "local_images_read_only",
    "member_format_refuted",
    "member_chain_refuted",
    "process_options"
   ],
   "note": "False for members of tar files, refuted by witness: formats other than raw and qcow2 are not decoded, and backing_chain=False is ignored."
  },
  {
   "property": "C75",
   "status": "partial",
   "theorems": [
    "process_connections_partial",
    "upload_server_connections",
    "download_server_connections_partial",
    "no_workers_refuted",
    "download_server_connections_refuted"
   ],
   "note": "False in two points, refuted by witness: an upload with max_workers=0 needs two connections and allows one; a download uses max_readers + 1 connections to the server."
  },
  {
   "property": "C76",
   "status": "proved",
   "theorems": [
    "client_is_an_array",
    "read_fills_the_buffer",
    "bounds_are_checked",
    "calls_in_bounds_succeed",
    "client_flush_is_durable",
    "closed_client_does_nothing",
    "close_closes",
    "with_statement"
   ],
   "note": "Over the HTTP backend and server of C54. An empty write raises, see empty_calls_succeed_refuted of C54."
  },
  {
   "property": "C77",
   "status": "partial",
   "theorems": [
    "bar_state",
    "call_draws_one_line",
    "change_is_drawn",
    "nothing_after_close",
    "one_last_line",
    "failure_is_shown",
    "percents_grow",
    "elapsed_grows",
    "bar_is_current",
    "number_of_lines",
    "at_most_103_lines",
    "percents_within_one",
    "percents_not_ahead",
    "full_when_done",
    "humansize_is_right",
    "percents_exact_refuted",
    "full_early_refuted",
    "late_size_refuted",
    "humansize_large_refuted"
   ],
   "note": "Proved with the rounding of floats to 53 bits. Exact percents are refuted: 29 of 100 shows 28 percent; proved is that the value is at most one percent behind and never ahead up to 32 TiB, and 100 exactly at the end up to 8 PiB; refuted above. A size set late shows 0 percent until the next update. humansize of 1 EiB or more is wrong."
  },
  {
   "property": "C78",
   "status": "partial",
   "theorems": [
    "clock_counts",
    "clock_names",
    "run_measures",
    "run_not_twice",
    "repr_shows",
    "repr_zero_seconds_refuted",
    "repr_running_refuted",
    "bytes_added"
   ],
   "note": "Times are integers. Showing a clock is refuted in two cases: bytes in zero seconds raise ZeroDivisionError, and a running name shows the seconds of the current run only."
  },
  {
   "property": "C79",
   "status": "partial",
   "theorems": [
    "add_ticket_adds",
    "get_ticket_shows",
    "mod_ticket_extends",
    "del_ticket_removes",
    "del_ticket_again",
    "call_is_contained",
    "refused_call_changes_nothing",
    "profile_calls",
    "tool_status",
    "mod_ticket_needs_timeout",
    "del_empty_id_refuted",
    "del_other_id_refuted",
    "add_without_uuid_refuted",
    "ids_unquoted",
    "unsendable",
    "only_tickets_and_profile",
    "profile_requests"
   ],
   "note": "For other ids refuted: an empty id removes all tickets, 'a?b' and '%61' remove ticket 'a'. add_ticket without a uuid raises KeyError. mod-ticket without --timeout always fails."
  },
  {
   "property": "C80",
   "status": "partial",
   "theorems": [
    "reply_started",
    "reply_empty",
    "reply_error",
    "download_headers",
    "filename_injects_refuted",
    "filename_no_reply_refuted",
    "error_with_content_range_refuted",
    "utf8_exact",
    "names_any_case",
    "reply_json"
   ],
   "note": "Refuted for values with line breaks or lone surrogates, which the filename of a ticket can have: it adds headers, or no reply is sent. An error of a download keeps content-range and file name."
  },
  {
   "property": "C81",
   "status": "partial",
   "theorems": [
    "cors_reply",
    "web_page_transfers",
    "not_readable_refuted",
    "method_not_defined",
    "method_called"
   ],
   "note": "Replies to PATCH, of extents and checksums and to a preflight for /info/ cannot be read by a page."
  },
  {
   "property": "C82",
   "status": "partial",
   "theorems": [
    "finished_connection",
    "smooth_connection",
    "no_faults",
    "closed_once",
    "served_open",
    "one_backend",
    "shows_none",
    "no_buffer_refuted",
    "negative_timeout_refuted",
    "replaced_ticket_refuted",
    "close_error_refuted",
    "cancel_stops_refuted",
    "buffer_mapped",
    "no_mapped_left"
   ],
   "note": "Refuted without the exceptions: no memory for the buffer, a timeout the socket refuses, a ticket replaced by one with the same uuid leave the backend open; a failing close leaves the connection in the status and ends the clean up of cancel."
  },
  {
   "property": "C83",
   "status": "partial",
   "theorems": [
    "numbers_round_trip",
    "download_writes_a_stream",
    "upload_restores_the_frames",
    "truncated_stream_fails",
    "backup_and_restore",
    "upload_succeeds",
    "download_succeeds",
    "unknown_frames_fail",
    "incomplete_stop_frame_refused_refuted",
    "data_size_of_incremental_backup_refuted"
   ],
   "note": "Refuted without the exceptions: a stream without the last 17 bytes of the stop frame is accepted (it has all the data), and data-size of an incremental backup counts clean data that is not in the stream, against the documentation."
  },
  {
   "property": "C84",
   "status": "partial",
   "theorems": [
    "libvirt_copy_writes",
    "libvirt_copy_is_right",
    "libvirt_copy_succeeds",
    "data_after_holes_refuted"
   ],
   "note": "Refuted for streams with data after a hole: the offset is not advanced by a hole, so the data is written at the start of the hole and the copy succeeds with a wrong image. Where the data and holes are written is proved exactly for all streams."
  },
  {
   "property": "C85",
   "status": "partial",
   "theorems": [
    "session_closes_the_socket",
    "session_says_goodbye",
    "session_errors",
    "close_again",
    "exception_of_user_code_refuted",
    "failed_connection_is_closed_refuted",
    "interrupted_close_refuted"
   ],
   "note": "Refuted: if closing fails too, __exit__ raises AttributeError (log.exeption) instead of the exception of the code; after a protocol error the connection stays in use; if sending CMD_DISC is interrupted by KeyboardInterrupt the socket stays open (the theorems are for executions that are not interrupted). The rest is proved."
  },
  {
   "property": "C86",
   "status": "partial",
   "theorems": [
    "go_extents_cover",
    "go_extents_right",
    "go_extents_end",
    "go_extents_requests",
    "map_text_is_json",
    "map_prints_extents",
    "go_extents_end_refuted",
    "map_success_refuted",
    "map_closes_refuted"
   ],
   "note": "Refuted: replies with empty extents keep Extents busy for ever; errors of the standard output are ignored, so that the JSON can be cut with exit status 0; if GetSize or Extents fails the handle is not closed. The rest is proved."
  },
  {
   "property": "C87",
   "status": "partial",
   "theorems": [
    "go_nbd_reads",
    "go_http_calls",
    "go_http_reads_succeed",
    "go_nbd_reads_refuted",
    "go_http_reads_succeed_refuted",
    "go_http_size_refuted",
    "go_http_extents_again_refuted",
    "go_http_extents_decoded"
   ],
   "note": "Refuted: reading at exactly the end of the image (or no bytes over HTTP) is an error instead of EOF; a server without any extent for an empty image makes Size and ReadAt panic; after extents that could not be decoded the next call of Extents returns them. The rest is proved."
  },
  {
   "property": "C88",
   "status": "partial",
   "theorems": [
    "reads_any_json",
    "json_unambiguous",
    "dumps_loads_partial",
    "unicode_unpaired",
    "surrogates_refuted",
    "dumps_is_ascii",
    "last_name_wins",
    "message_received",
    "extents_received",
    "ticket_received",
    "member_uri",
    "file_name_refuted",
    "image_argument_right",
    "progress_lines"
   ],
   "note": "Refuted: a string with a high surrogate followed by a low one comes back as one character; a file name that is not UTF-8 is given to QEMU as an escape of a lone surrogate, which is no character. The rest is proved."
  },
  {
   "property": "C89",
   "status": "partial",
   "theorems": [
    "line_says",
    "line_fits",
    "one_row_partial",
    "bar_on_terminal",
    "long_phase_refuted",
    "rest_of_line_refuted",
    "narrow_terminal_refuted"
   ],
   "note": "Proved for terminals of at least 79 columns and phases of up to 26 characters. Refuted otherwise: ljust does not cut, so a longer line goes on in the next row (80 columns) or its end is left behind (wide terminal), and on a terminal of less than 79 columns every line takes a new row."
  },
  {
   "property": "C90",
   "status": "partial",
   "theorems": [
    "in_use_is_not_idle",
    "idle_was_inactive",
    "idle_time_right_partial",
    "idle_not_negative_partial",
    "idle_since_added",
    "end_race_refuted",
    "negative_refuted",
    "old_touch_refuted"
   ],
   "note": "Proved when every ended operation has been recorded by touch(), up to the longest duration of a touch. Refuted otherwise: between the removal of an operation that ran for 10 minutes and touch() the ticket is inactive and idle for 600 s; the idle time can be -1; a delayed touch() moves the time of the last use back."
  },
  {
   "property": "C91",
   "status": "partial",
   "theorems": [
    "signal_reported",
    "signal_ends_copy_partial",
    "signal_stops_requests",
    "signal_before_copy",
    "signal_status_partial",
    "signal_terminates_partial",
    "signal_copy_ends_partial",
    "late_signal_refuted",
    "other_error_refuted",
    "first_error_raised"
   ],
   "note": "Proved for all interleavings: nothing is started after the signal, the first signal is the one reported, and a copy that succeeds although a signal came had nothing left to start. Refuted: a signal during the last flush or later is ignored and the tool exits with 0; when closing the connection of a worker fails after the signal, the tool exits with 1."
  },
  {
   "property": "C92",
   "status": "proved",
   "theorems": [
    "config_shown",
    "shown_names_usable",
    "shown_config_reloads",
    "logger_gets_config",
    "attribute_names_needed"
   ],
   "note": "Floats are finite numbers: a nan or inf in a file is left out of the model. Files are what configparser makes of their text. attribute_names_needed shows that the hypothesis on names cannot be dropped."
  },
  {
   "property": "C93",
   "status": "partial",
   "theorems": [
    "create_understood_partial",
    "convert_understood_partial",
    "rebase_understood_partial",
    "bitmap_understood_partial",
    "compare_answer_partial",
    "info_right_partial",
    "measure_right_partial",
    "missing_member",
    "open_right_partial",
    "download_creates_partial",
    "option_name_refuted",
    "colon_refuted"
   ],
   "note": "Proved for names that do not start with a dash and have no colon before a slash. Refuted for other names by witness."
  },
  {
   "property": "C94",
   "status": "partial",
   "theorems": [
    "server_reached_partial",
    "only_this_name",
    "path_never_waits_partial",
    "shutdown_removes",
    "start_on_path",
    "abstract_name_kept",
    "other_names_unchanged",
    "shared_path_refuted",
    "any_file_removed_refuted",
    "abstract_waits_refuted",
    "tcp_starts",
    "tcp_bound",
    "tcp_not_link_local_partial",
    "tcp_link_local_refuted"
   ],
   "note": "Reaching a server is proved when a name is used by one live server at a time; refuted for two servers with one path. No client waits after a shutdown: proved for paths, refuted for abstract names. Not link local: proved if the host has no such address of the family, refuted otherwise."
  },
  {
   "property": "C95",
   "status": "partial",
   "theorems": [
    "image_opened",
    "failed_open_partial",
    "directory_leak_refuted",
    "file_name_partial",
    "file_name_refuted",
    "call_right",
    "call_supported",
    "clone_same_partial",
    "clone_truncates_refuted"
   ],
   "note": "Refuted parts: names with # ? or line breaks open another file; a directory leaves a descriptor; a clone of a backend opened with mode w truncates (the server opens with r and r+ only)."
  },
  {
   "property": "C96",
   "status": "partial",
   "theorems": [
    "uuid_canonical",
    "uuid_as_written",
    "uuid_by_digits_partial",
    "uuid_characters",
    "uuid_again",
    "uuid_distinct",
    "uuid_only_refuted",
    "uuid_typing_error_refuted"
   ],
   "note": "Refuted part: uuid.UUID uses int(), so texts with 0x, an underscore, a sign or white space in place of digits are accepted and give another UUID."
  },
  {
   "property": "C97",
   "status": "partial",
   "theorems": [
    "go_opens_named",
    "go_never_writes",
    "go_file_opened",
    "go_nbd_opened",
    "go_https_opened",
    "go_file_url",
    "go_unsupported",
    "go_handles_partial",
    "go_handle_leak_refuted",
    "go_file_name_partial",
    "go_file_name_refuted",
    "go_file_url_refuted"
   ],
   "note": "Refuted parts: the handle stays open when the size cannot be read; names with a hyphen first or a colon are not files for the qemu programs; file URLs without slashes or with a host open another file."
  },
  {
   "property": "C98",
   "status": "partial",
   "theorems": [
    "version_printed",
    "version_decides",
    "version_from_output",
    "version_runs_once",
    "version_update_refuted",
    "version_form_refuted"
   ],
   "note": "Refuted parts: an update of qemu-nbd is not noticed by a running process; a version of two numbers counts as older than the same with a zero, and a version with a suffix is an error, so that no server can be started."
  },
  {
   "property": "C99",
   "status": "partial",
   "theorems": [
    "copy_memory_partial",
    "copy_ends",
    "copy_short_refuted",
    "copy_past_end_refuted",
    "copy_empty_buffer_hangs",
    "stream_in_order",
    "stream_end_partial",
    "stream_end_refuted",
    "readinto_keeps_rest"
   ],
   "note": "Proved for memory backends as readers with enough data. Refuted parts: after a short read, and past the end, old content of the buffer is written; an empty chunk of a stream looks like its end. An empty buffer makes the copy endless."
  }
 ]
}