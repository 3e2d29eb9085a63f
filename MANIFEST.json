{
 "claims": [
  {
   "property": "C01",
   "status": "proved",
   "theorems": [
    "C01_writes_never_lost",
    "C01_writes_append",
    "C01_reused_buffer_is_clean",
    "C01_backpatch"
   ],
   "note": "every initial capacity, order and call sequence; also append, pool reuse and back-patching"
  },
  {
   "property": "C02",
   "status": "proved",
   "theorems": [
    "C02_write_then_read",
    "C02_short_read_fails",
    "C02_read",
    "C02_read_end",
    "C02_read_beyond_refuted",
    "C02_varint_refused"
   ],
   "note": "all integer kinds, arbitrary prefix and suffix; short fixed reads fail without consuming Finding: C02_read_beyond_refuted."
  },
  {
   "property": "C03",
   "status": "proved",
   "theorems": [
    "C03_encode_is_frame",
    "C03_roundtrip"
   ],
   "note": "encode = frame layout; decode(encode m ++ rest) for every message, metadata order, body and trailing bytes"
  },
  {
   "property": "C04",
   "status": "proved",
   "theorems": [
    "C04_sequence"
   ],
   "note": "any finite sequence of messages, by induction"
  },
  {
   "property": "C05",
   "status": "proved",
   "theorems": [
    "C05_accepts_only_motan2",
    "C05_bounded_consumption",
    "C05_truncated_is_error",
    "C05_metadata_is_line_pairs"
   ],
   "note": "every byte string and limit; also the meaning of accepted metadata"
  },
  {
   "property": "C06",
   "status": "proved",
   "theorems": [
    "C06_fields_independent",
    "C06_getters_complete",
    "C06_build_header",
    "C06_negative_values_refuted"
   ],
   "note": "refinement to independent fields over every call sequence; out-of-range negatives are accepted by the code (refuted)"
  },
  {
   "property": "C07",
   "status": "proved",
   "theorems": [
    "C07_roundtrip",
    "C07_unsupported_is_refused",
    "C07_repeated_key_last_wins",
    "C07_nil_element_refuted",
    "C07_empty_container_target_refuted",
    "C07_keys",
    "C07_float32"
   ],
   "note": "values outside the supported set are refused (findings: nil inside containers refused; empty container leaves a pointer target untouched)"
  },
  {
   "property": "C08",
   "status": "proved",
   "theorems": [
    "C08_multi_roundtrip"
   ],
   "note": "with and without targets"
  },
  {
   "property": "C09",
   "status": "proved",
   "theorems": [
    "C09_arbitrary_bytes",
    "C09_reads_inside",
    "C09_multi_terminates",
    "C09_truncation_detected",
    "C09_no_panic_refuted",
    "C09_multi_truncation_refuted"
   ],
   "note": "panics exist (C09_no_panic_refuted), only on input with a map tag; truncated argument lists may go unnoticed (refuted)"
  },
  {
   "property": "C10",
   "status": "proved",
   "theorems": [
    "C10_request",
    "C10_response",
    "C10_proxy_id",
    "C10_exception_response",
    "C10_heartbeat",
    "C10_value_with_exception_refuted",
    "C10_process_time",
    "C10_proxy_protocol"
   ],
   "note": "end to end over the wire; attachments under the reserved keys are overwritten by design, and a response with both value and exception loses the value (refuted)"
  },
  {
   "property": "C100",
   "status": "proved",
   "theorems": [
    "C100_results",
    "C100_leave",
    "C100_few",
    "C100_stuck_refuted",
    "C100_close_twice_refuted"
   ],
   "note": "Findings: C100_stuck_refuted, C100_close_twice_refuted. Sockets, clock and ICMP parsing are parameters of the steps."
  },
  {
   "property": "C101",
   "status": "proved",
   "theorems": [
    "C101_register",
    "C101_subscribe",
    "C101_registry_found",
    "C101_nothing",
    "C101_exact",
    "C101_unregister",
    "C101_group_parameter_refuted",
    "C101_same_address_refuted"
   ],
   "note": "Findings: C101_group_parameter_refuted, C101_same_address_refuted. JSON decoding, QueryUnescape and map orders are parameters."
  },
  {
   "property": "C102",
   "status": "proved",
   "theorems": [
    "C102_latest",
    "C102_settles",
    "C102_once",
    "C102_content",
    "C102_silent",
    "C102_unsubscribe",
    "C102_missing_node_refuted",
    "C102_resubscribe_refuted",
    "C102_lost_session_refuted",
    "C102_duplicate_refuted",
    "C102_unsubscribe_refuted",
    "C102_spin_refuted",
    "C102_subscribers"
   ],
   "note": "Findings: C102_missing_node_refuted, C102_resubscribe_refuted, C102_lost_session_refuted, C102_duplicate_refuted, C102_unsubscribe_refuted, C102_spin_refuted. The go-zookeeper client (one event per watch, then closed) is an assumption of the model."
  },
  {
   "property": "C103",
   "status": "proved",
   "theorems": [
    "C103_installed",
    "C103_asked",
    "C103_kept",
    "C103_bounded",
    "C103_ends",
    "C103_crash",
    "C103_on_time_no_crash",
    "C103_crash_refuted",
    "C103_late_refuted",
    "C103_stopped",
    "C103_can_stop",
    "C103_period",
    "C103_period_refuted"
   ],
   "note": "Findings: C103_late_refuted, C103_crash_refuted, C103_period_refuted. The answers of the meta service are parameters (MetaModel.v); one NotifyWeightChange reads all weights in one step; list refreshes are serialised by the cluster's lock."
  },
  {
   "property": "C104",
   "status": "proved",
   "theorems": [
    "C104_register",
    "C104_given",
    "C104_start",
    "C104_together",
    "C104_announced",
    "C104_available",
    "C104_told",
    "C104_order_refuted",
    "C104_deaf_refuted",
    "C104_port_zero_refuted",
    "C104_same_port_refuted",
    "C104_groups_refuted",
    "C104_early_refuted"
   ],
   "note": "C104_*_refuted are findings; concurrent use of Start and ServicesAvailable (unsynchronised map m.registries) is outside the model"
  },
  {
   "property": "C105",
   "status": "proved",
   "theorems": [
    "C105_starts",
    "C105_settings",
    "C105_logs",
    "C105_snapshots",
    "C105_agent_url",
    "C105_http",
    "C105_manage",
    "C105_manage_free",
    "C105_manage_unix",
    "C105_env_refuted",
    "C105_log_dir_refuted",
    "C105_announced_refuted",
    "C105_name_refuted",
    "C105_domain_refuted"
   ],
   "note": "Proved over the value tree of the configuration. Findings: C105_env_refuted, C105_log_dir_refuted, C105_announced_refuted, C105_name_refuted, C105_domain_refuted."
  },
  {
   "property": "C106",
   "status": "proved",
   "theorems": [
    "C106_waits",
    "C106_left",
    "C106_leak_refuted",
    "C106_missing_refuted",
    "C106_timeout",
    "C106_registers",
    "C106_registries_refuted",
    "C106_only",
    "C106_current",
    "C106_repeated",
    "C106_handled",
    "C106_late_refuted",
    "C106_overtaken_refuted",
    "C106_again_refuted"
   ],
   "note": "Findings: C106_leak_refuted, C106_missing_refuted, C106_registries_refuted, C106_late_refuted, C106_overtaken_refuted, C106_again_refuted."
  },
  {
   "property": "C107",
   "status": "proved",
   "theorems": [
    "C107_service",
    "C107_agent",
    "C107_failures",
    "C107_ends",
    "C107_denied_refuted",
    "C107_ephemeral_refuted",
    "C107_lost_refuted",
    "C107_command",
    "C107_command_fails",
    "C107_reads_only",
    "C107_shared_refuted"
   ],
   "note": "ZooKeeper's answers are modelled (trusted). Findings: C107_denied_refuted, C107_ephemeral_refuted, C107_lost_refuted, C107_shared_refuted."
  },
  {
   "property": "C108",
   "status": "proved",
   "theorems": [
    "C108_settings",
    "C108_period_refuted",
    "C108_first_refuted",
    "C108_writers",
    "C108_report",
    "C108_writer_panic_refuted",
    "C108_samplers",
    "C108_samples",
    "C108_sampler_panic_refuted",
    "C108_sampler_registers_refuted",
    "C108_panics",
    "C108_items",
    "C108_removed",
    "C108_removed_refuted"
   ],
   "note": "What the configuration decodes to, what samplers and writers do and the order of maps are oracles. Findings: C108_period_refuted, C108_first_refuted, C108_writer_panic_refuted, C108_sampler_panic_refuted, C108_sampler_registers_refuted, C108_removed_refuted."
  },
  {
   "property": "C109",
   "status": "proved",
   "theorems": [
    "C109_once_an_hour",
    "C109_names",
    "C109_prompt",
    "C109_exact_refuted",
    "C109_set_back_refuted",
    "C109_mill"
   ],
   "note": "The zone is taken as constant; when sleeps end and what the clock shows are oracles. Findings: C109_exact_refuted, C109_set_back_refuted."
  },
  {
   "property": "C11",
   "status": "proved",
   "theorems": [
    "C11_blocks_written",
    "C11_block_roundtrip",
    "C11_full_blocks_refuted"
   ],
   "note": "an equivalence: lossless exactly under the stated condition; finding C11_full_blocks_refuted"
  },
  {
   "property": "C110",
   "status": "proved",
   "theorems": [
    "C110_cached",
    "C110_apart",
    "C110_reads",
    "C110_accepts",
    "C110_clients",
    "C110_clusters",
    "C110_switchers",
    "C110_switchers_kept",
    "C110_log_dir",
    "C110_restart_refuted",
    "C110_placeholders_refuted",
    "C110_suffix_refuted",
    "C110_log_dir_refuted"
   ],
   "note": "Making a cluster is an oracle that does not fail; mapstructure.Decode of truth values is taken from its documentation. Findings: C110_restart_refuted, C110_placeholders_refuted, C110_suffix_refuted, C110_log_dir_refuted."
  },
  {
   "property": "C111",
   "status": "proved",
   "theorems": [
    "C111_referers",
    "C111_cluster",
    "C111_registries_refuted",
    "C111_items",
    "C111_commands",
    "C111_weights",
    "C111_weights_refuted",
    "C111_entries",
    "C111_exporter",
    "C111_provider",
    "C111_providers",
    "C111_servers",
    "C111_server",
    "C111_basic",
    "C111_answer",
    "C111_refused",
    "C111_starting_refuted"
   ],
   "note": "Findings: C111_registries_refuted, C111_weights_refuted, C111_starting_refuted. Reports are values of the kind json.Marshal writes; its text is not modelled. Whether a node is available, and the report of a foreign extension, are parameters. The map of ports is read without a lock while services may be exported (not modelled)."
  },
  {
   "property": "C112",
   "status": "proved",
   "theorems": [
    "C112_locations",
    "C112_own_section",
    "C112_routes",
    "C112_no_routes",
    "C112_refused",
    "C112_serves",
    "C112_services",
    "C112_no_services",
    "C112_settings",
    "C112_malformed_refuted",
    "C112_number_refuted",
    "C112_setting_refuted",
    "C112_order_refuted"
   ],
   "note": "Findings: C112_malformed_refuted, C112_number_refuted, C112_setting_refuted, C112_order_refuted. The YAML parser is not modelled: the tree is its result."
  },
  {
   "property": "C113",
   "status": "proved",
   "theorems": [
    "C113_same_result",
    "C113_as_direct",
    "C113_not_exported",
    "C113_request_seen",
    "C113_refused",
    "C113_lost",
    "C113_answer",
    "C113_http"
   ],
   "note": "The cluster behind the agent has one endpoint, asked once, and its filters pass the request on; retries and filters have properties of their own."
  },
  {
   "property": "C114",
   "status": "proved",
   "theorems": [
    "C114_call",
    "C114_not_bytes",
    "C114_agent_value",
    "C114_agent_error",
    "C114_metadata",
    "C114_breeze_multi",
    "C114_breeze_one",
    "C114_breeze_bytes",
    "C114_breeze_fails",
    "C114_no_argument_refuted",
    "C114_capitals_refuted"
   ],
   "note": "Findings: C114_no_argument_refuted, C114_capitals_refuted. The gRPC library and breeze's single-value codec are oracles."
  },
  {
   "property": "C115",
   "status": "proved",
   "theorems": [
    "C115_settings",
    "C115_dial",
    "C115_connects",
    "C115_periods_positive",
    "C115_no_keepalive",
    "C115_no_retry",
    "C115_keepalive_refuted"
   ],
   "note": "Findings: C115_keepalive_refuted, and the theorems C115_no_keepalive and C115_no_retry for every URL with such periods. net.DialTimeout is an oracle; time.NewTicker panics on periods that are not positive (Go documentation)."
  },
  {
   "property": "C116",
   "status": "proved",
   "theorems": [
    "C116_forwarded",
    "C116_no_location",
    "C116_newline_refuted",
    "C116_unknown_service"
   ],
   "note": "Finding: C116_newline_refuted. Trusted: fasthttp's header writer and reader (the raw header is a byte string), gzip and JSON lossless on the exception answered. The cluster has one endpoint that is asked once."
  },
  {
   "property": "C117",
   "status": "proved",
   "theorems": [
    "C117_own_result",
    "C117_computes",
    "C117_at_most_once",
    "C117_framing",
    "C117_nothing_lost"
   ],
   "note": "The connection is TCP: bytes are neither lost, changed nor reordered. One channel, requests and answers below the size limits (sizes_fit), motan2 only. Stream numbers are fresh (C13)."
  },
  {
   "property": "C118",
   "status": "proved",
   "theorems": [
    "C118_keeps_accepting",
    "C118_in_order",
    "C118_destroy_returns",
    "C118_stops",
    "C118_nothing_after",
    "C118_left_alone",
    "C118_count",
    "C118_remote_ip",
    "C118_logged_refuted",
    "C118_ipv6_refuted"
   ],
   "note": "C118_logged_refuted and C118_ipv6_refuted are findings."
  },
  {
   "property": "C119",
   "status": "proved",
   "theorems": [
    "C119_attempt",
    "C119_result",
    "C119_first_working",
    "C119_last_error",
    "C119_once",
    "C119_unsendable",
    "C119_at_most_once_refuted",
    "C119_value",
    "C119_business",
    "C119_lost",
    "C119_not_exported"
   ],
   "note": "C119_at_most_once_refuted is a finding."
  },
  {
   "property": "C12",
   "status": "proved",
   "theorems": [
    "C12_proxy",
    "C12_separate_block_refuted",
    "C12_full_target_refuted"
   ],
   "note": "findings: C12_separate_block_refuted, C12_full_target_refuted"
  },
  {
   "property": "C120",
   "status": "proved",
   "theorems": [
    "C120_reaches",
    "C120_selects",
    "C120_shared_counter_refuted",
    "C120_wrap_refuted"
   ],
   "note": "C120_shared_counter_refuted and C120_wrap_refuted are findings."
  },
  {
   "property": "C121",
   "status": "proved",
   "theorems": [
    "C121_own_answer",
    "C121_agreeing",
    "C121_same_system",
    "C121_returned_value_refuted",
    "C121_settled_refuted",
    "C121_error_untouched_refuted"
   ],
   "note": "C121_returned_value_refuted, C121_settled_refuted and C121_error_untouched_refuted are findings."
  },
  {
   "property": "C122",
   "status": "proved",
   "theorems": [
    "C122_tries",
    "C122_dead_servers",
    "C122_flapping_refuted",
    "C122_disabled_refuted",
    "C122_heartbeat_refuted",
    "C122_same_endpoint",
    "C122_same_heartbeat"
   ],
   "note": "C122_flapping_refuted, C122_disabled_refuted and C122_heartbeat_refuted are findings. Attempts and heartbeats are taken one at a time."
  },
  {
   "property": "C123",
   "status": "proved",
   "theorems": [
    "C123_tries",
    "C123_dead_servers",
    "C123_overlap_refuted"
   ],
   "note": "C123_overlap_refuted is a finding. Counting an error and taking the endpoint down is one step, as is an answered heartbeat; EpModel.v (C28) has them apart."
  },
  {
   "property": "C13",
   "status": "proved",
   "theorems": [
    "C13_ids_distinct"
   ],
   "note": "for every clock sequence and counter start"
  },
  {
   "property": "C14",
   "status": "proved",
   "theorems": [
    "C14_random",
    "C14_roundrobin",
    "C14_constant",
    "C14_select_array",
    "C14_array_exact"
   ],
   "note": "availability may change during the call"
  },
  {
   "property": "C15",
   "status": "proved",
   "theorems": [
    "C15_fair",
    "C15_near_fair",
    "C15_wrap_refuted"
   ],
   "note": "exact unless the 32-bit counter wraps inside the window, then off by at most one; finding C15_wrap_refuted"
  },
  {
   "property": "C16",
   "status": "proved",
   "theorems": [
    "C16_weights",
    "C16_window",
    "C16_window_size",
    "C16_installs",
    "C16_wrap_refuted"
   ],
   "note": "exact for ring, round robin and windows up to 50 endpoints; larger windows: bounds and non-divisibility of the window size; finding C16_wrap_refuted"
  },
  {
   "property": "C17",
   "status": "proved",
   "theorems": [
    "C17_group_weights",
    "C17_refresh_outcome",
    "C17_refresh_panics_refuted"
   ],
   "note": "with the weights the configuration text gives; refresh panics are characterised exactly"
  },
  {
   "property": "C18",
   "status": "proved",
   "theorems": [
    "C18_stable",
    "C18_fallback",
    "C18_installs",
    "C18_partitions",
    "C18_partitions_kept",
    "C18_single_unavailable_refuted",
    "C18_no_ring_panics_refuted"
   ],
   "note": "for two or more endpoints and any hashing library returning members; single endpoint and no-ring cases refuted"
  },
  {
   "property": "C19",
   "status": "proved",
   "theorems": [
    "C19_outcome",
    "C19_attempts_bounded",
    "C19_outcome_unique"
   ],
   "note": "failover loop, outcome relation in HaSpec; retries from the URL"
  },
  {
   "property": "C20",
   "status": "proved",
   "theorems": [
    "C20_entry",
    "C20_requests_bounded",
    "C20_round_bounded",
    "C20_answer",
    "C20_answer_settled",
    "C20_no_sender_blocks",
    "C20_success_taken",
    "C20_ratio_of_traffic_refuted",
    "C20_prompt_failure_refuted"
   ],
   "note": "interleaving model of any number of calls sharing the counters; two stronger readings refuted"
  },
  {
   "property": "C21",
   "status": "proved",
   "theorems": [
    "C21_lists",
    "C21_refers",
    "C21_never_empty",
    "C21_in_use_alive",
    "C21_reuse",
    "C21_no_leak",
    "C21_destroy",
    "C21_ignored_notification_refuted",
    "C21_duplicate_leak_refuted",
    "C21_destroy_filtered_refuted",
    "C21_endpoint_urls",
    "C21_destroy_once",
    "C21_weight"
   ],
   "note": "Cluster notifications: exact registry lists, union given to the balancer, never empty again, endpoint reuse, nothing in use destroyed, no leak without duplicate nodes; three refuted variants record findings"
  },
  {
   "property": "C22",
   "status": "proved",
   "theorems": [
    "C22_filter",
    "C22_no_filter"
   ],
   "note": "package net is a record of oracles (CIDR and IP parsing, containment)"
  },
  {
   "property": "C23",
   "status": "proved",
   "theorems": [
    "C23_route",
    "C23_name_with_to_refuted",
    "C23_middle_star_refuted"
   ],
   "note": "C23_name_with_to_refuted and C23_middle_star_refuted record where rules do not do what their text suggests"
  },
  {
   "property": "C24",
   "status": "proved",
   "theorems": [
    "C24_in_force",
    "C24_degrade",
    "C24_watched",
    "C24_watched_after_delivery",
    "C24_subscriptions",
    "C24_delivered",
    "C24_group_lists",
    "C24_own_change",
    "C24_unreadable_text_refuted",
    "C24_repeated_group_leak_refuted",
    "C24_route_fallback_refuted",
    "C24_static",
    "C24_command_change",
    "C24_weights",
    "C24_switcher",
    "C24_degrade_which"
   ],
   "note": "json, regexp and sort.Sort are oracles (sort_ok: any sorted permutation); the exact subscription law needs commands without repeated groups, refuted otherwise"
  },
  {
   "property": "C25",
   "status": "proved",
   "theorems": [
    "C25_cluster_chain",
    "C25_endpoint_chain",
    "C25_provider_chain",
    "C25_status"
   ],
   "note": "chains built by GetURLFilters/addFilter/WrapWithFilter as recursive nodes; a filter may answer by itself or pass on once; the unstable sort is any correct sort"
  },
  {
   "property": "C26",
   "status": "proved",
   "theorems": [
    "C26_answer",
    "C26_one_probe",
    "C26_never_early",
    "C26_opens",
    "C26_probe_lost_refuted",
    "C26_interleaved_success_refuted",
    "C26_good_response"
   ],
   "note": "exact answer for calls one after another over any history; for arbitrary interleavings of the atomic steps: one probe per window, never early, opens. The literal 'iff' is refuted under interleaving (a late switch-off after a success), and the probe is consumed by asking"
  },
  {
   "property": "C27",
   "status": "proved",
   "theorems": [
    "C27_delivery",
    "C27_one_call",
    "C27_never_nil",
    "C27_receiver_never_blocked",
    "C27_no_lost_answer",
    "C27_no_leak",
    "C27_send_error_leak_refuted",
    "C27_forged_id_refuted",
    "C27_pool_clean"
   ],
   "note": "Every interleaving of calls, answers, timers, closing and pooled-stream reuse on one channel. Two counterexamples are also proved: a failed send leaves its stream registered, and a peer answering with an id it was never sent can hand an answer to another call."
  },
  {
   "property": "C28",
   "status": "proved",
   "theorems": [
    "C28_down_only_at_threshold",
    "C28_every_trigger_acts",
    "C28_no_threshold",
    "C28_sequential",
    "C28_one_keepalive",
    "C28_looked_after",
    "C28_recovers",
    "C28_destroy_never_blocks",
    "C28_destroyed_stays_down",
    "C28_destroy_ends_keepalive",
    "C28_stranded_refuted",
    "C28_stranded_stays",
    "C28_profile_stays_down",
    "C28_threshold_truncated_refuted",
    "C28_destroyed_revives_refuted",
    "C28_not_before_connected"
   ],
   "note": "All interleavings of error handlers, keepalive goroutines, initialisation and Destroy; thresholds below 2^32. That an unavailable endpoint is always looked after holds unless a keepalive goroutine starts while another one is ending; the exception, thresholds of 2^32 and revival after Destroy are proved as counterexamples."
  },
  {
   "property": "C29",
   "status": "proved",
   "theorems": [
    "C29_slots",
    "C29_put_never_blocks",
    "C29_waits_for_a_holder",
    "C29_at_most_capacity",
    "C29_returned_channel_was_open",
    "C29_get_after_close_fails",
    "C29_no_leak",
    "C29_closed_once",
    "C29_reuses",
    "C29_no_close_no_panic",
    "C29_new",
    "C29_panic_refuted",
    "C29_closed_returned_refuted"
   ],
   "note": "Every interleaving of Get, Close, factory results and lost connections on one pool. Two counterexamples are proved for Get overlapping with Close: it can panic on the nil factory, and it can return a closed channel."
  },
  {
   "property": "C30",
   "status": "proved",
   "theorems": [
    "C30_default",
    "C30_exact",
    "C30_positive",
    "C30_zero_timeout_refuted",
    "C30_overflow_refuted"
   ],
   "note": "'Always positive' needs a positive lower bound and timeouts that fit into nanoseconds; two counterexamples without them are proved."
  },
  {
   "property": "C31",
   "status": "proved",
   "theorems": [
    "C31_own_id",
    "C31_always_answered",
    "C31_heartbeat",
    "C31_nil_is_exception",
    "C31_client_reads",
    "C31_motan1_own_id",
    "C31_connection",
    "C31_reads_what_was_sent",
    "C31_not_disconnected",
    "C31_no_waiting",
    "C31_motan1_bad_request_refuted",
    "C31_motan1_no_result_refuted",
    "C31_overload_refuted",
    "C31_motan1_given",
    "C31_lost"
   ],
   "note": "motan2: every message, handler result, interleaving of handler completions and cutting of the byte stream; what the client decodes is proved end to end. motan1: own id for handlers that keep it. Findings: undecodable or resultless motan1 requests and messages refused by the worker pool get no answer."
  },
  {
   "property": "C32",
   "status": "proved",
   "theorems": [
    "C32_table",
    "C32_calls_the_provider",
    "C32_not_exist",
    "C32_framework",
    "C32_agent_table",
    "C32_agent_calls",
    "C32_agent_not_exist",
    "C32_agent_key_clash_refuted",
    "C32_agent_stale_remove_refuted"
   ],
   "note": "plain server handler without side conditions; agent handler for group names without underscore (the key group_service is ambiguous otherwise, refuted), and its RmProvider removes newer providers too (refuted)."
  },
  {
   "property": "C33",
   "status": "proved",
   "theorems": [
    "C33_export",
    "C33_url",
    "C33_rounds",
    "C33_balanced",
    "C33_unknown_registry_refuted",
    "C33_available_after_unexport_refuted",
    "C33_available"
   ],
   "note": "every history of Export/Unexport/Available/Unavailable and registry configuration. Findings: an unknown registry name does not make Export fail; Unexport leaves the exporter available."
  },
  {
   "property": "C34",
   "status": "proved",
   "theorems": [
    "C34_roundtrip",
    "C34_decoded_is_stable",
    "C34_canonical",
    "C34_injective",
    "C34_unescaped_refuted"
   ],
   "note": "round trip, stability of anything decoded, canonical text, injectivity for URLs whose parts avoid the separators; C34_unescaped_refuted shows why that hypothesis is needed"
  },
  {
   "property": "C35",
   "status": "proved",
   "theorems": [
    "C35_reads_are_coherent",
    "C35_identity_is_coherent",
    "C35_direct_identity_refuted",
    "C35_merge_refuted",
    "C35_concurrent_put_refuted",
    "C35_duration",
    "C35_bool",
    "C35_merge",
    "C35_copy"
   ],
   "note": "findings: C35_direct_identity_refuted, C35_merge_refuted, C35_concurrent_put_refuted"
  },
  {
   "property": "C36",
   "status": "proved",
   "theorems": [
    "C36_can_serve",
    "C36_is_match"
   ],
   "note": "both directions for every pair of URLs"
  },
  {
   "property": "C37",
   "status": "proved",
   "theorems": [
    "C37_last_records",
    "C37_count",
    "C37_empty_ring_refuted",
    "C37_concurrent_readers_refuted"
   ],
   "note": ""
  },
  {
   "property": "C38",
   "status": "proved",
   "theorems": [
    "C38_is_a_map",
    "C38_unsafe_store_refuted"
   ],
   "note": "interleaving model; unhashable keys are not modelled"
  },
  {
   "property": "C39",
   "status": "proved",
   "theorems": [
    "C39_values",
    "C39_notifications",
    "C39_total",
    "C39_last_notification_refuted",
    "C39_empty_name_refuted"
   ],
   "note": "reading and writing a switcher's value is one step in the model"
  },
  {
   "property": "C40",
   "status": "proved",
   "theorems": [
    "C40_pick",
    "C40_unique",
    "C40_rewrite",
    "C40_rule_text",
    "C40_variables",
    "C40_query_needed",
    "C40_can_serve",
    "C40_empty_prefix_refuted",
    "C40_trailing_space_refuted",
    "C40_value_rescanned_refuted",
    "C40_no_variables",
    "C40_rule_words"
   ],
   "note": "every location list, path, query and regexp oracle; also rewrite rules, variables and CanServe. Findings: an empty prefix location is never chosen, a rule with trailing white space is refused, substituted values are rescanned."
  },
  {
   "property": "C41",
   "status": "proved",
   "theorems": [
    "C41_later_wins",
    "C41_rest_kept",
    "C41_lists_appended",
    "C41_maps_merged",
    "C41_nothing_invented",
    "C41_last_layer_wins",
    "C41_file_order",
    "C41_imports_end",
    "C41_pool_result",
    "C41_nil_entry_refuted",
    "C41_http_over_service_refuted"
   ],
   "note": "Merging and layering of configuration files proved for every value; refuted: nil entries in a later layer, and the documented precedence of service over http location when a later service file imports the location."
  },
  {
   "property": "C42",
   "status": "proved",
   "theorems": [
    "C42_packing",
    "C42_lines",
    "C42_names",
    "C42_filter_keys",
    "C42_single_line_refuted"
   ],
   "note": "Packing, uniqueness of the expected lines and distinctness of names, for all snapshots. C42_single_line_refuted: the lines of one histogram are never split, so a datagram can exceed the limit although each of its lines is small."
  },
  {
   "property": "C43",
   "status": "proved",
   "theorems": [
    "C43_conserved",
    "C43_settled",
    "C43_reported",
    "C43_quiet",
    "C43_stable_answer",
    "C43_lost_refuted",
    "C43_full_bus_refuted",
    "C43_kind_clash_refuted"
   ],
   "note": "For every interleaving. The unconditional claim (sum of reports equals additions) is false of the code: C43_lost_refuted shows the race between an adder and SnapshotAndClear."
  },
  {
   "property": "C44",
   "status": "proved",
   "theorems": [
    "C44_available_survives",
    "C44_fresh_unavailable",
    "C44_sequential",
    "C44_unavailable_forgotten",
    "C44_unavailable_refuted",
    "C44_overlap_refuted",
    "C44_recover_exact",
    "C44_unavailable_first"
   ],
   "note": "Findings: C44_unavailable_forgotten (for every history), C44_unavailable_refuted, C44_overlap_refuted."
  },
  {
   "property": "C45",
   "status": "proved",
   "theorems": [
    "C45_unlisted",
    "C45_exported_after_restart",
    "C45_never_unexported",
    "C45_unexport_refuted",
    "C45_suffix_refuted",
    "C45_stale_refuted",
    "C45_no_retry_refuted"
   ],
   "note": "Findings: C45_never_unexported (for every history), C45_unexport_refuted, C45_suffix_refuted, C45_stale_refuted, C45_no_retry_refuted."
  },
  {
   "property": "C46",
   "status": "proved",
   "theorems": [
    "C46_restored",
    "C46_known",
    "C46_available_all_refuted",
    "C46_unregister_refuted",
    "C46_unregister_down_refuted",
    "C46_dropped_refuted",
    "C46_shared_node_refuted",
    "C46_agent",
    "C46_agent_unregister_refuted",
    "C46_agent_available_refuted"
   ],
   "note": "Findings (refuted outside the stated conditions): C46_available_all_refuted, C46_unregister_refuted, C46_unregister_down_refuted, C46_dropped_refuted, C46_shared_node_refuted. Available and Unavailable are taken as atomic; the code releases its lock before working. Findings: C46_agent_unregister_refuted, C46_agent_available_refuted."
  },
  {
   "property": "C47",
   "status": "proved",
   "theorems": [
    "C47_bucket",
    "C47_burst",
    "C47_method",
    "C47_service",
    "C47_method_rates",
    "C47_service_rate",
    "C47_capacity",
    "C47_service_window_refuted",
    "C47_refused_is_charged_refuted",
    "C47_default_capacity",
    "C47_method_wait"
   ],
   "note": "the juju/ratelimit bucket algorithm is modelled as published (external library); bound per bucket, per method and for the service limit in any interleaving; the service bound at the moment of forwarding is refuted when method limits delay calls"
  },
  {
   "property": "C48",
   "status": "proved",
   "theorems": [
    "C48_serves",
    "C48_refuses",
    "C48_single_refuted",
    "C48_twice_refuted",
    "C48_route"
   ],
   "note": "Findings: a single candidate answers whatever is asked (C48_single_refuted); the same URL referred to twice makes requests without a group fail (C48_twice_refuted)."
  },
  {
   "property": "C49",
   "status": "proved",
   "theorems": [
    "C49_trim_split",
    "C49_split_meaning",
    "C49_pieces",
    "C49_join",
    "C49_terminates",
    "C49_unique",
    "C49_unique_order"
   ],
   "note": "ASCII white space; one- and multi-byte separators"
  },
  {
   "property": "C50",
   "status": "proved",
   "theorems": [
    "C50_shuffle"
   ],
   "note": ""
  },
  {
   "property": "C51",
   "status": "proved",
   "theorems": [
    "C51_accepts_only_motan1",
    "C51_bounded_consumption",
    "C51_truncated_is_error",
    "C51_sequence"
   ],
   "note": ""
  },
  {
   "property": "C52",
   "status": "proved",
   "theorems": [
    "C52_request_safe",
    "C52_response_safe",
    "C52_panic_refuted"
   ],
   "note": "panics confined to two kinds of cut streams and real there (C52_panic_refuted)"
  },
  {
   "property": "C53",
   "status": "proved",
   "theorems": [
    "C53_response_id",
    "C53_heartbeat_request",
    "C53_heartbeat_response",
    "C53_exception_response",
    "C53_empty_message_refuted",
    "C53_is_heartbeat"
   ],
   "note": "error messages from 1 to 65535 bytes; an empty message builds no response (finding)"
  },
  {
   "property": "C54",
   "status": "proved",
   "theorems": [
    "C54_forward_request",
    "C54_original_uncompressed",
    "C54_forward_response"
   ],
   "note": ""
  },
  {
   "property": "C55",
   "status": "proved",
   "theorems": [
    "C55_wrr_sound",
    "C55_window_nil_refuted"
   ],
   "note": "nil only when all unavailable, except for the window selector (C55_window_nil_refuted)"
  },
  {
   "property": "C56",
   "status": "proved",
   "theorems": [
    "C56_weights_bounded",
    "C56_configured_weight"
   ],
   "note": ""
  },
  {
   "property": "C57",
   "status": "proved",
   "theorems": [
    "C57_direct_lookup",
    "C57_order_irrelevant",
    "C57_overlap_refuted"
   ],
   "note": "every table and order; overlapping entries make the answer order dependent (C57_overlap_refuted)"
  },
  {
   "property": "C58",
   "status": "proved",
   "theorems": [
    "C58_protocol_and_port",
    "C58_port_only",
    "C58_always_a_protocol",
    "C58_three_parts_refuted"
   ],
   "note": "a malformed value with three parts silently means port 9982 (C58_three_parts_refuted)"
  },
  {
   "property": "C59",
   "status": "proved",
   "theorems": [
    "C59_after_command",
    "C59_withdrawn",
    "C59_order_irrelevant",
    "C59_shared_map_refuted"
   ],
   "note": "One cluster issuing the commands; with two clusters the shared map of original values makes the statement false (C59_shared_map_refuted)."
  },
  {
   "property": "C60",
   "status": "proved",
   "theorems": [
    "C60_answer",
    "C60_config",
    "C60_exception_preserved_refuted",
    "C60_biz",
    "C60_settings",
    "C60_overflow_refuted",
    "C60_logged"
   ],
   "note": "hystrix.Do is an oracle (refused / ran / timed out) Finding: C60_overflow_refuted."
  },
  {
   "property": "C61",
   "status": "proved",
   "theorems": [
    "C61_filter",
    "C61_cluster_filter",
    "C61_buckets",
    "C61_no_kind_clash",
    "C61_escape",
    "C61_methods_refuted",
    "C61_items_refuted",
    "C61_nil_response_refuted",
    "C61_escape_chars"
   ],
   "note": "Refuted parts are theorems: methods differing only in escaped characters share counters, group and service are concatenated without separator, and a nil response is counted but panics."
  },
  {
   "property": "C62",
   "status": "proved",
   "theorems": [
    "C62_call_ends",
    "C62_not_early",
    "C62_early_timeout_refuted"
   ],
   "note": "The not-early half assumes no stale tick; C62_early_timeout_refuted shows the schedule where a recycled stream keeps one."
  },
  {
   "property": "C63",
   "status": "proved",
   "theorems": [
    "C63_group",
    "C63_group_only",
    "C63_always_answers",
    "C63_what_counts",
    "C63_group_exact",
    "C63_own_errors",
    "C63_attempts_group",
    "C63_attempts_group_refuted"
   ],
   "note": "Given the outcomes of the pool and the channel as parameters. C63_attempts_group_refuted is a finding."
  },
  {
   "property": "C64",
   "status": "proved",
   "theorems": [
    "C64_calls",
    "C64_names",
    "C64_clashes",
    "C64_rest",
    "C64_var_char",
    "C64_escape"
   ],
   "note": "header calls as made on fasthttp; fasthttp's own canonicalisation is not modelled"
  },
  {
   "property": "C65",
   "status": "proved",
   "theorems": [
    "C65_form",
    "C65_names_refuted"
   ],
   "note": "names without & = % +, which the code does not escape (refuted otherwise)"
  },
  {
   "property": "C66",
   "status": "proved",
   "theorems": [
    "C66_bool_words",
    "C66_absent",
    "C66_values",
    "C66_number_one_refuted",
    "C66_int64_refuted",
    "C66_exact",
    "C66_float"
   ],
   "note": "Getters and the documented words; refuted: the number 1 as a truth value and Int64 on YAML integers."
  },
  {
   "property": "C67",
   "status": "proved",
   "theorems": [
    "C67_replaced",
    "C67_others_kept",
    "C67_pool_value",
    "C67_plain_value",
    "C67_lists_refuted",
    "C67_two_patterns_refuted"
   ],
   "note": "Replacement proved for every configuration; refuted: placeholders inside lists, and determinism when two patterns match."
  },
  {
   "property": "C68",
   "status": "proved",
   "theorems": [
    "C68_section",
    "C68_refused",
    "C68_basic",
    "C68_no_basic",
    "C68_lists_refuted",
    "C68_blank_port_refuted",
    "C68_sections"
   ],
   "note": "Both directions; refuted: list and int64 parameters become empty, a blank port panics."
  },
  {
   "property": "C69",
   "status": "proved",
   "theorems": [
    "C69_filters",
    "C69_others_kept",
    "C69_disable_refuted"
   ],
   "note": "Exact set of filters for every iteration order; refuted: disabling a default filter that is also global."
  },
  {
   "property": "C70",
   "status": "proved",
   "theorems": [
    "C70_services",
    "C70_panics",
    "C70_identities",
    "C70_sub_groups",
    "C70_numbered_refuted",
    "C70_sub_clash_refuted",
    "C70_stale_identity_refuted",
    "C70_renamed_identity_refuted"
   ],
   "note": "Under the stated freshness of generated names; refuted without it, and identities are refuted when a basic service or the renamed protocol caches them too early."
  },
  {
   "property": "C71",
   "status": "proved",
   "theorems": [
    "C71_in_use_alive",
    "C71_reload",
    "C71_clean_text_tells_path",
    "C71_lost_subscription_refuted",
    "C71_leak_refuted",
    "C71_command_key_refuted",
    "C71_command_key"
   ],
   "note": "The exact destruction is for references of which the text tells the path (C71_clean_text_tells_path). Findings: C71_lost_subscription_refuted, C71_leak_refuted, C71_command_key_refuted."
  },
  {
   "property": "C72",
   "status": "proved",
   "theorems": [
    "C72_keeps",
    "C72_nothing_else",
    "C72_fills"
   ],
   "note": ""
  },
  {
   "property": "C73",
   "status": "proved",
   "theorems": [
    "C73_survives",
    "C73_answered_saved",
    "C73_quiet",
    "C73_keys",
    "C73_crash_while_writing_refuted",
    "C73_revived_refuted",
    "C73_clusters"
   ],
   "note": "JSON round trip of URLs assumed. Findings: C73_crash_while_writing_refuted, C73_revived_refuted."
  },
  {
   "property": "C74",
   "status": "proved",
   "theorems": [
    "C74_zk_discover",
    "C74_java",
    "C74_not_java",
    "C74_direct_list",
    "C74_addresses_total",
    "C74_direct_own",
    "C74_direct_none",
    "C74_bad_node_refuted",
    "C74_zk_plain",
    "C74_zk_down",
    "C74_java_bare"
   ],
   "note": "Finding: C74_bad_node_refuted."
  },
  {
   "property": "C75",
   "status": "proved",
   "theorems": [
    "C75_no_mixup",
    "C75_kept",
    "C75_retry_refuted",
    "C75_forward",
    "C75_exception"
   ],
   "note": "Step-by-step model of all goroutines touching pooled messages; the retry case is refuted (C75_retry_refuted)."
  },
  {
   "property": "C76",
   "status": "proved",
   "theorems": [
    "C76_served",
    "C76_unserved",
    "C76_default",
    "C76_never_own",
    "C76_own_refuted",
    "C76_reply",
    "C76_exception",
    "C76_answered",
    "C76_form",
    "C76_form_headers",
    "C76_form_group_refuted",
    "C76_agent",
    "C76_mesh",
    "C76_mesh_body_refuted",
    "C76_form_refused",
    "C76_no_reply",
    "C76_form_result"
   ],
   "note": "findings as theorems: C76_own_refuted, C76_form_group_refuted, C76_mesh_body_refuted"
  },
  {
   "property": "C77",
   "status": "proved",
   "theorems": [
    "C77_service",
    "C77_shared",
    "C77_destroyed_once",
    "C77_destroy",
    "C77_leak_refuted"
   ],
   "note": "finding as a theorem: C77_leak_refuted"
  },
  {
   "property": "C78",
   "status": "proved",
   "theorems": [
    "C78_newest",
    "C78_apart",
    "C78_noclash",
    "C78_queue",
    "C78_refresh",
    "C78_refreshed",
    "C78_old_refuted",
    "C78_clash_refuted",
    "C78_starved_refuted",
    "C78_groups",
    "C78_groups_apart_refuted"
   ],
   "note": "findings as theorems: C78_old_refuted, C78_clash_refuted, C78_starved_refuted, C78_groups_apart_refuted"
  },
  {
   "property": "C79",
   "status": "proved",
   "theorems": [
    "C79_env",
    "C79_env_equals_refuted",
    "C79_dynamic",
    "C79_merged",
    "C79_value",
    "C79_static",
    "C79_answered",
    "C79_fresh",
    "C79_supported",
    "C79_left_alone",
    "C79_shared_refuted",
    "C79_off_refuted"
   ],
   "note": "findings as theorems: C79_env_equals_refuted, C79_shared_refuted, C79_off_refuted"
  },
  {
   "property": "C80",
   "status": "proved",
   "theorems": [
    "C80_wire",
    "C80_roundtrip",
    "C80_truncated",
    "C80_multi",
    "C80_typed",
    "C80_refused",
    "C80_slice",
    "C80_grpc",
    "C80_grpc_one",
    "C80_int_refuted",
    "C80_slice_refuted",
    "C80_behind_slice_refuted",
    "C80_ptr_slice_refuted",
    "C80_merged_refuted",
    "C80_zeroed_refuted",
    "C80_grpc_refused"
   ],
   "note": "Findings: C80_int_refuted, C80_slice_refuted, C80_behind_slice_refuted, C80_ptr_slice_refuted, C80_merged_refuted, C80_zeroed_refuted. The protobuf library is an oracle (record codec) for messages; its buffer primitives are modelled from the library source, which is not in /repo."
  },
  {
   "property": "C81",
   "status": "proved",
   "theorems": [
    "C81_computes",
    "C81_every_call",
    "C81_client_request_ordinary",
    "C81_not_exported",
    "C81_refused_arguments",
    "C81_method_name",
    "C81_extra_arguments_refuted",
    "C81_argument_for_none_refuted",
    "C81_int_parameter_refuted",
    "C81_nil_refuted",
    "C81_reply_type_refuted",
    "C81_types",
    "C81_stored"
   ],
   "note": "End-to-end composition of client, wire, server, dispatch, provider and simple serialization. Findings: surplus arguments dropped, an argument for a parameterless method panics, int parameters cannot be called, nil arguments and results are errors, reply of another type silently left alone."
  },
  {
   "property": "C82",
   "status": "proved",
   "theorems": [
    "C82_listed",
    "C82_told",
    "C82_agent_agrees",
    "C82_discover",
    "C82_initialize",
    "C82_unanswered_blocks",
    "C82_lost_answer_refuted",
    "C82_changed_parameters_refuted",
    "C82_port_zero_refuted",
    "C82_subscribe"
   ],
   "note": "findings: C82_lost_answer_refuted, C82_changed_parameters_refuted, C82_port_zero_refuted"
  },
  {
   "property": "C83",
   "status": "proved",
   "theorems": [
    "C83_fresh",
    "C83_clone",
    "C83_isolated",
    "C83_own",
    "C83_clone_arguments_refuted",
    "C83_clone_handlers_refuted",
    "C83_clone_attachment_refuted",
    "C83_clone_version_refuted",
    "C83_sent",
    "C83_attachments_sent"
   ],
   "note": "findings: the four refuted theorems"
  },
  {
   "property": "C84",
   "status": "proved",
   "theorems": [
    "C84_last_registered",
    "C84_provider",
    "C84_registry",
    "C84_registry_parameters_refuted",
    "C84_blank_name_refuted",
    "C84_number_name_refuted"
   ],
   "note": "findings: C84_registry_parameters_refuted, C84_blank_name_refuted, C84_number_name_refuted"
  },
  {
   "property": "C85",
   "status": "proved",
   "theorems": [
    "C85_once",
    "C85_result",
    "C85_not_stuck",
    "C85_unbuffered_refuted"
   ],
   "note": "finding: C85_unbuffered_refuted"
  },
  {
   "property": "C86",
   "status": "proved",
   "theorems": [
    "C86_once",
    "C86_get",
    "C86_post",
    "C86_headers",
    "C86_answer",
    "C86_answer_httpx",
    "C86_refused",
    "C86_two_holes",
    "C86_ways",
    "C86_proxied",
    "C86_no_arguments_refuted",
    "C86_other_methods_refuted",
    "C86_string_refuted",
    "C86_query_in_format_refuted",
    "C86_inner_names_refuted",
    "C86_httpx_id_refuted",
    "C86_proxy_sends"
   ],
   "note": "Findings: C86_no_arguments_refuted, C86_other_methods_refuted, C86_string_refuted, C86_query_in_format_refuted, C86_inner_names_refuted, C86_httpx_id_refuted."
  },
  {
   "property": "C87",
   "status": "proved",
   "theorems": [
    "C87_backend",
    "C87_bad",
    "C87_forward",
    "C87_motan1_unanswered_refuted",
    "C87_unset_refuted",
    "C87_destroy_refuted",
    "C87_meta_motan1_refuted",
    "C87_local",
    "C87_local_discover",
    "C87_local_shared_refuted",
    "C87_meta"
   ],
   "note": "Findings (refuted halves): refusals under id 0 never answer a motan1 caller; missing proxy parameter; destroy of a misconfigured provider; local references share a provider."
  },
  {
   "property": "C88",
   "status": "proved",
   "theorems": [
    "C88_stream",
    "C88_kept",
    "C88_no_limit",
    "C88_size",
    "C88_write",
    "C88_clean",
    "C88_recognised",
    "C88_backup_name",
    "C88_no_panic",
    "C88_same_hour_refuted",
    "C88_hourly_and_size_refuted",
    "C88_stat_refuted",
    "C88_age_refuted",
    "C88_zone_refuted",
    "C88_limit"
   ],
   "note": "Findings: C88_same_hour_refuted, C88_hourly_and_size_refuted, C88_stat_refuted, C88_age_refuted, C88_zone_refuted."
  },
  {
   "property": "C89",
   "status": "proved",
   "theorems": [
    "C89_once",
    "C89_millis",
    "C89_account",
    "C89_order",
    "C89_discards",
    "C89_drains",
    "C89_columns",
    "C89_line_inj",
    "C89_level",
    "C89_forge_refuted",
    "C89_bar_refuted",
    "C89_encode_refuted",
    "C89_second_async_refuted",
    "C89_level_names",
    "C89_room",
    "C89_bounded",
    "C89_level_texts"
   ],
   "note": "Findings: C89_forge_refuted, C89_bar_refuted, C89_encode_refuted, C89_second_async_refuted."
  },
  {
   "property": "C90",
   "status": "proved",
   "theorems": [
    "C90_parse",
    "C90_only",
    "C90_total",
    "C90_unambiguous",
    "C90_print",
    "C90_cut_accepted_refuted",
    "C90_single_quotes_refuted",
    "C90_leading_variable_refuted"
   ],
   "note": "Full grammar equivalence. Findings: C90_cut_accepted_refuted (an unfinished last directive is dropped silently), C90_single_quotes_refuted, C90_leading_variable_refuted."
  },
  {
   "property": "C91",
   "status": "proved",
   "theorems": [
    "C91_convert",
    "C91_rewrite",
    "C91_blank_refuted",
    "C91_https_refuted",
    "C91_panics_refuted",
    "C91_flag_refuted"
   ],
   "note": "Conversion composed with the parser and with the rule parser of http/httpProxy.go. Findings: C91_blank_refuted, C91_https_refuted, C91_panics_refuted, C91_flag_refuted. The YAML printing of the result is not modelled."
  },
  {
   "property": "C92",
   "status": "proved",
   "theorems": [
    "C92_bound",
    "C92_once",
    "C92_complete",
    "C92_limit_refuted",
    "C92_overlap_refuted",
    "C92_durations",
    "C92_response_durations",
    "C92_times_add_up",
    "C92_wanted",
    "C92_policy",
    "C92_policy_overlap_refuted"
   ],
   "note": "Findings: C92_limit_refuted (one more than MaxTraceSize), C92_overlap_refuted (overlapping dumps return traces twice; a trace created in a holder already returned is lost), C92_policy_overlap_refuted (two overlapping trace requests leave tracing on)."
  },
  {
   "property": "C93",
   "status": "proved",
   "theorems": [
    "C93_queue",
    "C93_log_call",
    "C93_order",
    "C93_each",
    "C93_all_given",
    "C93_missed_only",
    "C93_served",
    "C93_goes_on",
    "C93_channel",
    "C93_drains_refuted"
   ],
   "note": "Transition system of log calls, the consumer goroutine, registrations and channel reads with any interleaving. Finding: C93_drains_refuted. Not modelled: rendering of the content, the caller's position, sends to unbuffered channels with a waiting receiver, the unsynchronised len() read racing with AddAsyncFilter."
  },
  {
   "property": "C94",
   "status": "proved",
   "theorems": [
    "C94_sent",
    "C94_env_total",
    "C94_answer",
    "C94_read",
    "C94_no_blank_line",
    "C94_outcomes",
    "C94_status_lost_refuted",
    "C94_status_panics_refuted",
    "C94_cookies_refuted",
    "C94_arguments_lost_refuted",
    "C94_id_lost_refuted",
    "C94_failed"
   ],
   "note": "The FastCGI client is a function from what is sent to what comes back. Findings: C94_status_lost_refuted, C94_status_panics_refuted, C94_cookies_refuted, C94_arguments_lost_refuted, C94_id_lost_refuted."
  },
  {
   "property": "C95",
   "status": "proved",
   "theorems": [
    "C95_call",
    "C95_chain",
    "C95_transparent",
    "C95_default",
    "C95_panic_masked_refuted",
    "C95_nil_response_refuted",
    "C95_retry_nested_refuted"
   ],
   "note": "The tracer is a parameter with the contract that an injected context is extracted again; the recorder and the rest of the chain are arbitrary. Findings: C95_panic_masked_refuted, C95_nil_response_refuted, C95_retry_nested_refuted. The tags other than the error tag and callers that are neither providers nor endpoints are not modelled."
  },
  {
   "property": "C96",
   "status": "proved",
   "theorems": [
    "C96_table",
    "C96_exact",
    "C96_subtree",
    "C96_probe",
    "C96_denied",
    "C96_frame",
    "C96_user",
    "C96_status",
    "C96_told",
    "C96_debug",
    "C96_switch",
    "C96_switch_unregistered",
    "C96_switch_answers",
    "C96_log",
    "C96_meta",
    "C96_registry_status",
    "C96_registry_order",
    "C96_registry_status_refuted",
    "C96_runtime",
    "C96_refers",
    "C96_invalid_rules_refuted",
    "C96_one_log_setting_refuted",
    "C96_counts",
    "C96_method",
    "C96_client_calls_refuted",
    "C96_own",
    "C96_registered",
    "C96_registered_env",
    "C96_answers",
    "C96_log_answers",
    "C96_status_file",
    "C96_status_file_refuted"
   ],
   "note": "Findings: C96_registry_status_refuted, C96_invalid_rules_refuted, C96_one_log_setting_refuted, C96_client_calls_refuted, C96_status_file_refuted (the status file says 200 after /503 too). Permission check, JSON and user handlers are parameters."
  },
  {
   "property": "C97",
   "status": "proved",
   "theorems": [
    "C97_tick",
    "C97_once"
   ],
   "note": ""
  },
  {
   "property": "C98",
   "status": "proved",
   "theorems": [
    "C98_files",
    "C98_flush_mid",
    "C98_unwritable",
    "C98_shared_file_refuted"
   ],
   "note": "Finding: C98_shared_file_refuted. JSON and the file system are abstracted to contents per key."
  },
  {
   "property": "C99",
   "status": "proved",
   "theorems": [
    "C99_plain",
    "C99_exact",
    "C99_fallback",
    "C99_time",
    "C99_zero_refuted",
    "C99_registries",
    "C99_one_group",
    "C99_unsubscribe_refuted",
    "C99_unsubscribe"
   ],
   "note": "Findings: C99_zero_refuted, C99_unsubscribe_refuted. The regular expression and the pings are parameters."
  }
 ]
}