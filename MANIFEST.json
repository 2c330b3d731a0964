{"claims": [
 {"property": "C01", "status": "proved", "theorems": ["C01_messages_are_the_bytes"], "note": "For any splitting into reads, interruptions by end of file included."},
 {"property": "C02", "status": "proved", "theorems": ["C02_messages_are_the_lines", "C02_messages_between_ends_of_file", "C02_shape_of_lines", "C02_lines_lose_nothing"], "note": ""},
 {"property": "C03", "status": "partial", "theorems": ["C03_any_short_delimiters_partial", "C03_three_byte_delimiter_refuted", "C03_prefix_delimiter_refuted"], "note": "REFUTED in general: with a delimiter of three bytes, or one that is a prefix of another, messages depend on how the bytes arrive. Proved for any non-empty set of delimiters of at most two bytes none of which is a proper prefix of another."},
 {"property": "C04", "status": "proved", "theorems": ["C04_copy_keeps_order", "C04_copy_offers_before_reading", "C04_copy_ends_with_everything", "C04_terminate_output_gets_everything"], "note": ""},
 {"property": "C05", "status": "proved", "theorems": ["C05_fan_out"], "note": ""},
 {"property": "C06", "status": "proved", "theorems": ["C06_junction_fails_only_for_terminate", "C06_terminate_stops", "C06_terminate_stops_copy"], "note": ""},
 {"property": "C07", "status": "proved", "theorems": ["C07_consume_never_stops", "C07_consume_copy_reads_everything"], "note": ""},
 {"property": "C08", "status": "proved", "theorems": ["C08_finish_exactly_when_all_closed"], "note": ""},
 {"property": "C09", "status": "proved", "theorems": ["C09_junction_count", "C09_copy_count", "C09_regulator_count", "C09_faucet_count"], "note": "For motion (used by Launch, Drain and Buffer), junctions, regulators and faucets."},
 {"property": "C10", "status": "partial", "theorems": ["C10_buffer_releases", "C10_drain_releases", "C10_junction_never_panics", "C10_junction_releases_inputs", "C10_junction_leaves_outputs_open_refuted", "C10_launch_releases", "C10_copy_releases_everything", "C10_copy_never_panics", "C10_regulator_releases", "C10_faucet_releases_partial", "C10_faucet_open_failure_refuted", "C10_regulator_control_refuted"], "note": "REFUTED for the outputs of a junction that fails (junction.rs 162-184 never closes stdout on the error path), for a faucet whose file cannot be opened (its output stays open) and for the control channel of a regulator that fails; proved for motion, the inputs of a junction, the input and output of regulators, faucets that opened their file, drains, launches and buffers (with their size reports)."},
 {"property": "C100", "status": "proved", "theorems": ["C100_own_failures"], "note": "For every free run, so also for the polled ones."},
 {"property": "C101", "status": "partial", "theorems": ["C101_exit_refuted"], "note": "REFUTED: the pipe of the exit status does not give way whatever its mark. True part: C100_own_failures."},
 {"property": "C102", "status": "partial", "theorems": ["C102_spreads_refuted"], "note": "REFUTED: with unmarked pipes (T) failures spread. True part: C100_own_failures."},
 {"property": "C103", "status": "proved", "theorems": ["C103_all_end", "C103_no_endless_run"], "note": "For the polled runs (whole_run), any failures except missing sources and unstartable programs; the example is a run in which one of two files breaks."},
 {"property": "C104", "status": "partial", "theorems": ["C104_missing_refuted"], "note": "REFUTED: a missing source leaves its pipe open and the drain behind it waits for ever. The true part is C103."},
 {"property": "C105", "status": "proved", "theorems": ["C105_all_the_same", "C105_giving_way"], "note": "Both theorems are about configurations as written, with the interleaving of all that the sources gave. The marked form asks for drains and faucets only: a program can fail over its exit status (C101)."},
 {"property": "C106", "status": "partial", "theorems": ["C106_left_waiting_refuted"], "note": "REFUTED for unmarked pipes: a fork that fails over one broken branch never closes its other branches, so a file that is well is left with part of the lines and waits for ever. The true parts are C105."},
 {"property": "C107", "status": "proved", "theorems": ["C107_accepted", "C107_refused", "C107_as_in_configuration"], "note": ""},
 {"property": "C108", "status": "proved", "theorems": ["C108_symmetric", "C108_transitive", "C108_equal", "C108_whatever_the_moment"], "note": ""},
 {"property": "C109", "status": "partial", "theorems": ["C109_unlike_itself_refuted", "C109_which"], "note": "REFUTED: four kinds of error are never equal to anything, not even to themselves; C109_which says which."},
 {"property": "C11", "status": "proved", "theorems": ["C11_adding_inputs_and_outputs_keeps_ready", "C11_junction_copies_all_to_all"], "note": ""},
 {"property": "C110", "status": "proved", "theorems": ["C110_told_apart", "C110_bytes"], "note": ""},
 {"property": "C111", "status": "proved", "theorems": ["C111_held_back"], "note": "Sharp: the example attains the bound. Holds for every free order, hence for every run of the program."},
 {"property": "C112", "status": "partial", "theorems": ["C112_not_held_back_refuted", "C112_without_bound_refuted"], "note": "REFUTED: a buffer nobody watches takes whatever comes; a run of the program in which the source is more than ten times further ahead than the pipes can hold (C112_not_held_back_refuted), and for every number a run, as the program polls, in which it is further ahead than that (C112_without_bound_refuted). What is true with buffers: C113, C114."},
 {"property": "C113", "status": "proved", "theorems": ["C113_accounted_for"], "note": "For every configuration and every run in which nothing fails: sent <= written + pipes + stores on the way (Example: 200 sent, 3 written, 187 in the store)."},
 {"property": "C114", "status": "proved", "theorems": ["C114_held_back_by_regulators"], "note": "With every buffer behind its own watching regulator; from C113 and C97."},
 {"property": "C115", "status": "proved", "theorems": ["C115_named", "C115_refused", "C115_run"], "note": "Fails exactly when there is a fault, with the text of a fault it has; which one of several is not said."},
 {"property": "C116", "status": "proved", "theorems": ["C116_lint", "C116_process"], "note": "Every complaint is part of the text shown; without one there is no error."},
 {"property": "C117", "status": "proved", "theorems": ["C117_all_but_the_last"], "note": "With async_std's BufWriter between the drain and its file; every partial write and refusal."},
 {"property": "C118", "status": "partial", "theorems": ["C118_at_once_refuted", "C118_lost_refuted"], "note": "REFUTED: lines written successfully are still in memory (C118_at_once_refuted), and are lost when the drain fails at its end (C118_lost_refuted). What holds is C117."},
 {"property": "C119", "status": "proved", "theorems": ["C119_over", "C119_reported", "C119_named", "C119_exit"], "note": "The ends of the components are those of any free_run; what mc_run gives to main is required to be these ends (run_results), in place of the opaque value used by C56, C57 and C71."},
 {"property": "C12", "status": "proved", "theorems": ["C12_ends_after_all_inputs", "C12_outputs_closed_last", "C12_asks_live_inputs"], "note": ""},
 {"property": "C120", "status": "proved", "theorems": ["C120_delivered"], "note": "No assumption on the operating system beyond what M_BufWriter says: refusals show up as an exit status of 1. Sources that are read to the end are those C92 and C94 speak of."},
 {"property": "C121", "status": "partial", "theorems": ["C121_unnoticed_refuted", "C121_told"], "note": "REFUTED: the status of a program does not enter the result of its launch, so pa2 ends with 0. True: C121_told, when the exit code is 0 a file at the exit port of a program holds the program's status in decimal."},
 {"property": "C122", "status": "partial", "theorems": ["C122_left_out_refuted", "C122_unhurt_partial"], "note": "REFUTED: the standard input of a program gives way (Finish), so a program that stops reading misses lines and the exit code is 0. True: C122_unhurt_partial, if no write to the program was refused it got everything."},
 {"property": "C123", "status": "proved", "theorems": ["C123_relay", "C123_faucet", "C123_regulator", "C123_junction", "C123_buffer", "C123_program", "C123_buffer_ended", "C123_program_ended", "C123_same"], "note": "Buffers and programs also once all their parts are done (C123_buffer_ended, C123_program_ended), the latter with the exit status."},
 {"property": "C124", "status": "partial", "theorems": ["C124_arrived_refuted", "C124_end_refuted", "C124_end_partial", "C124_arrived_partial"], "note": "REFUTED as stated: a message refused by a closed Consume or Finish output is reported too (C124_arrived_refuted) and a junction reports an end for every input that ends (C124_end_refuted). True parts: where nobody has left an output it has accepted what was reported (C124_arrived_partial); a component with one input reports at most one end, and nothing after it (C124_end_partial)."},
 {"property": "C125", "status": "proved", "theorems": ["C125_relay", "C125_faucet", "C125_regulator", "C125_junction", "C125_buffer", "C125_program"], "note": "In both directions, for every component that can be given a spy, with buffers and programs as joined futures in any interleaving."},
 {"property": "C126", "status": "partial", "theorems": ["C126_left_refuted"], "note": "REFUTED: the refused report is an error (SpyWriteError) that stops the component although its output has taken the message. While the spy listens nothing changes (C125)."},
 {"property": "C127", "status": "proved", "theorems": ["C127_picture"], "note": "mc_dot, which writes a graph as text, is any function; that its text is DOT is C79 (refuted)."},
 {"property": "C128", "status": "proved", "theorems": ["C128_only_starts"], "note": "Every component and controller of every whole run of a configuration, regulators included. not_started: a launch asked for its program as configured and got an error. What a panic then does to the rest of the process is not modelled: whole_run holds of the run up to it."},
 {"property": "C129", "status": "partial", "theorems": ["C129_no_more_signals_than_news", "C129_news_between_signals", "C129_marks_reversed", "C129_marks_reversed_refuted"], "note": "REFUTED where the low mark is not below the high mark (the code does not look at their order): for any such marks one report, and signals without end. Proved in full where low < high: no more signals than news, and news between any two signals."},
 {"property": "C13", "status": "proved", "theorems": ["C13_better_inputs_first"], "note": "An input counts as gone once the junction has dropped it (closed_by), which C12 ties to its end."},
 {"property": "C14", "status": "partial", "theorems": ["C14_larger_number_first_refuted"], "note": "REFUTED: the smaller number is served first (C13), the opposite of the README."},
 {"property": "C15", "status": "partial", "theorems": ["C15_equal_priorities_refuted", "C15_first_inputs_in_turn_partial"], "note": "REFUTED for priorities other than the smallest (old_priority is only set for the first group); proved for the inputs of the smallest priority."},
 {"property": "C16", "status": "proved", "theorems": ["C16_pass_asks_in_order", "C16_at_most_once_per_pass", "C16_first_group_round_robin"], "note": ""},
 {"property": "C17", "status": "proved", "theorems": ["C17_removal_exact"], "note": ""},
 {"property": "C18", "status": "proved", "theorems": ["C18_delay_after_waits", "C18_junction_sleeps_when_idle"], "note": ""},
 {"property": "C19", "status": "proved", "theorems": ["C19_paused_regulator_passes_one", "C19_paused_faucet_passes_one"], "note": ""},
 {"property": "C20", "status": "proved", "theorems": ["C20_signals_alternate", "C20_repeated_requests_send_nothing"], "note": ""},
 {"property": "C21", "status": "proved", "theorems": ["C21_signals_at_the_marks", "C21_settled_after_every_pass", "C21_watches_only_live_buffers"], "note": "Sizes are natural numbers; the usize sum is taken not to overflow."},
 {"property": "C22", "status": "proved", "theorems": ["C22_ends_resumed", "C22_lets_go_only_when_resumed", "C22_never_panics"], "note": ""},
 {"property": "C23", "status": "proved", "theorems": ["C23_regulator_forwards_in_order", "C23_regulator_ends_with_everything", "C23_faucet_forwards_in_order", "C23_faucet_ends_with_everything"], "note": ""},
 {"property": "C24", "status": "partial", "theorems": ["C24_resume_waits_for_a_message_refuted", "C24_waits_for_one_signal_partial"], "note": "REFUTED: an idle regulator never notices the pause, so the resume waits for the next message. Proved: a signal waits only while exactly one earlier signal has not been noticed."},
 {"property": "C25", "status": "proved", "theorems": ["C25_fifo"], "note": "Any interleaving of the three parts and of everybody else. A Finish output found closed ends the buffer early with success, as documented."},
 {"property": "C26", "status": "proved", "theorems": ["C26_waits_only_for_input", "C26_soon"], "note": "Safety form (when neither the input side nor the counter can go on, the input side is waiting to receive or has ended) and a bound on the waiting for the counter (at most four of its steps). Any interleaving."},
 {"property": "C27", "status": "partial", "theorems": ["C27_no_underflow_partial", "C27_byte_input_refuted", "C27_reports_bounded"], "note": "REFUTED for a byte source given as input (possible through the API, never done by the waiter) whose read fails. Proved for every other run with the three parts polled in turn as async-std's join does (M_Poll); with an arbitrary interleaving the count could underflow."},
 {"property": "C28", "status": "partial", "theorems": ["C28_reports_differ", "C28_ends_empty_partial", "C28_ends_empty_refuted"], "note": "REFUTED when a Finish output is closed early: the buffer ends successfully with items left and reports their number. Otherwise proved (polled in turn); that consecutive reports differ is proved without exception."},
 {"property": "C29", "status": "partial", "theorems": ["C29_names_pipe_refuted", "C29_fails_partial"], "note": "REFUTED: the error is always NoneError, whichever pipe failed. That a failure is reported at all is proved."},
 {"property": "C30", "status": "proved", "theorems": ["C30_drain_writes_what_it_receives", "C30_null_drain_takes_everything", "C30_open_failure_is_reported"], "note": ""},
 {"property": "C31", "status": "partial", "theorems": ["C31_drain_destination_partial", "C31_faucet_source_partial", "C31_empty_text_refuted"], "note": "REFUTED for the empty text: the code asks for a file with an empty name instead of selecting nothing (C31_empty_text_refuted). Every other text except \"/dev/null\" (which the code treats as the null device) is proved."},
 {"property": "C32", "status": "proved", "theorems": ["C32_stdin_intact", "C32_stdout_intact", "C32_stderr_intact"], "note": "Any interleaving of the three relays."},
 {"property": "C33", "status": "proved", "theorems": ["C33_exit_port", "C33_exit_last", "C33_unconnected"], "note": "The port is closed last unless the exit message itself could not be delivered (which is then the error returned)."},
 {"property": "C34", "status": "partial", "theorems": ["C34_spawn_failure_refuted", "C34_spawn_failure_panics_partial"], "note": "REFUTED: the spawn error is unwrapped, so the launch panics (always: C34_spawn_failure_panics_partial)."},
 {"property": "C35", "status": "partial", "theorems": ["C35_launch_result_partial", "C35_hidden_error_refuted"], "note": "REFUTED when the exit message also fails: that error replaces the error of a relay (C35_hidden_error_refuted). Otherwise exactly as stated."},
 {"property": "C36", "status": "proved", "theorems": ["C36_transparent", "C36_complete"], "note": "stages: regulators (controlled or not), buffers, junctions with one input and one output; any number, any capacities, any interleaving, spied on or not. Launched programs are not stages of such a chain: what they print is up to them."},
 {"property": "C37", "status": "partial", "theorems": ["C37_never_stuck", "C37_bounded", "C37_finishes", "C37_nobody_refused", "C37_nobody_fails", "C37_willing_moves", "C37_willing_finishes", "C37_in_turn_nobody_fails", "C37_in_turn_moves", "C37_in_turn_finishes", "C37_no_endless_run", "C37_fair_runs_end", "C37_starts", "C37_performs", "C37_unfair_forever", "C37_every_schedule_ends", "C37_every_schedule_refuted"], "note": "REFUTED as worded for one phrase: with a buffer (or a junction, or a program whose exit status is asked for) in the chain not every schedule ends, because an unfair scheduler may let the counter of a buffer look and sleep for ever (C37_every_schedule_refuted, C37_unfair_forever). True and proved, for any network in which nothing flows back, not only chains: never stuck, a bounded amount of useful work, every fair run with limited input ends, nobody fails in a willing world (with the parts of buffers polled in turn, as they are), every network starts and can be run to the success of all; and every schedule ends where nobody looks and waits. Junctions need an output (polite): one without outputs lets go of an input at its first message."},
 {"property": "C38", "status": "partial", "theorems": ["C38_loop_refuted", "C38_whole_refuted"], "note": "REFUTED: a junction whose output is fed back to it through a regulator locks up in a willing world (C38_loop_refuted; C38_whole_refuted: the same from an accepted configuration file on, with the program's channel sizes and polling order): nobody has ended or failed and nobody will ever act again. What is true: C83 (a buffer in every loop prevents it) and C37 (nothing flows back). README.src.md 534-557 says that loops can deadlock."},
 {"property": "C39", "status": "proved", "theorems": ["C39_exact", "C39_rejects"], "note": "every byte string; positions in error messages not modelled"},
 {"property": "C40", "status": "proved", "theorems": ["C40_round_trip"], "note": ""},
 {"property": "C41", "status": "proved", "theorems": ["C41_well_formed"], "note": ""},
 {"property": "C42", "status": "proved", "theorems": ["C42_markers", "C42_defaults"], "note": ""},
 {"property": "C43", "status": "partial", "theorems": ["C43_rejected_refuted", "C43_taken_partial"], "note": "REFUTED: a bracketed priority that does not fit (or no number at all) is silently read as 0; the part that holds: a priority that fits is taken exactly"},
 {"property": "C44", "status": "proved", "theorems": ["C44_pairs", "C44_from_texts"], "note": "Pairing of every map of chains, and of every map of readable texts; names, order, ports, no overwriting."},
 {"property": "C45", "status": "partial", "theorems": ["C45_fresh", "C45_drains_refuted"], "note": "REFUTED for drains: names of drains used in connections but not configured are not consulted, so a generated drain can collide. Proved: the generator returns the least unused number and always ends; generated junction names are covered by C68 and generated connection keys by C48/C49."},
 {"property": "C46", "status": "proved", "theorems": ["C46_spread", "C46_prepared"], "note": "For add_junctions on every map of pairs and every hash order, and for the whole preparation (exception for unconfigured drains stated, see C45)."},
 {"property": "C47", "status": "proved", "theorems": ["C47_routes"], "note": "Routes through new junctions correspond one to one to original connections."},
 {"property": "C48", "status": "proved", "theorems": ["C48_marks"], "note": "Key, breakable and priority of each original connection kept; generated connections are Finish."},
 {"property": "C49", "status": "proved", "theorems": ["C49_one_exit", "C49_rest_kept"], "note": "Exactly one exit connection per launch that has an output; everything else kept; new drains are new to the configuration."},
 {"property": "C50", "status": "partial", "theorems": ["C50_sink_refuted", "C50_sources_partial"], "note": "REFUTED: a launch that is only an end of connections gets no exit connection and its status is never asked for. Proved: all launches with an output are connected."},
 {"property": "C51", "status": "partial", "theorems": ["C51_reported_refuted", "C51_panics"], "note": "REFUTED: preparation panics on any unreadable connection text (it runs before lint); proved for every configuration with such a text."},
 {"property": "C52", "status": "partial", "theorems": ["C52_prints_refuted", "C52_one_line"], "note": "REFUTED: every successful preparation prints exactly one line with the names of the configured drains."},
 {"property": "C53", "status": "proved", "theorems": ["C53_exact", "C53_shown"], "note": "Exact set of warnings, each once, and exact texts shown (C53_shown); configuration returned has its connections read and is otherwise the same."},
 {"property": "C54", "status": "partial", "theorems": ["C54_lint_enough_refuted", "C54_others_refuted", "C54_plain_partial", "C54_exact_partial"], "note": "REFUTED: seven configurations pass lint and cannot be built. C54_exact_partial says exactly when building succeeds (mentioned drains configured); C54_plain_partial gives simple sufficient conditions."},
 {"property": "C55", "status": "proved", "theorems": ["C55_built_as", "C55_exactly"], "note": "One component per type and name, distinct identifiers, one channel per connection with its port, breakable and priority; success exactly for buildable configurations. Identifiers and channels are numbered as the code creates them."},
 {"property": "C56", "status": "proved", "theorems": ["C56_accounts"], "note": "Sum of counts exactly when there are no errors; otherwise the errors are a permutation of the errors of all components."},
 {"property": "C57", "status": "partial", "theorems": ["C57_sorted_refuted", "C57_timed_partial"], "note": "REFUTED: errors without a time break the order. C57_timed_partial: sorted when all errors have times."},
 {"property": "C58", "status": "partial", "theorems": ["C58_shared_refuted", "C58_exact"], "note": "REFUTED: two regulators watching one buffer pass lint and panic at the start. C58_exact: exactly when configuring works, and what the controllers get."},
 {"property": "C59", "status": "proved", "theorems": ["C59_edits", "C59_typed", "C59_no_id"], "note": "every changing request against a description of its change; typed commands give those requests; without an id refused"},
 {"property": "C60", "status": "proved", "theorems": ["C60_ordered"], "note": "for every configuration that can be read"},
 {"property": "C61", "status": "proved", "theorems": ["C61_survives", "C61_read"], "note": "at the level of value trees: numbers within 64 bits, no repeated names; the text syntax is a parameter"},
 {"property": "C62", "status": "partial", "theorems": ["C62_settings", "C62_first_partial", "C62_reported_refuted", "C62_message"], "note": "REFUTED in one part: the message with the first malformed setting is thrown away by the command (C62_reported_refuted, C62_message). Splitting, last value wins and refusal are proved (C62_settings); the inner fold reports the first malformed setting (C62_first_partial)"},
 {"property": "C63", "status": "partial", "theorems": ["C63_name_refuted", "C63_default", "C63_function_partial"], "note": "REFUTED: the default value of --format hides the file name (C63_name_refuted); without --format it is always YAML (C63_default). The function would follow the name if there were no default (C63_function_partial)"},
 {"property": "C64", "status": "partial", "theorems": ["C64_depicts", "C64_strict_refuted", "C64_shown_partial"], "note": "REFUTED as stated: the graph is strict, so of two connections between the same components by different ports one is not shown (C64_strict_refuted). True parts: the statements of the diagram are exactly one edge per adjacent pair with its port and the nodes of the components with distinct identifiers (C64_depicts); connections whose ends are not shared with another port are shown, and nothing else is (C64_shown_partial)."},
 {"property": "C65", "status": "partial", "theorems": ["C65_accessors", "C65_no_pipe", "C65_time", "C65_printed_refuted", "C65_printed_partial", "C65_component"], "note": "REFUTED as stated: an error of reading or opening is printed with an unknown destination although it knows its pipe (C65_printed_refuted). The accessors agree (C65_accessors, C65_no_pipe, C65_time); every other error is printed with both ends of its pipe (C65_printed_partial), and one without a pipe with the component that failed (C65_component)."},
 {"property": "C66", "status": "proved", "theorems": ["C66_program_started_as_configured"], "note": ""},
 {"property": "C67", "status": "partial", "theorems": ["C67_error_refuted", "C67_buffer_partial", "C67_drain_partial", "C67_regulator", "C67_faucet", "C67_junction"], "note": "REFUTED: regulators, faucets and junctions that are not connected end with success, and a junction without outputs even takes a message (C67_error_refuted). Buffers and drains end at once with an error (C67_buffer_partial, C67_drain_partial); regulators, faucets and junctions without inputs end at once with success (C67_regulator, C67_faucet, C67_junction)."},
 {"property": "C68", "status": "proved", "theorems": ["C68_only_shared"], "note": ""},
 {"property": "C69", "status": "partial", "theorems": ["C69_prepared_partial", "C69_single_refuted", "C69_single_panics"], "note": "REFUTED: a list of one connection makes the preparation panic (proved for every such configuration). Proved: chains and readable texts are always prepared."},
 {"property": "C70", "status": "partial", "theorems": ["C70_deterministic_refuted"], "note": "REFUTED: the names of generated junctions depend on the hash order."},
 {"property": "C71", "status": "partial", "theorems": ["C71_priorities_refuted", "C71_always"], "note": "REFUTED: a launch fed with priorities passes lint and cannot be built; C71_always: this is so for every component other than a junction all of whose inputs have non-zero priority."},
 {"property": "C72", "status": "partial", "theorems": ["C72_decides", "C72_drain_refuted", "C72_named"], "note": "REFUTED for drains: an unconfigured drain with the name of a generated one is accepted (C72_drain_refuted). Exactly when a configuration is refused is proved, with drains counted after the preparation (C72_decides), and the texts name exactly what is missing (C72_named)"},
 {"property": "C73", "status": "partial", "theorems": ["C73_sides_refuted", "C73_exact"], "note": "REFUTED: a side that is not understood is lost (C73_sides_refuted). C73_exact says exactly what is read"},
 {"property": "C74", "status": "partial", "theorems": ["C74_all_refuted", "C74_two_refuted", "C74_whole_partial"], "note": "REFUTED: `config empty` and `config connection del` are always refused (C74_two_refuted). The other commands are understood (C74_whole_partial, C59_typed, C62_settings, C76_numbers)"},
 {"property": "C75", "status": "partial", "theorems": ["C75_blank_refuted", "C75_stdin"], "note": "REFUTED: standard input is read instead (C75_blank_refuted, C75_stdin)"},
 {"property": "C76", "status": "proved", "theorems": ["C76_numbers"], "note": ""},
 {"property": "C77", "status": "partial", "theorems": ["C77_misspelt_refuted", "C77_ignored", "C77_defaults", "C77_only", "C77_twice"], "note": "REFUTED: fields with unknown names are ignored (C77_misspelt_refuted, and C77_ignored for every reader). The defaults are proved (C77_defaults); nothing, texts and numbers are not read as structures (C77_only); a field given twice is refused (C77_twice). A sequence given for a structure is not modelled."},
 {"property": "C78", "status": "proved", "theorems": ["C78_legend"], "note": "Legend and diagram agree, shapes are distinct, colours too but for buffers and regulators."},
 {"property": "C79", "status": "partial", "theorems": ["C79_valid_refuted", "C79_names", "C79_valid_partial"], "note": "REFUTED: a launch called node gives text that is not DOT (C79_valid_refuted); every component name must be a DOT identifier (C79_names); with plain names and plain set names the whole text is valid (C79_valid_partial)."},
 {"property": "C80", "status": "proved", "theorems": ["C80_frames"], "note": "For every order of the hash map."},
 {"property": "C81", "status": "proved", "theorems": ["C81_codes", "C81_run"], "note": "C81_codes for every command; C81_run for pipelines that are run, whatever the results of the components (a buffer watched twice panics, see C58)."},
 {"property": "C82", "status": "partial", "theorems": ["C82_kinds_refuted", "C82_kinds_partial"], "note": "REFUTED as stated: failing to resume a regulator is described as failing to pause it (C82_kinds_refuted). That is the only confusion (C82_kinds_partial)."},
 {"property": "C83", "status": "proved", "theorems": ["C83_dammed_moves", "C83_in_turn", "C83_locked", "C83_straight"], "note": "all components, with launched programs that take what they are given (the pipes to a program are not modelled as bounded: writing to it is answered at any time). C83_dammed_moves asks for less than a willing world; C83_in_turn asks for nothing else."},
 {"property": "C84", "status": "proved", "theorems": ["C84_loop_lasts", "C84_no_end"], "note": "for loops of regulators, buffers and junctions; a program in the loop may close its output and end it. Proved for every run; everybody fed by such a loop, of any kind, never ends either."},
 {"property": "C85", "status": "partial", "theorems": ["C85_missing_source_refuted", "C85_one_of_two_refuted", "C85_others_end", "C85_whole_source_refuted", "C85_whole_file_refuted"], "note": "REFUTED: a missing source file leaves the rest of the pipeline waiting for ever (the output of the failed faucet is not closed), and a file that cannot be created behind one output of a junction leaves the drain behind the other output waiting for ever (the failed junction does not close its outputs); C85_whole_*: the same from accepted configuration files on, as the program polls. True (C85_others_end): no fair run is endless as long as sources and programs are there, no junction fails and no counter panics."},
 {"property": "C86", "status": "partial", "theorems": ["C86_regulated_refuted"], "note": "REFUTED: C86_regulated_refuted, an accepted configuration in which nothing flows back, with a regulator that watches a buffer, locks up in a willing world with the program's channel sizes and polling order: the controller waits for room in the control channel, the buffer waits for the controller to take its reports, the junction for the buffer, the regulator for the junction. Without regulation see C87."},
 {"property": "C87", "status": "proved", "theorems": ["C87_as_polled", "C87_in_turn", "C87_nobody_fails", "C87_never_locks", "C87_dammed", "C87_no_endless_run"], "note": "M_Start models Waiter::start. Proved for every wired network without controllers (C87_in_turn also with them): C87_as_polled, C87_nobody_fails, C87_never_locks, C87_dammed, C87_no_endless_run. The order is that of join_all for up to thirty components of a kind."},
 {"property": "C88", "status": "proved", "theorems": ["C88_wired", "C88_one_way", "C88_buffered", "C88_nobody_fails", "C88_never_locks", "C88_dammed", "C88_no_endless_run"], "note": "S_Shape states the conditions on the connections as written. Proved for every fair order of the hash maps, every accepted configuration and every network made of it without controllers: C88_wired, C88_one_way, C88_buffered (shape of the network), C88_nobody_fails, C88_never_locks, C88_dammed, C88_no_endless_run (its runs). C88_example_unbuffered: the loop that locks up in C38 is excluded."},
 {"property": "C89", "status": "proved", "theorems": ["C89_one_controller", "C89_shape", "C89_only_these", "C89_marks"], "note": "Every accepted configuration, every run in any order. C89_one_controller/C89_only_these: who tells whom; C89_marks: the marks, the buffers, the pauses heard, the bound before the first pause, one message after a pause; C89_shape: the rest of the pipeline is wired as for C88."},
 {"property": "C90", "status": "proved", "theorems": ["C90_only_delays", "C90_nobody_fails", "C90_standstill", "C90_small"], "note": "The only standstill of a one-way regulated pipeline is characterised; that it happens is C86."},
 {"property": "C91", "status": "proved", "theorems": ["C91_at_any_time", "C91_in_the_end", "C91_fed"], "note": "Whatever is written is a mix of beginnings of what was read at the sources that feed it; in the end of all of it."},
 {"property": "C92", "status": "proved", "theorems": ["C92_at_any_time", "C92_in_the_end", "C92_from_somewhere", "C92_given_once", "C92_spelled"], "note": "for configurations in which everything passes on (passing) and no junction directly follows itself (apart); loops and regulation included"},
 {"property": "C93", "status": "proved", "theorems": ["C93_so_far", "C93_copied", "C93_same_bytes", "C93_standstill", "C93_read_once"], "note": "At any time a beginning, in the end all of the bytes of the one source that leads to a drain or program; with several sources the same bytes; at a standstill unless a buffer is choked (C90)."},
 {"property": "C94", "status": "partial", "theorems": ["C94_merge_keeps_lines_refuted", "C94_whole_lines", "C94_exit_no_line"], "note": "REFUTED by a complete run in which the unfinished last line of one file is written together with a line of another. Proved for sources whose text ends where a line ends; exit statuses never end a line."},
 {"property": "C95", "status": "proved", "theorems": ["C95_looking", "C95_lasting", "C95_small_ends"], "note": "The double negation in C95_lasting avoids classical axioms; C95_small_ends and C95_looking have none."},
 {"property": "C96", "status": "partial", "theorems": ["C96_behind_refuted"], "note": "REFUTED by a regulator after the buffer it watches: an endless run that forgets nobody, in which nothing moves any more. True for buffers that come after their regulator: C95."},
 {"property": "C97", "status": "proved", "theorems": ["C97_bounded"], "note": "For every interleaving (free_run), so also for the polled runs; the example is a polled run in which the mark is passed."},
 {"property": "C98", "status": "partial", "theorems": ["C98_mark_refuted"], "note": "REFUTED: with marks 2 and 5 a polled run has 16 messages in the store. The true part is C97 (at most 28 above)."},
 {"property": "C99", "status": "partial", "theorems": ["C99_feeders_refuted"], "note": "REFUTED: a second source beside the regulator fills the store past the bound of C97 (63 messages, marks 2 and 5)."}
]}
