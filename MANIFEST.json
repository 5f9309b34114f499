{"claims": [
 {"property": "C01", "status": "proved", "theorems": ["C01_only_authentic_messages", "C01_only_authentic_messages_history"], "note": ""},
 {"property": "C02", "status": "proved", "theorems": ["C02_banned_inert"], "note": ""},
 {"property": "C03", "status": "proved", "theorems": ["C03_errors_never_forgotten"], "note": ""},
 {"property": "C04", "status": "proved", "theorems": ["C04_exact_effect"], "note": ""},
 {"property": "C05", "status": "proved", "theorems": ["C05_preprocess_never_fails"], "note": ""},
 {"property": "C06", "status": "partial", "theorems": ["C06_remote_harmless_refuted", "C06_cached_then_again_refuted", "C06_remote_harmless_partial"], "note": "False of the code: a message of a party not expected in the round, or a second message of a party whose first came from the cache, makes add_processed_message fail locally. The partial theorem gives the conditions (expected senders, nothing outstanding from the same sender, evidence available) under which it holds."},
 {"property": "C07", "status": "proved", "theorems": ["C07_at_most_one_message"], "note": ""},
 {"property": "C08", "status": "proved", "theorems": ["C08_can_finalize_meaning"], "note": ""},
 {"property": "C09", "status": "proved", "theorems": ["C09_finalized_with_proper_inputs", "C17_echo_round_transparent"], "note": "The second theorem covers rounds followed by an echo round."},
 {"property": "C10", "status": "proved", "theorems": ["C10_progress_not_lost"], "note": ""},
 {"property": "C100", "status": "proved", "theorems": ["C100_network", "C100_run_sync"], "note": "Any messages of any parties turned down, provably or not; exact blame in every schedule, and in run_sync."},
 {"property": "C101", "status": "proved", "theorems": ["C101_drivers"], "note": "Networks of run_session with any messages of any parties turned down."},
 {"property": "C102", "status": "proved", "theorems": ["C102_par_drivers"], "note": "Networks of par_run_session (at most 101 parties, see C60) with any messages of any parties turned down."},
 {"property": "C103", "status": "proved", "theorems": ["C103_description_tells"], "note": "Descriptions determine the kind of evidence and the round number."},
 {"property": "C104", "status": "proved", "theorems": ["C104_timeouts"], "note": "Any moment of any schedule of an honest network; lost messages are messages that stay in flight."},
 {"property": "C105", "status": "proved", "theorems": ["C105_faults", "C105_network"], "note": "Chains: faults of the parts are faults of the chain, with errors referring to earlier messages; and C100 for the chain, if in the parts everybody sends to everybody else (see C83 for why)."},
 {"property": "C106", "status": "proved", "theorems": ["C106_reports", "C106_returns"], "note": "run_async with turned down messages: the reports it returns are right whatever happens; it returns reports of all parties if nobody goes past the round in which messages are turned down (C72 shows what happens otherwise) and the channels have room (C70)."},
 {"property": "C107", "status": "proved", "theorems": ["C107_reports", "C107_returns"], "note": "C106 for run_async with offload_processing = true."},
 {"property": "C108", "status": "proved", "theorems": ["C108_combinators", "C108_examples", "C108_session", "C108_second_part"], "note": "For the combinators, given that the entry points they are made from are right; for all entry points of the repository (examples, tests, benchmarks)."},
 {"property": "C109", "status": "proved", "theorems": ["C109_sessions", "C109_simple"], "note": "C109_sessions for any protocol; C109_simple is its consequence for simple.rs. The example C109_panic shows that one claim can make the sum overflow, so that the honest party panics."},
 {"property": "C11", "status": "partial", "theorems": ["C11_awaited_not_banned_refuted", "C11_awaited_not_banned_partial", "C11_waits_forever", "C11_run_session_waits", "C11_par_run_session_waits"], "note": "False of the code: a party banned in an earlier round, or before being heard in this one, is still awaited. The partial theorem states what is true of awaited parties. Such a round is never finished, whatever happens: both drivers wait until they are cancelled (proved)."},
 {"property": "C110", "status": "proved", "theorems": ["C110_dining"], "note": "The entry point may be any that starts with round 1."},
 {"property": "C111", "status": "proved", "theorems": ["C111_echo_broadcasts", "C111_normal_broadcasts", "C111_direct_messages", "C111_errors", "C111_reports"], "note": "For any protocol. The missing messages of the transcript are the subject of C12."},
 {"property": "C112", "status": "proved", "theorems": ["C112_banned", "C112_evidence", "C112_evidence_shows", "C112_unprovable"], "note": "For any protocol. Errors are filed under the sender of the message, also if the evidence names another party (C23)."},
 {"property": "C113", "status": "proved", "theorems": ["C113_reason", "C113_only_with_reason"], "note": "Whether preprocess_message returns an outcome at all is the subject of C05."},
 {"property": "C114", "status": "proved", "theorems": ["C114_course"], "note": "For any protocol; extends C13 from one round to whole sessions."},
 {"property": "C115", "status": "proved", "theorems": ["C115_adding", "C115_unexpected"], "note": "Exact form of C06, in terms of the history of the round; any protocol."},
 {"property": "C116", "status": "proved", "theorems": ["C116_ending"], "note": "Exact form of C55, in terms of the history of the round; any protocol."},
 {"property": "C117", "status": "partial", "theorems": ["C117_not_stopped_refuted", "C117_anybody_stops_it", "C117_error_cause_partial"], "note": "False: whenever run_session waits, a correctly signed message of anybody not expected in the round makes it return an error (proved for all states, consequence of C06). Proved: a complete list of the reasons for which run_session returns an error."},
 {"property": "C118", "status": "partial", "theorems": ["C118_not_stopped_refuted", "C118_anybody_can_stop_it", "C118_error_cause_partial"], "note": "False, as C117; moreover whether par_run_session returns an error or the result may depend only on the order in which its tasks finish. Proved: a complete list of the reasons for which par_run_session returns an error."},
 {"property": "C119", "status": "partial", "theorems": ["C119_schedule_refuted", "C119_results_agree_partial", "C119_histories_agree_partial"], "note": "False if somebody signs two messages for a round: with the same messages received in the same order, results differ by schedule (consequence of C53). Proved: if nobody does, any two calls of run_session or par_run_session (or uses of the API) that end with a result end with the same."},
 {"property": "C12", "status": "proved", "theorems": ["C12_accounting", "C12_no_missing_in_earlier_rounds"], "note": ""},
 {"property": "C120", "status": "proved", "theorems": ["C120_one_course", "C120_same_outcome"], "note": "For all calls of run_session that are not cancelled and whose channels do not fail, without any assumption about the messages."},
 {"property": "C121", "status": "partial", "theorems": ["C121_independent_refuted", "C121_toss_tells"], "note": "False: run_async clones its generator for every node, so in the dining cryptographers the tosses of diners 1 and 2 are whether diner 0 paid (proved for all parameters). What holds if the tosses are drawn independently is C92."},
 {"property": "C122", "status": "proved", "theorems": ["C122_missing_exact", "C122_cancelled"], "note": "For all executions of run_session that end with a report, of a session with any transcript."},
 {"property": "C123", "status": "partial", "theorems": ["C123_missing_exact_refuted", "C123_parallel_exact"], "note": "False: on cancellation par_run_session drops the results of processing that it has not taken from their channel, and reports the senders as missing. What holds: it reports as missing exactly those whose result it has not taken, and only if it was cancelled."},
 {"property": "C124", "status": "proved", "theorems": ["C124_run_session", "C124_par_run_session", "C124_ends"], "note": "For all executions of both drivers, finished or not, of a session with any transcript."},
 {"property": "C125", "status": "proved", "theorems": ["C125_blame"], "note": "For all executions of both drivers that end with a report. For par_run_session the messages meant are those whose results the driver has taken from the channel (C123 shows that a cancelled driver may drop the others)."},
 {"property": "C126", "status": "proved", "theorems": ["C126_assumptions_hold", "C126_read_back", "C126_truncation_noticed", "C126_rest_untouched", "C126_ambiguity_refused"], "note": "HumanReadableFormat (serde_json as documented) with the parameters of dev/session_parameters.rs; the text encodings of byte strings are arbitrary correct ones (C126_hex gives one). Evidence is read back if its description is UTF-8, which a Rust String always is."},
 {"property": "C127", "status": "proved", "theorems": ["C127_results"], "note": "2 to 16 parties; with 17 parties or more the sum in simple.rs overflows (C49). All delivery orders, session ids and random choices."},
 {"property": "C128", "status": "proved", "theorems": ["C128_receive", "C128_session", "C128_send", "C128_defaults"], "note": "All protocols made of typed rounds. The error returned by default methods is one constructor in the model (texts of local errors are not modelled)."},
 {"property": "C129", "status": "proved", "theorems": ["C129_reads_json", "C129_one_value", "C129_writes_json"], "note": "The grammar is that of RFC 8259 without signed and fractional numbers and without escapes of non-ASCII characters, which the model of the reader (Json.v) does not have; nesting up to 127."},
 {"property": "C13", "status": "proved", "theorems": ["C13_order_irrelevant"], "note": ""},
 {"property": "C130", "status": "proved", "theorems": ["C130_verifies_iff"], "note": "For all six kinds of evidence, and for evidence made by anybody."},
 {"property": "C131", "status": "proved", "theorems": ["C131_messages", "C131_evidence", "C131_inner"], "note": "For any text encodings of byte strings; restrictions of the JSON grammar as in C129."},
 {"property": "C132", "status": "proved", "theorems": ["C132_messages", "C132_evidence", "C132_inner", "C132_unambiguous"], "note": "With the simplification of TestParams.v: integers are not limited to 64 bits (the library refuses layouts of larger ones)."},
 {"property": "C133", "status": "proved", "theorems": ["C133_result", "C133_sum_iff", "C133_agrees_with_debug", "C133_never_panics"], "note": "The release-build counterpart of C49: u8 additions wrap instead of panicking, so any number of parties finishes, with n(n-1) modulo 256 (the sum only for up to 16 parties)."},
 {"property": "C14", "status": "proved", "theorems": ["C14_declared_transitions"], "note": ""},
 {"property": "C15", "status": "proved", "theorems": ["C15_no_round_twice", "C15_bounded_rounds"], "note": ""},
 {"property": "C16", "status": "proved", "theorems": ["C16_echo_round", "C16_no_echo_after_echo"], "note": ""},
 {"property": "C17", "status": "proved", "theorems": ["C17_echo_round_transparent"], "note": ""},
 {"property": "C18", "status": "proved", "theorems": ["C18_cached_messages_delivered"], "note": "Exact contents of what is handed out, including the echo round case in which banned senders are not filtered out (see C19)."},
 {"property": "C19", "status": "partial", "theorems": ["C19_no_banned_from_cache_refuted", "C19_no_banned_from_cache_partial"], "note": "False of the code for echo rounds; the partial theorem covers transitions to protocol rounds."},
 {"property": "C20", "status": "proved", "theorems": ["C20_no_panic"], "note": ""},
 {"property": "C21", "status": "proved", "theorems": ["C21_echo_agreement"], "note": "Two reachable sessions of the same session id; the second one's echo message is authenticated and processed by the first. Either payloads agree or the theorem gives two different byte strings with equal hash."},
 {"property": "C22", "status": "proved", "theorems": ["C22_honest_echo_accepted"], "note": ""},
 {"property": "C23", "status": "partial", "theorems": ["C23_equivocator_blamed_refuted", "C23_equivocator_blamed_partial"], "note": "False: the evidence is filed under the relayer of the echo, who is banned. Proved instead: the evidence content names the equivocator, and verifies."},
 {"property": "C24", "status": "proved", "theorems": ["C24_malformed_evidence_verifies", "C24_reported_evidence", "C24_typed_rounds_consistent"], "note": "Hypotheses: the protocol's round ids are not echo ids, and its round infos reject what its rounds reject."},
 {"property": "C25", "status": "proved", "theorems": ["C25_protocol_evidence_verifies"], "note": "The required parts of the triggering message must be buildable with the public RequiredMessageParts API (at least one part)."},
 {"property": "C26", "status": "partial", "theorems": ["C26_echo_evidence_verifies_refuted", "C26_mismatch_evidence_verifies", "C26_invalid_echo_evidence_verifies_partial", "C26_invalid_echo_exact"], "note": "False for an echoed hash that is validly signed for the echo round itself; holds in all other cases, and the theorem C26_invalid_echo_exact says exactly which."},
 {"property": "C27", "status": "partial", "theorems": ["C27_verified_is_signed_refuted", "C27_verified_is_signed_partial", "C27_mismatch", "C27_invalid_echo", "C27_protocol"], "note": "False for mismatched-broadcast evidence, whose verification ignores guilty_party(); holds for the party named inside it and for all other kinds."},
 {"property": "C28", "status": "proved", "theorems": ["C28_honest_not_framed_malformed"], "note": ""},
 {"property": "C29", "status": "partial", "theorems": ["C29_honest_not_framed_refuted", "C29_every_echo_message_frames", "C29_honest_echoes_correct_partial", "C29_exact", "C29_other_rounds_refuted"], "note": "False: every honest echo message with an echo can be turned into verifying evidence against its sender, because the metadata of the echoed hash is compared with that of the echo round. Proved: the echoes in it are right. Exactly which messages frame their sender is proved: all echo messages, and any normal broadcast of another round whose bytes also read as an echo message (the verification does not check that the broadcast is from an echo round), so parties can be framed in protocols without echo broadcasts too."},
 {"property": "C30", "status": "proved", "theorems": ["C30_digest_binds", "C30_digest_binds_echoed_hash"], "note": ""},
 {"property": "C31", "status": "proved", "theorems": ["C31_no_replay", "C31_other_session_rejected"], "note": ""},
 {"property": "C32", "status": "proved", "theorems": ["C32_split_group", "C32_split_fails_only_on_ungrouped", "C32_grouping_injective", "C32_echo_inverse", "C32_echo_commutes_with_grouping", "C32_nesting"], "note": ""},
 {"property": "C33", "status": "proved", "theorems": ["C33_total_order", "C33_no_shared_entry"], "note": ""},
 {"property": "C34", "status": "proved", "theorems": ["C34_round_trip", "C34_deserializes_iff_keys_differ", "C34_succeeds_iff_keys_differ", "C34_order_irrelevant"], "note": ""},
 {"property": "C35", "status": "proved", "theorems": ["C35_rounds", "C35_results", "C35_same_communication", "C35_same_finalization", "C35_sessions_follow_rounds", "C35_chained_session", "C35_chained_result"], "note": "Sequences of rounds of a chain are exactly those of the first protocol, then of the second from the entry round made from the result; same messages, answers, inputs; sessions follow such sequences."},
 {"property": "C36", "status": "proved", "theorems": ["C36_ids_differ", "C36_declared", "C36_transitions_declared", "C36_parents_refuted", "C36_first_rounds_are_no_parents"], "note": "Holds as stated (also shown: declared transitions are preserved, so any nesting depth). Observation beyond the statement: the second entry round never has rounds of the first protocol among its parents."},
 {"property": "C37", "status": "proved", "theorems": ["C37_judgement", "C37_protocol_errors", "C37_malformed_parts", "C37_rounds_of_the_chain", "C37_required_messages", "C37_hypotheses_preserved"], "note": "All evidence types; echo-round evidence does not depend on the protocol."},
 {"property": "C38", "status": "partial", "theorems": ["C38_sends_first", "C38_finalizes_on_yes", "C38_gives_up", "C38_result", "C38_report_has_all_errors", "C38_cancelled_refuted", "C38_cancelled_partial"], "note": "All clauses hold except that a cancelled session always returns a report: in an echo round terminate_due_to_errors can fail (consequence of C19), refuted with a witness. Proved for cancellation outside echo rounds; every report that is returned contains all recorded errors."},
 {"property": "C39", "status": "partial", "theorems": ["C39_outcome_tells_reason_refuted", "C39_outcome_tells_reason_partial", "C39_unfinished"], "note": "False of the code: terminate_due_to_errors passes false to terminate_inner, so it reports Terminated; NotEnoughMessages is never reported. What holds for the two calls is in the partial theorem."},
 {"property": "C40", "status": "partial", "theorems": ["C40_deadlock_refuted", "C40_silent_round_never_ends", "C40_cancelled_refuted", "C40_few_messages_partial", "C40_finite_work"], "note": "False: with more than 100 destinations and no expected messages every run jams; also on cancellation with more than 100 untaken results. Holds for rounds with at most 100 destinations and at most 100 received messages."},
 {"property": "C41", "status": "proved", "theorems": ["C41_every_message_once", "C41_sender_order", "C41_drained", "C41_any_sender_next", "C41_any_message_next"], "note": "For every history of pushes and pops and every random choice; also both modes leave every admissible choice possible."},
 {"property": "C42", "status": "proved", "theorems": ["C42_no_error", "C42_progress", "C42_terminates", "C42_completes", "C42_results", "C42_all_to_all"], "note": "Network of n nodes (Network.v) with actions send/deliver/process/finalize in any order. Hypothesis: the protocol itself succeeds in lock step, and nobody sends to a party that may be too far behind (honest_run); covers all-to-all linear protocols with or without echo rounds, partial participation in echo rounds and other communication patterns. The second condition is needed (C64)."},
 {"property": "C43", "status": "proved", "theorems": ["C43_one_artifact_per_destination"], "note": ""},
 {"property": "C44", "status": "proved", "theorems": ["C44_downcasts_succeed"], "note": "for every protocol of typed rounds (wrap T), every reachable state, in main and echo rounds"},
 {"property": "C45", "status": "partial", "theorems": ["C45_destination_checked_refuted", "C45_destination_ignored", "C45_only_direct_parts_partial"], "note": "False of the code: the destination is neither signed nor checked (a reachable state accepting a message made for someone else). Proved: it has no effect at all, and of what an honest party accepts from an honest party only the direct part can have been meant for another destination."},
 {"property": "C46", "status": "proved", "theorems": ["C46_inert_extensions", "C46_same_evidence_checks"], "note": "Sessions of the extended and of the original protocol give the same answers to every sequence of API calls (messages, payloads, transitions, reports). The entry point must have typed rounds, as in the code: over an entry point whose rounds are dynamic (chained or already extended) extend.rs returns a LocalError."},
 {"property": "C47", "status": "proved", "theorems": ["C47_extensions_apply"], "note": "The extended session equals, call by call, a session of the protocol in which exactly the overridden methods of the registered round types are replaced."},
 {"property": "C48", "status": "proved", "theorems": ["C48_dining", "C48_entry_point"], "note": "All tosses, all payers (at most one), all schedules; the example's own entry point as a special case."},
 {"property": "C49", "status": "partial", "theorems": ["C49_no_overflow_refuted", "C49_sum_partial", "C49_bound_is_exact"], "note": "False for 17 or more parties (u8 overflow, a panic in debug builds); proved for up to 16 parties under all schedules, and shown that the bound is exact."},
 {"property": "C50", "status": "proved", "theorems": ["C50_linear_rounds", "C50_overflow_only_at_255", "C50_with_children", "C50_with_siblings", "C50_echo_round", "C50_no_echo_of_echo"], "note": "For rounds 1..N with N at most 255, the range of the round number type; new_linear(255) itself overflows (C50_overflow_only_at_255)."},
 {"property": "C51", "status": "proved", "theorems": ["C51_evidence_has_a_trigger", "C51_api_parts_nonempty", "C51_api_never_panics", "C51_api_exact"], "note": ""},
 {"property": "C52", "status": "proved", "theorems": ["C52_same_broadcasts", "C52_protocol_parts_sent", "C52_received_unchanged"], "note": ""},
 {"property": "C53", "status": "partial", "theorems": ["C53_early_messages_survive_refuted", "C53_early_messages_survive_partial"], "note": "False of the code: the cache is dropped when entering an echo round. Proved: messages cached in the round (or echo round) just before their own are delivered."},
 {"property": "C54", "status": "partial", "theorems": ["C54_verify_never_panics_refuted", "C54_verify_never_panics_partial", "C54_panics_come_from_the_protocol"], "note": "false: NoProtocolErrors deserializes and its verify_evidence panics (witness: dining cryptographers). Holds when no NoProtocolErrors value can be deserialized and user checks do not panic; for any protocol a panic can only come from the protocol's own round information."},
 {"property": "C55", "status": "partial", "theorems": ["C55_can_terminate_refuted", "C55_can_terminate_partial"], "note": "False of the code after C19's failure; the partial theorem assumes no message of a banned party was delivered at the start of the round."},
 {"property": "C56", "status": "proved", "theorems": ["C56_run_sync_completes", "C56_simple"], "note": "By showing that a run of run_sync is one of the schedules of Network.v. The while loops are bounded by fuel in the model; the theorem is for all sufficiently large bounds."},
 {"property": "C57", "status": "partial", "theorems": ["C57_no_panic_refuted", "C57_panics_if_silent", "C57_no_panic_partial"], "note": "False: run_sync pops from the queue before checking whether it is empty, so it panics if no message is ever sent (e.g. a single party). Exact: for honest parties it panics if and only if no message is sent."},
 {"property": "C58", "status": "proved", "theorems": ["C58_drivers_complete"], "note": "The channels of dev/tokio.rs are modelled as unbounded and messages to a node that has returned are dropped."},
 {"property": "C59", "status": "proved", "theorems": ["C59_sends_each", "C59_proper_use", "C59_finalizes_on_yes", "C59_gives_up", "C59_result"], "note": "par_run_session as a transition system of driver, tasks and channels."},
 {"property": "C60", "status": "partial", "theorems": ["C60_par_drivers_complete_refuted", "C60_larger_refuted", "C60_first_round_refuted", "C60_any_size", "C60_few_destinations_partial", "C60_exactly_101", "C60_par_drivers_complete_partial"], "note": "False beyond 101 parties: for every n > 101 there is a network no schedule of which completes, and every network with more than 100 first-round destinations can get stuck. Proved: completion whenever nobody has more than 100 destinations in a round; if everybody sends to everybody, completion is possible from every state exactly up to 101 parties; for any number of parties reports are right and executions finite."},
 {"property": "C61", "status": "partial", "theorems": ["C61_found_errors_reported_refuted", "C61_recorded_errors_reported_partial"], "note": "False: results not yet taken from the channel when the loop is left are dropped. What was taken is reported."},
 {"property": "C62", "status": "proved", "theorems": ["C62_sessions_depend_on_rounds_only"], "note": ""},
 {"property": "C63", "status": "proved", "theorems": ["C63_partial_echo", "C63_run_sync"], "note": "Instance of the network theorem behind C42, which covers partial participation in echo rounds."},
 {"property": "C64", "status": "partial", "theorems": ["C64_early_message_lost_refuted", "C64_early_echo_refuted", "C64_two_rounds_ahead_refuted", "C64_in_step_partial", "C64_one_round_partial", "C64_exact_partial", "C64_waits_partial"], "note": "False if a party can be ahead of the receiver of its message: messages are lost (parties wait forever) or rejected (honest parties are recorded as misbehaving). Holds if before sending every party has heard from the receiver in the preceding phase, directly or through somebody it has heard from (in_step, waits), in particular for protocols of one round. This condition is exact: for every other protocol that succeeds in lock step there is a schedule under which an honest party is recorded as misbehaving or a message kept for later is dropped."},
 {"property": "C65", "status": "proved", "theorems": ["C65_authentic", "C65_one_message"], "note": "Honest parties run the library, everything that arrives is chosen by an adversary who cannot sign for honest parties (SpecWorld.v); conclusion up to explicit hash collisions. C65_one_message assumes that no round of the protocol is repeated."},
 {"property": "C66", "status": "proved", "theorems": ["C66_echo_agreement"], "note": "Same adversary; conclusion up to explicit hash collisions."},
 {"property": "C67", "status": "proved", "theorems": ["C67_check_evidence", "C67_errors_are_true", "C67_panics", "C67_extend_one", "C67_check_with_extensions", "C67_no_alarm_without_misbehaviour"], "note": "Descriptions are not modelled: whether one contains the expected text is a parameter."},
 {"property": "C68", "status": "partial", "theorems": ["C68_every_message_frames", "C68_not_framed_refuted", "C68_not_framed_partial"], "note": "False in the code: SignedMessageHash does not say which kind of part it is a hash of, so the signed hash of the normal broadcast or direct message of any honest message is accepted as the hash of a second echo broadcast. Proved: this is the only way."},
 {"property": "C69", "status": "partial", "theorems": ["C69_no_false_evidence_partial", "C69_no_false_evidence_refuted"], "note": "False in the code by the same confusion of kinds, caused live by a dishonest echoer. Proved: it is the only way apart from the protocol itself rejecting an honest message, and only dishonest parties can cause it."},
 {"property": "C70", "status": "partial", "theorems": ["C70_run_async_completes_refuted", "C70_larger_refuted", "C70_run_async_partial"], "note": "False as stated: with any number n > 51 of parties the tasks of run_async can deadlock on the channels of 100 messages (witness for 52, and for every larger n). Proved for all honest executions with 2(n-1) <= capacity, i.e. for up to 51 parties, so the bound is exact."},
 {"property": "C71", "status": "proved", "theorems": ["C71_run_async_faithful"], "note": "offload_processing = false; any entry points, any interleaving, any capacity."},
 {"property": "C72", "status": "partial", "theorems": ["C72_reports_of_all_refuted", "C72_error_cause_partial"], "note": "False as stated: a party that misbehaves and goes on sends a message to a party that has returned; the dispatcher fails and run_async returns an error instead of the reports. Proved: these are the only causes of errors besides failures of run_session itself."},
 {"property": "C73", "status": "proved", "theorems": ["C73_honest_blame"], "note": "Hypotheses: the protocol is uniform (everybody sends to everybody, a fixed sequence of rounds, no restriction on what it answers), signatures verify, the echo codec is correct. Examples show that both causes occur, so equivocation does make honest parties hold evidence against each other (see C23)."},
 {"property": "C74", "status": "proved", "theorems": ["C74_honest_messages_kept"], "note": "Hypotheses as for C73. C53 (early messages lost before an echo round) cannot occur between honest parties here because they are never more than one round or echo round apart."},
 {"property": "C75", "status": "partial", "theorems": ["C75_no_echo_refuted", "C75_echo_refuted", "C75_no_echo_fails", "C75_echo_fails", "C75_one_round_partial", "C75_work"], "note": "False as stated: without echo broadcasts no session can be created, and with echo broadcasts no session gets beyond round 1 unless it is the only round (proved for all parameters). Proved: one round with echo broadcasts completes."},
 {"property": "C76", "status": "proved", "theorems": ["C76_whom_to_wait_for"], "note": "Hypotheses as for C73, plus: sessions send all messages of a round before they leave it, as the drivers do (can_finalize does not check it)."},
 {"property": "C77", "status": "proved", "theorems": ["C77_assumptions_hold", "C77_metadata_read_back", "C77_trailing_bytes_ignored", "C77_duplicate_keys_refused", "C77_digest_of_pieces", "C77_digest_size", "C77_signatures_do_not_bind", "C77_signatures_can_be_forged", "C77_second_preimages"], "note": "postcard's encoding is modelled from its documentation (its source is not in the repository); varints are not limited to 64 bits and u8 fields not to 256."},
 {"property": "C78", "status": "proved", "theorems": ["C78_simple_with_test_parameters"], "note": "Closed: no assumption about parameters or codecs."},
 {"property": "C79", "status": "proved", "theorems": ["C79_network", "C79_run_sync", "C79_check_succeeds"], "note": "Descriptions of evidence are abstracted by an arbitrary predicate that accepts the evidence at hand. The faulty party runs the library too (with extensions); for arbitrary adversaries see C65-C69, C73, C74, C76."},
 {"property": "C80", "status": "proved", "theorems": ["C80_tests_succeed", "C80_with_test_parameters"], "note": "The expected description is any predicate that accepts the right protocol error of the right round."},
 {"property": "C81", "status": "partial", "theorems": ["C81_offload_completes_refuted", "C81_larger_refuted", "C81_offload_partial"], "note": "False for 52 and any larger number of parties (deadlock on the bounded channels); holds for up to 51 parties with the channel capacities of the code, so the bound is exact, and for any capacity of the outer channels of at least two messages per other party (up to 101 parties)."},
 {"property": "C82", "status": "proved", "theorems": ["C82_offload_faithful"], "note": "Any behaviour of the nodes; what the nodes do is par_run_session by C59."},
 {"property": "C83", "status": "partial", "theorems": ["C83_chain_succeeds_refuted", "C83_chain_succeeds_partial", "C83_lock_step", "C83_completes", "C83_waiting_partial", "C83_exact_partial"], "note": "False in general: a message of the second round of the second protocol can arrive while its receiver is still in the first protocol, and the honest sender is blamed. Proved for protocols in which everybody sends to everybody else and takes part in the echo rounds, and more generally for those in which everybody has heard from a party before sending to it, within each protocol and across the border; this condition is exact."},
 {"property": "C84", "status": "proved", "theorems": ["C84_double_simple", "C84_with_test_parameters"], "note": ""},
 {"property": "C85", "status": "proved", "theorems": ["C85_async_tests"], "note": ""},
 {"property": "C86", "status": "partial", "theorems": ["C86_bounded_storage_refuted", "C86_bounded_storage_partial"], "note": "False: preprocess_message does not check that the sender is a party of the protocol, so correctly signed messages of outsiders are cached without limit. Proved: a limit per sender."},
 {"property": "C87", "status": "proved", "theorems": ["C87_message_read_back", "C87_evidence_read_back", "C87_truncation_noticed", "C87_rest_untouched", "C87_repeated_keys_refused"], "note": "Derived serialization of Message and Evidence in the binary format of the tests (Codec.v). Postcard itself is modelled from its documentation."},
 {"property": "C88", "status": "partial", "theorems": ["C88_no_bytes_panic_refuted", "C88_no_bytes_panic_partial", "C88_text_refuted", "C88_text_partial"], "note": "False for rounds with NoProtocolErrors (22 bytes shown, and a JSON text for HumanReadableFormat); holds in both formats for protocols whose error types do not panic."},
 {"property": "C89", "status": "proved", "theorems": ["C89_seeds_bind", "C89_separate_domain", "C89_no_replay"], "note": ""},
 {"property": "C90", "status": "proved", "theorems": ["C90_accessors_authentic", "C90_combined_echos"], "note": ""},
 {"property": "C91", "status": "proved", "theorems": ["C91_main", "C91_any_parameters"], "note": "run_sync with the postcard-like parameters of the examples; also for any parameters with correct signatures."},
 {"property": "C92", "status": "proved", "theorems": ["C92_anonymity"], "note": "Contents of all messages to the diner and its outcome are the same in any two executions whose tosses are related by the flip; no probabilities are modelled, the flip is an involution on tosses."},
 {"property": "C93", "status": "partial", "theorems": ["C93_reports_of_all_refuted", "C93_error_cause_partial"], "note": "False as stated, as C72. Proved: messages to parties that have returned, and failures of par_run_session itself, are the only causes of errors."},
 {"property": "C94", "status": "proved", "theorems": ["C94_text_identifies_round"], "note": "Groups are printed outermost first, separated by '-'."},
 {"property": "C95", "status": "proved", "theorems": ["C95_brief_complete", "C95_honest", "C95_one_fault"], "note": "Texts of ids, results and errors are arbitrary functions."},
 {"property": "C96", "status": "proved", "theorems": ["C96_tests_succeed"], "note": "With the session parameters of the tests; C80 is the same for any way to compare descriptions."},
 {"property": "C97", "status": "partial", "theorems": ["C97_description_true_refuted", "C97_description_kept_partial"], "note": "False: the description is not covered by any signature and not recomputed, so the same evidence can be sent with any text. What holds: evidence sent as the library made it arrives with its description."},
 {"property": "C98", "status": "proved", "theorems": ["C98_drivers_convict"], "note": "Networks of run_session with one misbehaving party, every schedule."},
 {"property": "C99", "status": "proved", "theorems": ["C99_par_drivers_convict"], "note": "Networks of par_run_session (at most 101 parties, see C60) with one misbehaving party, every schedule of drivers, tasks and deliveries."},
 {"property": "C134", "status": "proved", "theorems": ["C134_only_effect", "C134_forgery_blocks", "C134_authentication_needed"], "note": "The effect of forged messages is exact; that they block run_session is proved for all protocols and states."},
 {"property": "C135", "status": "proved", "theorems": ["C135_received_again", "C135_run_session", "C135_par_run_session", "C135_once_needed"], "note": "The effect is exact; that a round waiting for the sender is not finished is proved for all protocols and both drivers."},
 {"property": "C136", "status": "partial", "theorems": ["C136_any_protocol_extendable_refuted", "C136_chained_never", "C136_no_evidence_checks", "C136_twice_never", "C136_twice_ignored", "C136_parts_extendable_partial"], "note": "False of the code for every chained protocol (so dev/misbehave.rs cannot check evidence for them) and for doubly extended ones; extending the parts of a chain works, exactly."},
 {"property": "C137", "status": "proved", "theorems": ["C137_other_round", "C137_linear", "C137_never_back", "C137_never_processed", "C137_run_session", "C137_par_run_session", "C137_again_later"], "note": "The effect is exact, for all protocols; the condition for late messages is exact for linear protocols of any number of rounds, with or without echo rounds."},
 {"property": "C138", "status": "proved", "theorems": ["C138_replay", "C138_genuine_rejected", "C138_framed"], "note": "For all protocols and pairs of executions; assumes that signatures made by a signer are accepted by its verifier."},
 {"property": "C139", "status": "proved", "theorems": ["C139_other_id", "C139_run_session", "C139_par_run_session", "C139_waits", "C139_finalized", "C139_running", "C139_par_running"], "note": "For all protocols, sessions and driver executions; the first three assume that signing succeeds only with signatures the verifier accepts (signatures_correct). Finalization: executions that return a report, and executions that are still running (not those that end with a local error)."},
 {"property": "C140", "status": "proved", "theorems": ["C140_authentic", "C140_one_message", "C140_echo_agreement", "C140_no_false_evidence"], "note": "For all protocols, adversaries and interleavings, by a simulation of driver worlds by the session worlds of C65, C66, C69, with the same assumptions on wire formats. The possibility of false evidence by the defect of C68/C69 is part of the statement. par_run_session is not covered."}
]}
