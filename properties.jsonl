{"id": "C01", "title": "Only authenticated, in-session, in-window messages are accepted", "statement": "If preprocess_message says a message is to be processed, or says it was cached, then all three signed parts of the message verify under the public key of the declared sender, all three carry the same metadata, the session id is the session's own, and the round id is the current round (to process) or one of the rounds that may be simultaneously active (cached). The verified message handed out is the input message, with the declared sender.", "quantifier": "every session state, every accumulator state, every sender, every (adversarial) message, every signature scheme, hash and wire format", "why_tests_cant": "Tests try a handful of tampered messages; the claim is about every byte combination and every state the session can be in.", "anchors": ["manul/src/session/session.rs: Session::preprocess_message", "manul/src/session/message.rs: Message::unify_metadata, CheckedMessage::into_verified, SignedMessagePart::into_verified", "manul/src/protocol/round_id.rs: TransitionInfo::simultaneous_rounds"]}
{"id": "C02", "title": "Banned senders are inert", "statement": "If any error (provable or unprovable) is already recorded for a sender, in this round or in an earlier one, preprocess_message answers with an error, does not fail locally, and leaves the accumulator exactly as it was.", "quantifier": "every session, accumulator, sender with a recorded error, and message", "why_tests_cant": "The set of states in which a sender is banned is unbounded and a test checks one of them.", "anchors": ["manul/src/session/session.rs: Session::preprocess_message, RoundAccumulator::is_banned", "manul/src/session/transcript.rs: Transcript::is_banned"]}
{"id": "C03", "title": "Errors are never forgotten", "statement": "Along any history of calls on a session and its accumulators (receiving, adding artifacts, finalizing rounds, terminating) a recorded provable or unprovable error stays recorded: its sender is banned in every later state, and the final report lists the sender among the provable (resp. unprovable) errors; evidence recorded for a sender is never replaced by a different one without the session failing locally.", "quantifier": "every finite history of API calls of any length over any number of rounds, with arbitrary messages", "why_tests_cant": "Needs induction over histories of unbounded length.", "anchors": ["manul/src/session/transcript.rs: Transcript::update, SessionReport::new", "manul/src/session/session.rs: RoundAccumulator, Session::finalize_round, Session::terminate"]}
{"id": "C04", "title": "Exact effect of preprocessing one message", "statement": "preprocess_message changes the accumulator in exactly one of these ways: nothing (sender banned); one unprovable error added for the declared sender (rejected); the sender marked as being processed (to process); the message stored in the cache under its sender and round (cached). Nothing else changes, in particular no other party is affected.", "quantifier": "every session, accumulator, sender and message", "why_tests_cant": "A test checks a few fields in a few cases; the frame condition is about all fields in all cases.", "anchors": ["manul/src/session/session.rs: Session::preprocess_message, RoundAccumulator::register_unprovable_error, RoundAccumulator::mark_processing, RoundAccumulator::cache_message"]}
{"id": "C05", "title": "No message can make preprocessing fail locally", "statement": "In every state reachable by driving a session through its public API, preprocess_message returns normally for every sender and message (no LocalError, no panic), provided the wire format can serialize message metadata.", "quantifier": "every reachable state of every protocol, every sender, every message", "why_tests_cant": "Adversarial inputs and reachable states are unbounded.", "anchors": ["manul/src/session/session.rs: Session::preprocess_message, RoundAccumulator::register_unprovable_error, RoundAccumulator::mark_processing, RoundAccumulator::cache_message", "manul/src/protocol/round_id.rs: TransitionInfo::simultaneous_rounds"]}
{"id": "C06", "title": "No remote party can make an honest session fail with a local error", "statement": "When the driver passes every message through preprocess_message, process_message and add_processed_message, and re-delivers the cached messages returned by finalize_round, a message from a remote party never makes add_processed_message return a LocalError (unless the protocol's own code reports a local error).", "quantifier": "every reachable state, every sequence of remote messages", "why_tests_cant": "The failing histories involve unexpected senders and duplicates racing with cached messages.", "anchors": ["manul/src/session/session.rs: RoundAccumulator::add_processed_message, Session::preprocess_message, Session::finalize_round"]}
{"id": "C07", "title": "At most one message per sender and round is processed", "statement": "Within one round, preprocess_message hands out at most one message per sender for processing; any further message for the same round from that sender bans the sender instead. Likewise at most one message per sender and future round is cached.", "quantifier": "every sequence of messages of any length received in one round", "why_tests_cant": "Quantifies over all message sequences and interleavings.", "anchors": ["manul/src/session/session.rs: RoundAccumulator::mark_processing, RoundAccumulator::cache_message, Session::preprocess_message"]}
{"id": "C08", "title": "Meaning of can_finalize", "statement": "can_finalize answers Yes exactly when every party the round expects messages from has a successfully processed message; NotYet exactly when not Yes and some expected party has not been heard from; Never exactly when not Yes and every expected party has been heard from, and then at least one of those messages was rejected with a recorded error.", "quantifier": "every reachable accumulator", "why_tests_cant": "The states are produced by unbounded histories.", "anchors": ["manul/src/session/session.rs: RoundAccumulator::can_finalize, CanFinalize"]}
{"id": "C09", "title": "A round is finalized with exactly the payloads of the parties it expects", "statement": "When a driver finalizes only on Yes, the protocol round's finalize receives one payload for each party the round expects messages from and for nobody else; each payload is the value that the round's receive_message returned for a message which verified under that party's key and carried this session's id and this round's id. The artifacts it receives are exactly those produced by make_message for this round.", "quantifier": "every protocol, every history of messages, including rounds followed by an echo round", "why_tests_cant": "Requires an invariant over all histories, over arbitrary protocols.", "anchors": ["manul/src/session/session.rs: Session::finalize_round, Session::process_message, RoundAccumulator::add_processed_message", "manul/src/session/echo.rs: EchoRound::finalize", "manul/src/protocol/round.rs: CommunicationInfo::expecting_messages_from, Round::finalize"]}
{"id": "C10", "title": "First accepted payload wins and progress is not lost", "statement": "Once a payload for a party is recorded in a round, no later call in that round changes or removes it; consequently an answer Yes of can_finalize stays Yes whatever else is received.", "quantifier": "every continuation of every accumulator state by API calls", "why_tests_cant": "Universal over continuations.", "anchors": ["manul/src/session/session.rs: RoundAccumulator::add_processed_message, RoundAccumulator::can_finalize"]}
{"id": "C11", "title": "A round never waits for a party whose messages will be ignored", "statement": "Whenever can_finalize answers NotYet, at least one of the parties still awaited is not banned, so that a message from it would still be looked at.", "quantifier": "every reachable state of every session", "why_tests_cant": "A stall is visible only in histories where a ban precedes the awaited message.", "anchors": ["manul/src/session/session.rs: RoundAccumulator::can_finalize, Session::preprocess_message", "manul/src/session/transcript.rs: Transcript::is_banned"]}
{"id": "C12", "title": "Accounting of expected parties", "statement": "At every moment of a round every expected party is in exactly one of three classes: not heard from; successfully processed; heard from and rejected during processing (and then an error is recorded). Parties not expected in the round are in none of the classes. The missing-messages entry of the report for a round is exactly the first class at the moment the round was closed, and is absent if that class is empty.", "quantifier": "every history of every round", "why_tests_cant": "Invariant over unbounded histories.", "anchors": ["manul/src/session/session.rs: RoundAccumulator::add_processed_message", "manul/src/session/transcript.rs: Transcript::update, SessionReport"]}
{"id": "C13", "title": "Result of a round does not depend on message order", "statement": "Receiving (preprocess, process, add) the messages of different senders in any order leads to the same accumulator, hence to the same finalization and report; this also holds when processing of one message is interleaved with preprocessing of others.", "quantifier": "every list of messages from pairwise different senders and every permutation of it, every session state", "why_tests_cant": "n! orders for each n.", "anchors": ["manul/src/session/session.rs: Session::preprocess_message, RoundAccumulator::add_processed_message", "manul/src/session/tokio.rs: par_run_session"]}
{"id": "C14", "title": "Transitions follow the declared round graph", "statement": "finalize_round moves a session either to the echo round of the current round, or to a round whose id is among the declared children of the protocol round; in every other case in which the protocol returns a round it fails locally. The new session's round id is the id declared by the new round.", "quantifier": "every session, accumulator and protocol", "why_tests_cant": "Quantifies over all protocols.", "anchors": ["manul/src/session/session.rs: Session::finalize_round", "manul/src/session/echo.rs: EchoRound::transition_info", "manul/src/protocol/round_id.rs: TransitionInfo::echo"]}
{"id": "C15", "title": "No round is ever executed twice", "statement": "In any history of a session no round id is closed twice: an attempt to close a round whose id was already closed fails locally. Hence a session passes through at most as many rounds as the protocol has round ids (counting echo rounds), whatever the protocol's finalize does.", "quantifier": "every history of every protocol, including cyclic ones", "why_tests_cant": "Unbounded histories, arbitrary protocols.", "anchors": ["manul/src/session/transcript.rs: Transcript::update", "manul/src/session/session.rs: Session::finalize_round"]}
{"id": "C16", "title": "When an echo round happens", "statement": "A round is followed by an echo round exactly when the node participates by default and actually sends an echo broadcast, or participates as a receiver only; a send-only node and a default node without echo broadcast go straight on; an echo round is never followed by another echo round. The echo round exchanges messages with the round's destinations (default) or the declared targets (receiver), and expects echoes of all parties it expected messages from, plus its own in the default case.", "quantifier": "every protocol round and communication pattern", "why_tests_cant": "All communication patterns of all protocols.", "anchors": ["manul/src/session/session.rs: Session::new_for_next_round, Session::finalize_round", "manul/src/session/echo.rs: EchoRound::new"]}
{"id": "C17", "title": "Echo rounds are transparent to the protocol", "statement": "If a round is followed by an echo round, then finalizing the echo round calls the protocol round's finalize with exactly the payloads and artifacts that had been collected when the protocol round was closed, whatever happened in the echo round.", "quantifier": "every session with an echo round and every history of the echo round", "why_tests_cant": "Histories of the echo round are unbounded.", "anchors": ["manul/src/session/echo.rs: EchoRound::finalize, EchoRound::new", "manul/src/session/session.rs: Session::finalize_round"]}
{"id": "C18", "title": "Cached messages are delivered exactly once", "statement": "A message cached for a round that becomes the next round is returned by finalize_round exactly once and unmodified (unless its sender has been banned); no message that was not cached is returned; messages for other rounds are dropped.", "quantifier": "every accumulator and every next round", "why_tests_cant": "All cache contents.", "anchors": ["manul/src/session/session.rs: filter_messages, Session::finalize_round, RoundAccumulator::cache_message"]}
{"id": "C19", "title": "Messages of banned parties are not delivered from the cache", "statement": "finalize_round never returns a cached message whose sender is already banned.", "quantifier": "every reachable session and accumulator, both for ordinary and for echo rounds", "why_tests_cant": "Needs histories in which caching precedes the ban.", "anchors": ["manul/src/session/session.rs: Session::finalize_round, filter_messages"]}
{"id": "C20", "title": "Internal expectations cannot be violated by remote input", "statement": "In every session whose driver finalizes rounds only on Yes and whose protocol declares receive-only echo participation only in rounds that do have echo broadcasts, no incoming message makes the library panic (the `expect` calls on echo rounds are never reached with a missing value).", "quantifier": "every reachable state, every message", "why_tests_cant": "Panics depend on relations between maps filled by unbounded histories.", "anchors": ["manul/src/session/echo.rs: EchoRound::receive_message, EchoRound::transition_info"]}
{"id": "C21", "title": "Echo broadcast agreement", "statement": "If a node completes the echo round (can_finalize is Yes) using the echo message that another honest node made, then for every third party both nodes hold an echo broadcast from that party with identical payload, unless an explicit hash collision is exhibited.", "quantifier": "every pair of honest sessions of a round, every number of parties, every adversarial behaviour of the others", "why_tests_cant": "Quantifies over all equivocation strategies.", "anchors": ["manul/src/session/echo.rs: EchoRound::make_normal_broadcast, EchoRound::receive_message", "manul/src/session/message.rs: SignedMessagePart::to_signed_hash, VerifiedMessageHash::is_hash_of"]}
{"id": "C22", "title": "Honest echo messages are accepted", "statement": "If two honest nodes received the same signed echo broadcasts, then the echo message made by one is accepted by the other without any error.", "quantifier": "every pair of sessions, every set of parties and broadcasts", "why_tests_cant": "All party sets and payloads.", "anchors": ["manul/src/session/echo.rs: EchoRound::make_normal_broadcast, EchoRound::receive_message"]}
{"id": "C23", "title": "Equivocation is attributed to the equivocator", "statement": "When an echo message reveals that a third party sent different validly signed broadcasts to two nodes, the error filed in the report is filed under the equivocating party, and the honest relayer is not banned.", "quantifier": "every echo round state and every echo message", "why_tests_cant": "Quantifies over all messages.", "anchors": ["manul/src/session/echo.rs: EchoRound::receive_message", "manul/src/session/evidence.rs: Evidence::new_echo_round_error", "manul/src/session/session.rs: RoundAccumulator::add_processed_message"]}
{"id": "C24", "title": "Evidence of malformed message parts always verifies", "statement": "Whenever processing an authenticated message records evidence of an undeserializable (or unexpected) direct message, echo broadcast or normal broadcast - in a protocol round or in an echo round - that evidence names the sender as guilty and verifies successfully for anyone using the same session parameters and protocol.", "quantifier": "every protocol whose round metadata matches its rounds, every message, every shared data", "why_tests_cant": "All malformed payloads.", "anchors": ["manul/src/session/evidence.rs: Evidence::new_invalid_direct_message, InvalidDirectMessageEvidence::verify", "manul/src/protocol/dyn_round.rs: RoundWrapper::receive_message", "manul/src/protocol/round_info.rs: RoundInfoObject", "manul/src/protocol/message.rs: ProtocolMessagePart::verify_is_not"]}
{"id": "C25", "title": "Evidence of protocol errors always verifies", "statement": "Whenever processing an authenticated message records evidence for a protocol-defined error, then verifying that evidence presents to the protocol's own verification exactly the round id, guilty party, session id, the required parts of the triggering message, the required parts of the guilty party's earlier messages, and the echoed broadcasts, as they were received; hence it verifies whenever the protocol's check accepts those.", "quantifier": "every protocol, history, error and set of required messages", "why_tests_cant": "Relates transcript contents accumulated over whole histories to a verifier run elsewhere.", "anchors": ["manul/src/session/evidence.rs: Evidence::new_provable_error, ProtocolEvidence::verify", "manul/src/session/transcript.rs: Transcript::get_echo_broadcast, get_normal_broadcast, get_direct_message, get_other_echo_broadcasts"]}
{"id": "C26", "title": "Evidence from echo rounds always verifies", "statement": "Whenever processing an echo message records a provable error, the recorded evidence verifies successfully.", "quantifier": "every echo round state and every echo message", "why_tests_cant": "All echo messages, including those that replay signed parts of other rounds.", "anchors": ["manul/src/session/evidence.rs: InvalidEchoEvidence::verify, MismatchedBroadcastsEvidence::verify", "manul/src/session/echo.rs: InvalidEchoError::verify_evidence, EchoRound::receive_message"]}
{"id": "C27", "title": "Verified evidence is backed by the guilty party's signature", "statement": "If an evidence object - received from anybody - verifies, then it contains a message part or hash whose signature verifies under the public key of the party returned by guilty_party(), on the content the evidence is about.", "quantifier": "every evidence object, including forged ones", "why_tests_cant": "All forged objects.", "anchors": ["manul/src/session/evidence.rs: Evidence::verify"]}
{"id": "C28", "title": "Honest parties cannot be framed with malformed-part evidence", "statement": "If every signature that verifies under a party's key was made by an honest session of that party for a message it sent, then no evidence of a malformed direct message, echo broadcast or normal broadcast against that party verifies.", "quantifier": "every evidence object, every honest party, every history of the honest party", "why_tests_cant": "All forged objects and all histories.", "anchors": ["manul/src/session/evidence.rs: InvalidDirectMessageEvidence::verify, InvalidEchoBroadcastEvidence::verify, InvalidNormalBroadcastEvidence::verify", "manul/src/session/session.rs: Session::new_for_next_round, Session::make_message"]}
{"id": "C29", "title": "Honest parties cannot be framed with invalid-echo evidence", "statement": "The echo message an honest node sends can never be turned into invalid-echo evidence that verifies against that node.", "quantifier": "every honest echo message and every evidence built from it", "why_tests_cant": "All evidence objects.", "anchors": ["manul/src/session/echo.rs: InvalidEchoError::verify_evidence", "manul/src/session/evidence.rs: InvalidEchoEvidence::verify"]}
{"id": "C30", "title": "A signature binds session, round, part kind and payload", "statement": "If the same signed digest is obtained for two message parts then they have the same session id, round id, part kind and payload, unless an explicit hash collision is exhibited; this assumes only that the wire format's encoding of metadata is prefix-free. The same holds between a message part and an echoed hash.", "quantifier": "all pairs of message parts", "why_tests_cant": "Injectivity over all byte strings.", "anchors": ["manul/src/session/message.rs: message_digest, MessageWithMetadata::digest, SignedMessageHash::into_verified", "manul/src/protocol/message.rs: ProtocolMessagePartHashable::hash"]}
{"id": "C31", "title": "No cross-session and cross-kind replay", "statement": "A message made by a session is never accepted by a session with a different session id, and a signed part of one kind (direct, echo, normal) never passes for a signed part of another kind of the same message, unless an explicit hash collision is exhibited or the signature scheme accepts two digests with one signature.", "quantifier": "all pairs of sessions and messages", "why_tests_cant": "Universal over sessions and messages.", "anchors": ["manul/src/session/session.rs: Session::preprocess_message", "manul/src/session/message.rs: message_digest", "manul/src/protocol/message.rs: PartKind"]}
{"id": "C32", "title": "Round identifier algebra", "statement": "Grouping a round id and splitting it gives back the group number and the id, at any nesting depth; splitting fails exactly on ungrouped ids; echo/non_echo are mutually inverse, fail exactly on echo/non-echo ids, commute with grouping; grouping is injective and ids of different groups never coincide.", "quantifier": "all round ids of any nesting depth", "why_tests_cant": "Unbounded nesting.", "anchors": ["manul/src/protocol/round_id.rs: RoundId::group_under, split_group, echo, non_echo"]}
{"id": "C33", "title": "Round identifiers are totally ordered consistently with equality", "statement": "The order used for round ids as map keys is a strict total order in which two ids compare equal only if they are identical, so no two different rounds can share a map entry.", "quantifier": "all pairs and triples of round ids", "why_tests_cant": "Infinitely many ids.", "anchors": ["manul/src/protocol/round_id.rs: RoundId (derived Ord)"]}
{"id": "C34", "title": "Serializable map round trip", "statement": "Deserializing a serialized map gives the same map; a sequence of entries deserializes exactly when its keys are pairwise different, and then to the map with those entries, in whatever order they are listed.", "quantifier": "all maps, all entry sequences", "why_tests_cant": "All maps.", "anchors": ["manul/src/utils/serializable_map.rs: SerializableMap::serialize, MapVisitor::visit_seq"]}
{"id": "C35", "title": "A chained protocol runs the first protocol and then the second", "statement": "A session of a chained protocol passes through exactly the rounds that a run of the first protocol and then a run of the second (started from the first one's result) would pass through, with identical messages, payloads, artifacts and communication patterns, and produces the second protocol's result.", "quantifier": "all pairs of protocols, all inputs, all round counts", "why_tests_cant": "All protocols.", "anchors": ["manul/src/combinators/chain.rs: ChainedRound, ChainState, EntryPoint for ChainedSplit"]}
{"id": "C36", "title": "Round ids of chained protocols do not clash and the graph is complete", "statement": "All round ids of the first protocol are different from all ids of the second in the chained protocol; each transition of the chain is declared: children of a chained round are the grouped children, plus the second protocol's entry round exactly when the inner round may produce a result; chained rounds of the first protocol never claim to produce a result.", "quantifier": "all pairs of protocols and round ids, nested to any depth", "why_tests_cant": "All protocols and depths.", "anchors": ["manul/src/combinators/chain.rs: ChainedRound::transition_info", "manul/src/protocol/round_id.rs: TransitionInfo::group_under"]}
{"id": "C37", "title": "Evidence in chained protocols is checked by the right protocol", "statement": "Evidence for a round of group 1 (2) of a chained protocol is accepted exactly when the first (second) protocol accepts the evidence with all round ids ungrouped and its own part of the shared data; an id outside groups 1 and 2 is not part of the protocol.", "quantifier": "all evidence, all pairs of protocols, any nesting depth", "why_tests_cant": "All protocols.", "anchors": ["manul/src/combinators/chain.rs: RoundInfo1::verify_evidence, RoundInfo2::verify_evidence, ungroup, ungroup_map, Protocol::round_info"]}
{"id": "C38", "title": "The session driver", "statement": "In each round run_session first emits exactly one message for each destination, and it finalizes a round only on Yes; if it returns a report with a result then the protocol produced that result; if cancelled it returns a report with all errors recorded so far.", "quantifier": "all input streams, all cancellation points", "why_tests_cant": "All schedules and cancellation points.", "anchors": ["manul/src/session/tokio.rs: run_session"]}
{"id": "C39", "title": "The outcome tells why the session stopped", "statement": "A session terminated because a round can never be finalized reports NotEnoughMessages; a session terminated by the user reports Terminated.", "quantifier": "every session and accumulator", "why_tests_cant": "Documentation-level contract over all states.", "anchors": ["manul/src/session/session.rs: Session::terminate_due_to_errors, Session::terminate", "manul/src/session/transcript.rs: SessionOutcome"]}
{"id": "C40", "title": "The parallel driver cannot deadlock", "statement": "par_run_session never reaches a state in which it waits for its own message tasks while these wait for the driver, whatever the number of destinations and the scheduling of tasks.", "quantifier": "all task schedules, all numbers of destinations and messages, all points where the round becomes finalizable or is cancelled", "why_tests_cant": "Depends on scheduling and on more than 100 destinations.", "anchors": ["manul/src/session/tokio.rs: par_run_session"]}
{"id": "C41", "title": "Simulated network delivers every message once, in order per sender", "statement": "The message queue of run_sync returns every pushed message exactly once; in ordered mode messages of one sender come out in the order they were pushed, whatever random choices are made.", "quantifier": "all sequences of pushes and pops and all random choices", "why_tests_cant": "All schedules.", "anchors": ["manul/src/dev/run_sync.rs: Messages::push, Messages::pop"]}
{"id": "C42", "title": "Honest all-to-all executions succeed under every schedule", "statement": "If all n parties are honest and run a linear protocol in which every round is all-to-all (with or without echo broadcasts), then under every order of message delivery no error is ever recorded, no local error occurs, nobody is ever stuck while messages are in flight, and when all messages are delivered every party has a result.", "quantifier": "every number of parties, every protocol of this shape, every number of rounds, every delivery schedule", "why_tests_cant": "Exponentially many schedules for each n.", "anchors": ["manul/src/session/session.rs: Session", "manul/src/dev/run_sync.rs: run_sync, propagate", "manul/src/session/echo.rs: EchoRound"]}
{"id": "C43", "title": "One artifact per destination", "statement": "Adding an artifact for a destination twice fails locally; otherwise the artifact is stored for that destination and no other entry changes.", "quantifier": "every accumulator, destination and artifact", "why_tests_cant": "All states.", "anchors": ["manul/src/session/session.rs: RoundAccumulator::add_artifact, Session::make_message"]}
{"id": "C44", "title": "Dynamically typed payloads and artifacts always have the right type", "statement": "The downcasts performed when a round is finalized never fail: every payload and artifact handed to a round's finalize was created by the same round.", "quantifier": "every protocol built from typed rounds, every history", "why_tests_cant": "The types are erased; correctness depends on an invariant over histories.", "anchors": ["manul/src/protocol/dyn_round.rs: Payload::downcast, Artifact::downcast, RoundWrapper::finalize"]}
{"id": "C45", "title": "Messages are only accepted by their destination", "statement": "A message whose destination is not this node is not accepted.", "quantifier": "every session and message", "why_tests_cant": "All messages.", "anchors": ["manul/src/session/message.rs: Message::destination", "manul/src/session/session.rs: Session::preprocess_message"]}
{"id": "C46", "title": "Extending a protocol without overriding anything changes nothing", "statement": "Wrapping an entry point with an extension that overrides nothing, or that applies to no round of the protocol, yields the same messages, payloads, transitions, evidence checks and results as the original protocol.", "quantifier": "all protocols of typed rounds, all inputs", "why_tests_cant": "All protocols.", "anchors": ["manul/src/dev/extend.rs: ExtendableEntryPoint, ExtendedRound, PassthroughRound"]}
{"id": "C47", "title": "Extensions apply to every matching round", "statement": "An extension registered for a round type is applied whenever a round of that type is entered, also after rounds it does not apply to; rounds of other types are unaffected.", "quantifier": "all protocols and extension sets", "why_tests_cant": "All round sequences.", "anchors": ["manul/src/dev/extend.rs: wrap_round, PassthroughRound::finalize, ExtendedRound::finalize"]}
{"id": "C48", "title": "Dining cryptographers", "statement": "For all coin tosses and every choice of payer (at most one), each diner of the example protocol concludes 'someone paid' exactly when one of the three paid.", "quantifier": "all random tosses, all payers, all delivery orders", "why_tests_cant": "All tosses and schedules.", "anchors": ["examples/dining_cryptographers.rs"]}
{"id": "C49", "title": "Simple example protocol", "statement": "An honest run of the example protocol with n parties at positions 0..n-1 yields for every party the sum of positions computed in each round, without arithmetic overflow.", "quantifier": "all n, all delivery orders", "why_tests_cant": "All n.", "anchors": ["examples/src/simple.rs: Round1, Round2"]}
{"id": "C50", "title": "Linear round graphs are consistent", "statement": "For a protocol of N linear rounds built with new_linear/new_linear_terminating, round k declares k+1 as child exactly if k<N, and round k+1 declares k as parent; simultaneous rounds of round k are exactly its echo round or parent, and its child; round numbers never overflow.", "quantifier": "all N and k", "why_tests_cant": "All N.", "anchors": ["manul/src/protocol/round_id.rs: TransitionInfo::new_linear, new_linear_terminating, simultaneous_rounds"]}
{"id": "C51", "title": "Protocol evidence always has a trigger", "statement": "Every set of required message parts that can be built through the public API contains at least one part, so evidence of a protocol error always contains a part of the triggering message and never fails for lack of one.", "quantifier": "all API-built requirement values", "why_tests_cant": "All combinator sequences.", "anchors": ["manul/src/protocol/evidence.rs: RequiredMessageParts", "manul/src/session/evidence.rs: Evidence::new_provable_error"]}
{"id": "C52", "title": "Every declared destination is served and every broadcast is the same for all", "statement": "In one round the messages made for different destinations carry the same signed echo and normal broadcasts, the metadata of the session, and verify under the session's own key; a receiving session with the same session id in the same round hands exactly these parts to its protocol round.", "quantifier": "every session, destination, randomness, and receiving session", "why_tests_cant": "All sessions.", "anchors": ["manul/src/session/session.rs: Session::make_message, Session::preprocess_message", "manul/src/session/message.rs: Message::new, SignedMessagePart::new"]}
{"id": "C53", "title": "Early messages survive an intervening echo round", "statement": "A message that preprocess_message reported as cached is, provided its sender is not banned meanwhile, delivered to the round it is for when the session enters that round, also if the session has to pass through an echo round first; in particular an all-honest execution of a protocol with send-only echo participants cannot lose a message.", "quantifier": "all protocols, all rounds followed by an echo round, all cached messages for child rounds, all delivery schedules", "why_tests_cant": "needs a schedule in which a send-only node runs a whole round ahead; tests only use single-round partial-echo protocols or lucky schedules", "anchors": ["manul/src/session/session.rs: Session::preprocess_message, Session::finalize_round, filter_messages", "manul/src/protocol/round_id.rs: TransitionInfo::simultaneous_rounds"]}
{"id": "C54", "title": "Verifying foreign evidence never panics", "statement": "Evidence::verify returns Ok or an error for every evidence object that can be received from another party (evidence is serializable, so all of its fields are attacker controlled); it never panics.", "quantifier": "all evidence values, all protocols built from typed rounds, all session parameters", "why_tests_cant": "tests only verify evidence the library itself produced", "anchors": ["manul/src/session/evidence.rs: Evidence::verify, ProtocolEvidence::verify", "manul/src/protocol/evidence.rs: NoProtocolErrors"]}
{"id": "C55", "title": "A session can always be terminated with a report", "statement": "In every reachable state of a session whose current round id was not closed before, terminate and terminate_due_to_errors succeed and return a report, so that the errors recorded for remote parties are never lost because of what remote parties sent.", "quantifier": "every reachable state of every session, every sequence of remote messages", "why_tests_cant": "Transcript::update fails only in histories where an error is recorded for a party in the current round although one is already recorded in the transcript; this needs a cached message overtaking a ban.", "anchors": ["manul/src/session/session.rs: Session::terminate, Session::terminate_due_to_errors, Session::finalize_round", "manul/src/session/transcript.rs: Transcript::update"]}
{"id": "C56", "title": "run_sync finishes with the results of the protocol", "statement": "If all parties follow the protocol and at least one message is sent, run_sync terminates and returns a report without errors and with the protocol's result for every party, whichever messages the random generator picks; ExecutionResult::results succeeds.", "quantifier": "all protocols with a successful lock-step execution, all party sets, all random choices", "why_tests_cant": "All delivery orders.", "anchors": ["manul/src/dev/run_sync.rs: run_sync, propagate, ExecutionResult::results"]}
{"id": "C57", "title": "run_sync does not panic", "statement": "run_sync does not panic if all parties follow the protocol.", "quantifier": "all protocols with a successful lock-step execution, all party sets including single parties, all random choices", "why_tests_cant": "Tests use several parties that exchange messages.", "anchors": ["manul/src/dev/run_sync.rs: run_sync, Messages::pop"]}
{"id": "C58", "title": "A network of run_session drivers completes", "statement": "If every party of a protocol with a successful lock-step execution is driven by run_session, then under every schedule of the drivers and every order of message delivery all of them return a report with the expected result and without errors after finitely many steps, and no message is left over.", "quantifier": "all protocols with a successful lock-step execution, all party sets, all schedules", "why_tests_cant": "All schedules.", "anchors": ["manul/src/session/tokio.rs: run_session", "manul/src/dev/tokio.rs: run_async"]}
{"id": "C59", "title": "The parallel driver uses the session properly", "statement": "par_run_session, whatever the scheduling of its tasks, sends at most one message to each destination in each round, all of them before it finalizes the round or gives up; it finalizes only on Yes and gives up only on Never or when cancelled; the session and accumulator are always in a state that proper use of the API leads to; a result is the result of the protocol's last round.", "quantifier": "all sessions, all task schedules, all incoming messages, all points of cancellation", "why_tests_cant": "All schedules of tasks.", "anchors": ["manul/src/session/tokio.rs: par_run_session"]}
{"id": "C60", "title": "A network of par_run_session drivers completes", "statement": "If every party of a protocol with a successful lock-step execution is driven by par_run_session, then under every schedule of drivers, tasks and deliveries all of them return a report with the expected result and without errors after finitely many steps, and no message is left over.", "quantifier": "all protocols with a successful lock-step execution, all party sets, all schedules", "why_tests_cant": "All schedules; more than 100 parties.", "anchors": ["manul/src/session/tokio.rs: par_run_session", "manul/src/dev/tokio.rs: run_async"]}
{"id": "C61", "title": "Misbehaviour found by the parallel driver is reported", "statement": "If a task of par_run_session has found that a received message proves the misbehaviour of its sender, then a report that the driver returns later contains it.", "quantifier": "all sessions, all schedules, all points of cancellation", "why_tests_cant": "Depends on what is in the channel when the driver leaves its loop.", "anchors": ["manul/src/session/tokio.rs: par_run_session"]}
{"id": "C62", "title": "Sessions depend only on the answers of the rounds", "statement": "If the rounds of two protocols give corresponding answers to every call a session makes to them (messages, payloads, next rounds, errors, results), then sessions of the two protocols give the same messages, errors and reports for every sequence of API calls.", "quantifier": "all pairs of protocols related by a simulation, all sequences of API calls", "why_tests_cant": "All protocols and all call sequences; tests compare single protocols with themselves.", "anchors": ["manul/src/session/session.rs: Session, RoundAccumulator", "manul/src/protocol/dyn_round.rs: BoxedRound"]}
{"id": "C63", "title": "The protocol of the partial echo test completes for all consistent inputs", "statement": "If the inputs of the parties of the PartialEchoProtocol fit together (senders and receivers agree, participation in the echo round is mutual, participants have received from the same senders), every execution completes with a result for everybody, whatever the schedule; no assertion of the protocol fails; run_sync followed by results() succeeds.", "quantifier": "all party sets, all consistent destinations/senders/echo participations, all schedules", "why_tests_cant": "The test runs one configuration of five parties with one random order of messages.", "anchors": ["manul/src/tests/partial_echo.rs", "manul/src/session/session.rs: Session::new_for_next_round, finalize_round", "manul/src/session/echo.rs"]}
{"id": "C64", "title": "Honest executions succeed whatever the communication pattern and echo participation", "statement": "If all parties follow a protocol that succeeds when executed in lock step, then under every schedule everybody gets the result, and no party is recorded as misbehaving.", "quantifier": "all protocols with a successful lock-step execution, all communication patterns and echo participations, all schedules", "why_tests_cant": "Needs particular delays: a party that is ahead of the receiver of its message.", "anchors": ["manul/src/session/session.rs: Session::preprocess_message, finalize_round", "manul/src/session/echo.rs: EchoRound::finalize", "manul/src/protocol/round.rs: EchoRoundParticipation"]}
{"id": "C65", "title": "Payloads of honest parties are authentic against any adversary", "statement": "Whatever the dishonest parties and the network do (drop, delay, replay, redirect and make up messages, without signing for honest parties), the payload that an honest party's session holds for an honest party u is what its round computes from message parts that u itself made in the same session and the same round; if the protocol never repeats a round, from the parts of one single message u made; or a hash collision was found.", "quantifier": "all protocols, all sets of honest parties, all numbers of concurrent sessions, all adversaries and schedules", "why_tests_cant": "Tests run honest networks or one scripted misbehaviour; the claim ranges over all adversaries that cannot forge signatures.", "anchors": ["manul/src/session/session.rs: Session::preprocess_message, process_message", "manul/src/session/message.rs: SignedMessagePart::verify"]}
{"id": "C66", "title": "Echo rounds make honest parties agree on broadcasts against any adversary", "statement": "Whatever the dishonest parties and the network do, when an honest party can finalize its echo round, every honest party it expected an echo from has been in that echo round of the same session and held the same echo broadcast of every other party whose broadcast is echoed, or a hash collision was found.", "quantifier": "all protocols, all sets of honest parties, all echo participations, all adversaries and schedules", "why_tests_cant": "Equivocation has unboundedly many forms and timings; the tests exercise a few scripted ones.", "anchors": ["manul/src/session/echo.rs: EchoRound::receive_message, finalize", "manul/src/session/session.rs: Session::finalize_round, preprocess_message"]}
{"id": "C67", "title": "check_evidence accepts exactly the executions in which all others convict the target", "statement": "check_evidence returns Ok iff the target's report exists and accuses nobody provably, and every other report has exactly one provable error, against the target, with the expected description and verifying; every error it returns is true of the reports; it panics only if the target accuses somebody or verification panics. check_evidence_with_extension(s) modifies the last entry point only, and never succeeds on an honest execution with at least two parties (extensions that override nothing).", "quantifier": "all protocols, report maps, extensions, schedules and numbers of parties", "why_tests_cant": "The helper is itself test code: existing tests only call it where it should succeed.", "anchors": ["manul/src/dev/misbehave.rs", "manul/src/dev/extend.rs", "examples/src/simple_test.rs"]}
{"id": "C68", "title": "Honest parties cannot be framed with broadcast mismatch evidence", "statement": "Evidence of mismatched broadcasts against a party verifies only if that party signed two different echo broadcasts for the same round of the same session.", "quantifier": "all protocols, all sessions, all messages", "why_tests_cant": "Tests build evidence from real equivocation only; they do not try signed hashes of other parts of the same message.", "anchors": ["manul/src/session/echo.rs: MismatchedBroadcastsEvidence::verify (103-122)", "manul/src/session/message.rs: SignedMessageHash (373-423), to_signed_hash (159-169)"]}
{"id": "C69", "title": "Honest parties hold no evidence against honest parties", "statement": "Whatever the dishonest parties and the network do, the evidence recorded by an honest party never names an honest party as guilty, unless the protocol rejects an honest message or hashes collide.", "quantifier": "all protocols, all sets of honest parties, all adversaries and schedules", "why_tests_cant": "The adversary's messages and timings are unbounded; tests script a few kinds of misbehaviour.", "anchors": ["manul/src/session/echo.rs: EchoRound::receive_message (322-)", "manul/src/session/session.rs: add_processed_message", "manul/src/session/evidence.rs"]}
{"id": "C70", "title": "run_async completes for honest parties", "statement": "If all parties are honest, run_async (offload_processing = false) returns the report of every party with the results of the protocol: however tokio interleaves the node tasks and the message dispatcher, and whatever the dispatcher's random choices are, the tasks do not deadlock on the bounded channels (capacity 100), no execution goes on forever, and no task fails.", "quantifier": "all protocols without misbehaviour, all numbers of parties, all interleavings, all choices of the dispatcher", "why_tests_cant": "The test runs five parties once; a deadlock on full channels needs more than 51 parties and an unlucky interleaving.", "anchors": ["manul/src/dev/tokio.rs: message_dispatcher (18-72), run_async (78-147)", "manul/src/session/tokio.rs: run_session"]}
{"id": "C71", "title": "run_async hands over every message faithfully", "statement": "In run_async every node is a run of run_session on its own session; a node receives only messages sent to it, attributed to their true senders, each at most once; when run_async returns Ok, the reports are exactly those the nodes returned, one per party, and every message sent was received or is left in the channel of a node that had returned.", "quantifier": "all protocols, entry points and behaviours of parties, all interleavings, all channel capacities", "why_tests_cant": "Loss, duplication or misattribution of messages in rare interleavings is not visible in a single run.", "anchors": ["manul/src/dev/tokio.rs: message_dispatcher (18-72), run_async (78-147)"]}
{"id": "C72", "title": "run_async returns the reports also if a party misbehaves", "statement": "If some party misbehaves, run_async still returns the reports of the other parties, including the evidence they collected; it returns an error only if the code of a session fails.", "quantifier": "all protocols, misbehaving parties and interleavings", "why_tests_cant": "Misbehaviour is only tested with run_sync.", "anchors": ["manul/src/dev/tokio.rs: 50-62, 131-146"]}
{"id": "C73", "title": "Honest parties blame each other only for what the protocol turned down, or over equivocation", "statement": "In a protocol where everybody sends to everybody in each round, with messages attributed to their true senders and delivered at most once in any order, whatever the dishonest parties send: an honest party v holds an unprovable error of an honest party u only if the protocol's code at v answered an unprovable error to a message u made for v in the same round, and evidence against u only if the protocol's code at v turned down such a message or a dishonest party sent u and v different signed echo broadcasts in one round. A party is never blamed because a message arrived early or late.", "quantifier": "all such protocols, all sets of honest parties, all behaviour of the others, all delivery orders and interleavings, all points of the execution", "why_tests_cant": "False blame would depend on how messages of neighbouring rounds and echo rounds of several parties interleave with arbitrary messages of dishonest ones.", "anchors": ["manul/src/session/session.rs: preprocess_message (300-378), add_processed_message (415-420, 668-735), finalize_round (468-570)", "manul/src/session/echo.rs: receive_message (271-)", "manul/src/session/transcript.rs"]}
{"id": "C74", "title": "Messages between honest parties are not lost, whatever dishonest parties do", "statement": "In a protocol where everybody sends to everybody in each round, with messages attributed to their true senders and delivered at most once in any order, whatever the dishonest parties send: if an honest party u has made its message for v of the round v is in, then the message is on its way, or v has been told to process it, or v holds its payload, or v blames u for one of the two reasons of C73.", "quantifier": "all such protocols, all sets of honest parties, all behaviour of the others, all delivery orders and interleavings, all points of the execution", "why_tests_cant": "Loss would require particular interleavings of early messages, echo rounds and messages of dishonest parties.", "anchors": ["manul/src/session/session.rs: preprocess_message (300-378), add_processed_message (415-420, 668-735), finalize_round (468-570)"]}
{"id": "C75", "title": "The protocols of the benchmarks can be executed", "statement": "The protocols of the benchmarks empty_rounds and async_session complete with a result for every node, for any number of nodes from 2 on and any positive number of rounds, with or without echo broadcasts.", "quantifier": "all numbers of nodes >= 2 and of rounds >= 1, with and without echo broadcasts, all delivery orders", "why_tests_cant": "Benchmarks are not run by the test suite; a run checks only the parameters it uses.", "anchors": ["manul/benches/empty_rounds.rs", "manul/benches/async_session.rs", "manul/src/protocol/round.rs:171-197"]}
{"id": "C76", "title": "Honest parties are kept waiting only by dishonest or blamed ones", "statement": "In the situation of C73 and C74, if everybody sends all messages of a round before leaving it, and everything sent between honest parties has arrived and has been processed, but some session cannot be finalized, then there is a session that waits for a party that is dishonest, or that has no session, or that it turned down for one of the two reasons of C73, or that could finalize its own round.", "quantifier": "all such protocols, all sets of honest parties, all behaviour of the others, all delivery orders and interleavings", "why_tests_cant": "A deadlock among honest parties needs a particular interleaving of early messages, echo rounds and misbehaviour.", "anchors": ["manul/src/session/session.rs: preprocess_message (300-378), add_processed_message (415-420, 668-735), can_finalize (591-603), finalize_round (468-570)"]}
{"id": "C77", "title": "The parameters of the tests meet the assumptions about serialization and signing", "statement": "With TestSessionParams<BinaryFormat>, serializing and signing never fail, metadata, signatures and echo-round messages are read back as written (trailing bytes ignored, repeated keys refused), what was signed verifies, encoded metadata is prefix-free, and the digest depends only on the concatenation of the bytes fed to it. The parameters bind nothing cryptographically: a signature accepted for one content is accepted for all, anybody can sign for anybody, and every message part of at least 33 bytes has a second preimage of the same length.", "quantifier": "all metadata, signatures, echo-round messages, byte strings and ways to cut them into pieces, signers, draws", "why_tests_cant": "Tests run the parameters on a few values, and cannot tell that they would also accept forged messages.", "anchors": ["manul/src/dev/session_parameters.rs:7-110", "manul/src/dev/wire_format.rs:9-38", "manul/src/utils/serializable_map.rs", "manul/src/session/message.rs:18-36, 81-120, 372-424"]}
{"id": "C78", "title": "The example protocol completes under the parameters of its tests", "statement": "simple.rs run by run_sync with TestSessionParams<BinaryFormat> and n parties, 2 <= n <= 16, terminates with the result n(n-1) for everybody, without assumptions about the session parameters.", "quantifier": "all sets of 2 to 16 parties, all random draws, all orders of delivery", "why_tests_cant": "The test runs three parties and one random order.", "anchors": ["examples/src/simple.rs", "examples/src/simple_test.rs:13-31", "manul/src/dev/run_sync.rs", "manul/src/dev/session_parameters.rs", "manul/src/dev/wire_format.rs"]}
{"id": "C79", "title": "A party whose messages are turned down is convicted by everybody", "statement": "All parties run the library. Up to some round everything is received as the protocol demands; what one party t sends in that round is turned down by everybody else (malformed part, or a protocol error that the protocol's own verification confirms from the messages it refers to). Then, in whatever order messages are delivered, processed and rounds finalized, no call fails, the execution comes to an end, every other party holds evidence against t and records nothing else about anybody, the evidence names t, consists of the messages that t sent, and verifies; t itself records nothing. The same holds for the reports of run_sync, and dev::check_evidence_with_extensions succeeds whenever the extensions of the last party bring such an execution about and the expected description is that of the error.", "quantifier": "all protocols with an honest execution, all session parameters where serializing succeeds and honest signatures verify, all faulty parties, rounds and messages, all schedules, all random draws", "why_tests_cant": "Tests run one misbehaviour in one protocol, with three parties and one random order of delivery; they cannot show that evidence does not depend on when the bad message arrives relative to the others.", "anchors": ["manul/src/session/session.rs:245-790", "manul/src/session/evidence.rs", "manul/src/session/transcript.rs", "manul/src/dev/run_sync.rs", "manul/src/dev/misbehave.rs:18-170", "manul/src/dev/extend.rs"]}
{"id": "C80", "title": "The tests of simple_test.rs succeed for any group of 2 to 16 parties", "statement": "Both tests of examples/src/simple_test.rs (the last party sends its own position as the receiver's, in round 1 or in round 2) succeed for every set of 2 to 16 parties, in every order of delivery; with TestSessionParams<BinaryFormat>, this needs no assumption about the session parameters.", "quantifier": "all sets of 2 to 16 parties, all random draws, all orders of delivery, all session parameters (codecs that read back what they wrote, correct signatures)", "why_tests_cant": "The tests run with three parties and one order of delivery.", "anchors": ["examples/src/simple_test.rs:17-103", "examples/src/simple.rs", "manul/src/dev/misbehave.rs", "manul/src/dev/session_parameters.rs", "manul/src/dev/wire_format.rs"]}
{"id": "C81", "title": "run_async with offload_processing completes for honest parties", "statement": "If all parties are honest, run_async with offload_processing = true (par_run_session in every node) returns the report of every party with the results of the protocol: however tokio interleaves the node tasks, their creation and processing tasks and the message dispatcher, and whatever the dispatcher's random choices are, the tasks do not deadlock on the bounded channels (capacity 100), no execution goes on forever, and no task fails.", "quantifier": "all protocols without misbehaviour, all numbers of parties, all interleavings of all tasks, all choices of the dispatcher", "why_tests_cant": "The tests run a few parties once; a deadlock on full channels needs more than 51 parties and an unlucky interleaving.", "anchors": ["manul/src/dev/tokio.rs: message_dispatcher (18-72), run_async (78-147)", "manul/src/session/tokio.rs: par_run_session"]}
{"id": "C82", "title": "run_async with offload_processing hands over every message faithfully", "statement": "In run_async with offload_processing = true every node is a run of par_run_session on its own session; a node receives only messages sent to it, attributed to their true senders, each at most once; when run_async returns Ok, the reports are exactly those the nodes returned, one per party, and every message sent was received or is left in the channel of a node that had returned.", "quantifier": "all protocols, entry points and behaviours of parties, all interleavings of all tasks, all channel capacities", "why_tests_cant": "Loss, duplication or misattribution of messages in rare interleavings is not visible in a single run.", "anchors": ["manul/src/dev/tokio.rs: message_dispatcher (18-72), run_async (78-147)", "manul/src/session/tokio.rs: par_run_session"]}
{"id": "C83", "title": "Chaining protocols that succeed gives a protocol that succeeds", "statement": "If honest parties complete the first protocol of a chain, and, started with its results, the second one, whatever the order in which messages arrive, then they complete the chained protocol, with the results of the second protocol, and no honest party is blamed; this holds with every driver and can be repeated for chains of chains.", "quantifier": "all pairs of protocols, all joins, all parties, all random choices, all delivery orders and interleavings", "why_tests_cant": "The tests chain one protocol with itself for three parties; a party that is still in the first protocol while another is in the second round of the second one does not occur there.", "anchors": ["manul/src/combinators/chain.rs: ChainedEntryPoint, ChainedRound::finalize", "examples/src/simple_chain.rs"]}
{"id": "C84", "title": "The chained example protocol succeeds with every driver", "statement": "For any set of 2 to 16 parties, any session id and any random choices, the protocol of simple_chain.rs run with run_sync, and with run_async with or without offload_processing, and with the session parameters of the tests, ends with a report of every party, without errors and with the result n(n-1).", "quantifier": "all sets of 2 to 16 ids, all session ids, all random choices, all delivery orders and task interleavings", "why_tests_cant": "The test runs three parties with one order of messages.", "anchors": ["examples/src/simple_chain.rs (24-64 and its test)", "manul/src/dev/run_sync.rs", "manul/src/dev/tokio.rs"]}
{"id": "C85", "title": "The asynchronous example tests succeed for all interleavings", "statement": "For any set of up to 16 parties, any session id and any random choices, the simple protocol run with run_async, with or without offload_processing, with the session parameters of the tests, never deadlocks or goes on forever and returns the report of every party, without errors and with the result n(n-1).", "quantifier": "all sets of up to 16 ids, all session ids, all random choices, all task interleavings", "why_tests_cant": "The tests run one interleaving chosen by tokio.", "anchors": ["examples/tests/async_runner.rs", "manul/src/dev/tokio.rs", "manul/src/session/tokio.rs"]}
{"id": "C86", "title": "What a session stores is bounded by the number of parties", "statement": "Whatever messages arrive, the number of things a session stores because of them (messages being processed or cached, payloads, parts of messages, errors) is bounded by a number that depends only on the parties of the protocol and the number of rounds, not on the number of messages received.", "quantifier": "all protocols, all sequences of messages by any senders, all rounds", "why_tests_cant": "Tests send one message per party and round; growth of the storage needs many messages of unexpected senders.", "anchors": ["manul/src/session/session.rs: Session::preprocess_message (302-393), RoundAccumulator (538-758)", "manul/src/session/transcript.rs: Transcript::update"]}
{"id": "C87", "title": "Messages and evidence survive being sent as bytes", "statement": "With TestSessionParams<BinaryFormat>, a Message and an Evidence that are serialized and deserialized again are the same values as before, whatever bytes follow them; nothing can be cut off without being noticed; a round or a party that occurs twice in a map of the evidence is refused.", "quantifier": "all messages, all evidence, all following bytes, all cuts", "why_tests_cant": "Tests pass messages and evidence as Rust values, or serialize a few of them.", "anchors": ["manul/src/session/message.rs: Message, SignedMessagePart, MessageWithMetadata", "manul/src/session/evidence.rs: Evidence, EvidenceEnum, ProtocolEvidence", "manul/src/session/echo.rs: InvalidEchoError, MismatchedBroadcastsError", "manul/src/utils/serializable_map.rs", "manul/src/dev/wire_format.rs: BinaryFormat"]}
{"id": "C88", "title": "No bytes received as evidence make the verifier panic", "statement": "Whatever bytes a third party receives, if they can be deserialized as evidence, verifying the evidence does not panic.", "quantifier": "all byte strings, all protocols", "why_tests_cant": "Tests verify evidence that honest parties created.", "anchors": ["manul/src/session/evidence.rs: Evidence::verify, ProtocolEvidence::verify", "manul/src/protocol/evidence.rs: NoProtocolErrors (252-277)"]}
{"id": "C89", "title": "Session ids made from different seeds keep sessions apart", "statement": "SessionId::from_seed gives different ids for different seeds, and ids different from every content hash and every signed digest of a message, unless an explicit hash collision is exhibited; hence a message made by a session with one seed is not accepted by a session with another seed.", "quantifier": "all seeds, all session parameters, all sessions and messages", "why_tests_cant": "A statement about all pairs of seeds; the digest used in tests is not collision resistant.", "anchors": ["manul/src/session/session.rs: SessionId::from_seed (71-91)", "manul/src/session/session.rs: Session::preprocess_message"]}
{"id": "C90", "title": "The messages that protocol-specific evidence checks see are authentic", "statement": "When evidence of a protocol error verifies, every message that the accessors of EvidenceMessages return to the protocol's own check is contained in the evidence, signed by the guilty party for this session and for the round the accessor was asked for; conversely the accessors return every message of the evidence that can be deserialized; combined_echos returns exactly the broadcasts echoed by the guilty party, each signed by its sender for that round.", "quantifier": "all protocols made of typed rounds, all evidence (also forged), all rounds and message types asked for", "why_tests_cant": "Tests verify evidence made by honest parties; the statement is about everything a malicious accuser can put into evidence.", "anchors": ["manul/src/protocol/evidence.rs: EvidenceMessages (61-228)", "manul/src/session/evidence.rs: ProtocolEvidence::verify (420-564)"]}
{"id": "C91", "title": "The dining cryptographers example ends with the right conclusion", "statement": "The main function of dining_cryptographers.rs: run_sync with the parameters of the example and the three diners terminates without error or panic, results() succeeds, and every diner concludes that one of the diners paid exactly if diner 0 drew that it paid. The same for any session parameters.", "quantifier": "all random draws, all session ids, all orders in which messages are picked", "why_tests_cant": "The example is not even run by the tests; a run shows one draw and one order of messages.", "anchors": ["examples/dining_cryptographers.rs: main", "manul/src/dev/run_sync.rs: run_sync", "manul/src/dev/run_sync.rs: ExecutionResult::results"]}
{"id": "C92", "title": "The dining cryptographers example does not reveal who paid", "statement": "For a diner that has not paid: flipping the coin toss it does not see and letting its other neighbour be the payer changes neither the contents of any message sent to it nor its outcome.", "quantifier": "all tosses, both possible payers, all pairs of executions (any order of delivery)", "why_tests_cant": "A property of pairs of executions; no test compares executions.", "anchors": ["examples/dining_cryptographers.rs: Round1, Round2"]}
{"id": "C93", "title": "run_async with offloaded processing returns the reports also if a party misbehaves", "statement": "With offload_processing = true: if some party misbehaves, run_async still returns the reports of the other parties, including the evidence they collected; it returns an error only if the code of a session fails.", "quantifier": "all protocols, misbehaving parties and interleavings of all tasks", "why_tests_cant": "Misbehaviour is only tested with run_sync.", "anchors": ["manul/src/dev/tokio.rs: 50-62, 131-146", "manul/src/session/tokio.rs: par_run_session"]}
{"id": "C94", "title": "The text of a round id identifies the round", "statement": "Two different RoundIds never have the same Display text, also with groups and echo rounds.", "quantifier": "all round ids with any number of groups", "why_tests_cant": "Tests look at a few ids.", "anchors": ["manul/src/protocol/round_id.rs: impl Display for RoundId"]}
{"id": "C95", "title": "SessionReport::brief shows all that a report contains", "statement": "The text starts with the outcome and contains a line for each provable error, unprovable error and round with missing messages. After an honest execution it is the result and nothing else; if everybody turns down what one party sends in one round, the text of the others accuses exactly that party.", "quantifier": "all reports; all honest executions, and executions with one misbehaving party, under run_sync with all orders of messages", "why_tests_cant": "No test looks at the text.", "anchors": ["manul/src/session/transcript.rs: SessionReport::brief, SessionReport::result, SessionOutcome::brief", "manul/src/session/evidence.rs: description"]}
{"id": "C96", "title": "The tests of the simple example succeed with the texts they expect", "statement": "check_evidence_with_extension succeeds for the two misbehaviours of examples/src/simple_test.rs with the expected descriptions \"(Round 1): Invalid position\" and \"(Round 2): Invalid position\".", "quantifier": "2 to 16 parties, all draws, session ids and orders of messages", "why_tests_cant": "The tests run with one number of parties, one draw and one order of messages.", "anchors": ["examples/src/simple_test.rs", "manul/src/dev/misbehave.rs: check_evidence_with_extensions", "manul/src/session/evidence.rs: Evidence::new_provable_error"]}
{"id": "C97", "title": "The description of evidence that verifies is true", "statement": "If evidence obtained from somebody else verifies, then Evidence::description says what is wrong with the messages that it contains.", "quantifier": "all evidence, all descriptions", "why_tests_cant": "Tests only look at evidence made by the library itself.", "anchors": ["manul/src/session/evidence.rs: Evidence::verify, Evidence::description"]}
{"id": "C98", "title": "Drivers: run_session convicts a misbehaving party", "statement": "Every party is driven by run_session; what one party t sends in one round is turned down by everybody else, and everything else is received as it should. In whatever order the drivers go on and messages are delivered, every other party that returns reports a termination with one piece of evidence, against t, which verifies, and nothing about anybody else; t accuses nobody; the execution comes to an end, and then all others have returned and no message is left.", "quantifier": "all protocols with an honest execution, all session parameters where serializing succeeds and honest signatures verify, all faulty parties, rounds and messages, all schedules", "why_tests_cant": "The tests of misbehaviour use run_sync only; no test runs the tokio drivers with a misbehaving party, let alone in all schedules.", "anchors": ["manul/src/session/tokio.rs: run_session", "manul/src/session/session.rs", "manul/src/session/evidence.rs", "manul/src/dev/tokio.rs: run_async"]}
{"id": "C99", "title": "Drivers: par_run_session convicts a misbehaving party", "statement": "The same as C98 when every party is driven by par_run_session, with at most 101 parties: although a driver that gives up drops what its tasks have processed, every other party returns evidence against t, and nobody is left waiting for messages of parties that have given up.", "quantifier": "all protocols with an honest execution of at most 101 parties, all session parameters where serializing succeeds and honest signatures verify, all faulty parties, rounds and messages, all schedules of drivers, tasks and deliveries", "why_tests_cant": "The tests of misbehaviour use run_sync only; interleavings of tasks, drivers and deliveries cannot be enumerated.", "anchors": ["manul/src/session/tokio.rs: par_run_session", "manul/src/session/session.rs", "manul/src/session/evidence.rs", "manul/src/dev/tokio.rs: run_async"]}
{"id": "C100", "title": "Sessions: whoever cheats is blamed, by those it cheated on, and nobody else is", "statement": "Any number of parties send invalid messages, in any rounds, each to whomever it likes, with errors that can be verified or only unprovably. In whatever order messages are sent, delivered and processed and rounds finalized, no call fails and this comes to an end; everybody blames only parties whose messages it turned down, with evidence that verifies wherever there is evidence; whoever has a result was sent nothing invalid; in the end those who stop first have blamed exactly those whose messages they turned down, and each of these. run_sync, whatever it picks, returns such reports if somebody turns down something.", "quantifier": "all protocols with an honest execution, all session parameters where serializing succeeds and honest signatures verify, all sets of invalid messages between any parties in any rounds, all schedules", "why_tests_cant": "The tests have one misbehaving party, sending one invalid message to everybody in one fixed round.", "anchors": ["manul/src/session/session.rs", "manul/src/session/evidence.rs", "manul/src/session/transcript.rs", "manul/src/dev/run_sync.rs"]}
{"id": "C101", "title": "Drivers: run_session blames exactly those who cheated", "statement": "The same as C100 when every party is driven by run_session: whoever returns does so with a report that blames exactly the parties whose messages it turned down in the round in which it stopped, with evidence that verifies, or with a result if it turned down nothing; the execution comes to an end, no message is left, and those who stop first have returned.", "quantifier": "all protocols with an honest execution, all session parameters where serializing succeeds and honest signatures verify, all sets of invalid messages between any parties in any rounds, all schedules", "why_tests_cant": "No test runs the tokio drivers with misbehaving parties.", "anchors": ["manul/src/session/tokio.rs: run_session", "manul/src/session/session.rs", "manul/src/session/evidence.rs", "manul/src/dev/tokio.rs: run_async"]}
{"id": "C102", "title": "Drivers: par_run_session blames exactly those who cheated", "statement": "The same as C101 when every party is driven by par_run_session, with at most 101 parties.", "quantifier": "all protocols with an honest execution of at most 101 parties, all session parameters where serializing succeeds and honest signatures verify, all sets of invalid messages between any parties in any rounds, all schedules of drivers, tasks and deliveries", "why_tests_cant": "No test runs the tokio drivers with misbehaving parties; interleavings of tasks, drivers and deliveries cannot be enumerated.", "anchors": ["manul/src/session/tokio.rs: par_run_session", "manul/src/session/session.rs", "manul/src/session/evidence.rs", "manul/src/dev/tokio.rs: run_async"]}
{"id": "C103", "title": "The description of evidence tells what it is about", "statement": "The description that the library gives to evidence determines the kind of evidence: protocol error, malformed direct message, echo broadcast or normal broadcast, invalid echoed message, or mismatched broadcasts; for a protocol error it determines the round number too, whatever the texts of errors are.", "quantifier": "all evidence, all texts of errors", "why_tests_cant": "Tests look for the text of two protocol errors only.", "anchors": ["manul/src/session/evidence.rs: Evidence::new_provable_error, new_invalid_direct_message, new_invalid_echo_broadcast, new_invalid_normal_broadcast, new_echo_round_error", "manul/src/protocol/message.rs", "manul/src/session/echo.rs"]}
{"id": "C104", "title": "Giving up waiting blames nobody and names exactly the late ones", "statement": "If all parties are honest but messages get lost or delayed and parties stop at any time, then whoever calls terminate at any moment gets a report with the outcome Terminated, without provable or unprovable errors, in which missing_messages has, for the current round only, exactly the expected parties whose message was not yet made, is still on the way, or has arrived but is not processed yet.", "quantifier": "all protocols with an honest execution, all session parameters where serializing succeeds and honest signatures verify, all schedules, all losses of messages, all parties and moments", "why_tests_cant": "No test loses messages or terminates a session early.", "anchors": ["manul/src/session/session.rs: Session::terminate, terminate_inner, RoundAccumulator", "manul/src/session/transcript.rs: Transcript::update, SessionReport::missing_messages"]}
{"id": "C105", "title": "Misbehaviour in either part of a chain is blamed as in the parts", "statement": "If executions of two protocols, in which any parties send messages that are turned down (with an error the protocol can verify, or without proof), are put one after the other by chain, then the chain turns down the same messages, can verify the same errors from the same earlier messages, and in every schedule of its network no call fails and only parties whose messages were turned down are blamed, with evidence that the chain verifies; those that stop first blame exactly these.", "quantifier": "all protocols and joins, all executions of the parts where everybody sends to everybody else, all sets of turned down messages, all schedules", "why_tests_cant": "No test has a misbehaving party in a chained protocol; the errors of the parts refer to rounds whose ids change in the chain.", "anchors": ["manul/src/combinators/chain.rs: ChainedRound, RoundInfo1, RoundInfo2, ungroup", "manul/src/protocol/errors.rs: RequiredMessages::group_under", "manul/src/session/evidence.rs"]}
{"id": "C106", "title": "run_async reports misbehaviour", "statement": "In every interleaving of the tasks of run_async, with any parties whose messages are turned down by any others: if it returns reports, these are of all the parties, blame exactly those whose messages were turned down in the round in which the reporting party stopped, with verifying evidence, and have the results of those that did not stop. If nobody goes past the round in which messages are turned down and the channels have room for two messages of every other party, run_async does return, and returns reports.", "quantifier": "all protocols, executions, sets of turned down messages, interleavings of the tasks and draws of the dispatcher; any number of parties for the first part, up to 51 with the channels of run_async for the second", "why_tests_cant": "The tests of run_async have honest parties only; which task runs when depends on the scheduler.", "anchors": ["manul/src/dev/tokio.rs: run_async, message_dispatcher", "manul/src/session/tokio.rs: run_session", "manul/src/session/session.rs: terminate_due_to_errors"]}
{"id": "C107", "title": "run_async reports misbehaviour when processing is offloaded", "statement": "C106 for run_async with offload_processing = true, where every node makes and processes messages in tasks of their own: in every interleaving of all the tasks the reports that are returned are of all parties and right; and they are returned if nobody goes past the round in which messages are turned down and the channels have room.", "quantifier": "all protocols, executions, sets of turned down messages, interleavings of all the tasks and draws of the dispatcher; any number of parties for the first part, up to 51 with the channels of run_async for the second", "why_tests_cant": "The tests of run_async have honest parties only; with tasks for every message the interleavings cannot be enumerated.", "anchors": ["manul/src/dev/tokio.rs: run_async, message_dispatcher", "manul/src/session/tokio.rs: par_run_session", "manul/src/session/session.rs: terminate_due_to_errors"]}
{"id": "C108", "title": "Entry points announce the round they make", "statement": "entry_round_id() of an entry point is the id of the round that make_round returns: for the entry points of all protocols in the repository, and for those of chained and extended protocols whenever it is true of the entry points they are built from. So a session starts in the announced round, and in a chain the second protocol starts in the round that the last round of the first one declares as its child.", "quantifier": "all entry points, parties, shared randomness, random choices; any nesting of chains and extensions", "why_tests_cant": "entry_round_id is used only by the chain combinator, to declare children; a wrong id makes the transition fail only for the combinations that are tried.", "anchors": ["manul/src/combinators/chain.rs: entry_round_id, make_round, transition_info", "manul/src/combinators/extend.rs: ExtendableEntryPoint", "examples/src/simple.rs", "examples/dining_cryptographers.rs", "manul/src/tests/partial_echo.rs", "manul/benches/empty_rounds.rs"]}
{"id": "C109", "title": "Results are made of signed messages only", "statement": "Whatever the other parties send: the round a session is in and the result it reports are what the rounds of the protocol made, one after another, of messages processed in this session; each round was finalized with exactly one payload of each party it expects, made from a message that this party signed for this session and this round. For simple.rs: the result is the sum of the own position and the positions that all others claimed, in messages signed for the two rounds that state the receiver's position correctly, and is at most 255.", "quantifier": "all protocols, sessions, histories of received messages, dishonest parties", "why_tests_cant": "Tests run honest parties or a few fixed deviations; in honest executions the claims of both rounds are equal, so that mixing them up is not noticed.", "anchors": ["manul/src/session/session.rs: finalize_round, process_message", "examples/src/simple.rs: Round1::finalize, Round2::finalize"]}
{"id": "C110", "title": "What a diner reports", "statement": "Whatever the other diners do, a diner that reports a result reports the bits that the two others broadcast in signed messages of round 2, in the order of their ids, and the xor of its own toss, the toss that its neighbour told it in a signed message of round 1, and whether it paid.", "quantifier": "all histories of received messages, tosses, payments, entry points starting with round 1", "why_tests_cant": "The example runs three honest diners.", "anchors": ["examples/dining_cryptographers.rs: Round1::finalize, Round2::finalize"]}
{"id": "C111", "title": "The transcript is the record of the session", "statement": "At any point of a session, the transcript has a message part of a party for a round exactly if a round with this id has been completed in this session and the part is one of the message of this party that the round accepted (or, among the echo broadcasts, the broadcast the session itself made in that round); parts that were rejected, empty, cached or of unfinished rounds are not in it, and nothing is removed or replaced later. Its errors are exactly those noted by the completed rounds; a report has those and the ones of the round in which the session ended.", "quantifier": "all protocols, sessions, histories of received messages, dishonest parties", "why_tests_cant": "Tests look at the final report of a few executions; the stored messages are private and are used only if evidence of a later round refers to them.", "anchors": ["manul/src/session/transcript.rs: Transcript::update", "manul/src/session/session.rs: finalize_round, terminate_inner, RoundAccumulator::add_processed_message"]}
{"id": "C112", "title": "Errors are noted exactly when messages are turned down", "statement": "At any point of a session, a party is banned exactly if earlier a message received from it was turned down by preprocess_message or answered with an error by the round that processed it. There is evidence filed under it exactly if that answer was a provable error, and the evidence is made of the parts of that very message; there is an unprovable error exactly if a message was turned down or the answer was an unprovable error. Nothing else - cached messages, messages of others, finalization, artifacts - leads to an error being noted, and no error is forgotten.", "quantifier": "all protocols, sessions, histories of received messages, dishonest parties", "why_tests_cant": "Tests check that particular misbehaviour is noted; that nothing else is, and that nothing is lost later in whatever order, is a statement about all histories.", "anchors": ["manul/src/session/session.rs: preprocess_message, RoundAccumulator::add_processed_message, register_provable_error, register_unprovable_error", "manul/src/session/transcript.rs: Transcript::update, is_banned"]}
{"id": "C113", "title": "Messages are turned down exactly for the stated reasons", "statement": "The error with which preprocess_message turns down a message states a reason that is true: the sender is banned; the metadata of the parts disagree; they are for another session; for this round, for which a message of the sender has been handed out already; for another round for which one has been cached already; for a round that nobody can be in now; a signature has the wrong format; a signature is not the sender's on that part. And a message for which no such reason exists is not turned down.", "quantifier": "all protocols, sessions, round histories, senders and messages", "why_tests_cant": "Tests send one message per reason; the order of the checks and their combinations with what has been received before are not explored.", "anchors": ["manul/src/session/session.rs: preprocess_message", "manul/src/session/message.rs: unify_metadata, verify"]}
{"id": "C114", "title": "The course of a session depends on the processed messages only", "statement": "If in two executions of the same session, round by round, the same messages are processed and the same artifacts made, and the rounds are finalized with the same random choices, then - whatever else is received from whomever, and in whatever order - the sessions go through the same rounds in the same states, send the same messages, store the same messages, and end with the same result; they differ at most in the errors that were noted.", "quantifier": "all protocols, sessions, pairs of histories", "why_tests_cant": "Tests compare single executions with an expected result; independence of junk and order is a statement about pairs of executions.", "anchors": ["manul/src/session/session.rs: finalize_round, new_for_next_round, make_message", "manul/src/session/transcript.rs: Transcript::update"]}
{"id": "C115", "title": "Exactly when adding a processed message fails", "statement": "add_processed_message succeeds exactly if the sender is one of the parties the round expects messages from, no message of it has been added in this round, and the round's answer is neither a panic, nor a local error, nor a protocol error whose evidence needs messages that have not been received. If the sender is the reason, the accumulator is unchanged and the error tells whether a message of the sender has been accepted before.", "quantifier": "all protocols, histories of a round, messages to be processed", "why_tests_cant": "An equivalence over all histories and messages; tests show single successes and failures.", "anchors": ["manul/src/session/session.rs: RoundAccumulator::add_processed_message"]}
{"id": "C116", "title": "Exactly when a session cannot be ended with a report", "statement": "In a round whose id was not used before, terminate (and terminate_due_to_errors) fails exactly if a message that was handed out of the cache when the round began has been processed and answered with an error, and an error of the same kind (provable or not) was noted for its sender in an earlier round.", "quantifier": "all protocols, all histories of a round", "why_tests_cant": "An equivalence over all histories, with a cause that lies two rounds back.", "anchors": ["manul/src/session/session.rs: terminate, terminate_due_to_errors, finalize_round", "manul/src/session/transcript.rs: Transcript::update"]}
{"id": "C117", "title": "No other party can make run_session fail", "statement": "As long as the protocol itself and the channels do not fail, run_session returns a report, whatever messages are received from whomever.", "quantifier": "all protocols, sessions, inputs of the driver", "why_tests_cant": "Universal over what adversaries send and when; the tests of the drivers use honest parties.", "anchors": ["manul/src/session/tokio.rs: run_session", "manul/src/session/session.rs: add_processed_message, preprocess_message"]}
{"id": "C118", "title": "No other party can make par_run_session fail", "statement": "As long as the protocol itself and the channels do not fail, par_run_session returns a report, whatever messages are received from whomever and however its tasks are scheduled.", "quantifier": "all protocols, sessions, received messages, schedules of the tasks", "why_tests_cant": "Universal over adversarial messages and schedules of concurrent tasks.", "anchors": ["manul/src/session/tokio.rs: par_run_session", "manul/src/session/session.rs: add_processed_message"]}
{"id": "C119", "title": "The result of a session does not depend on the schedule", "statement": "Two executions of the same session with the same random choices that both end with a result have the same result, whatever the order in which messages are received and processed, whatever else is received, however tasks are scheduled, and whichever driver (run_session, par_run_session) is used.", "quantifier": "all protocols, sessions, received messages, orders, schedules, pairs of drivers", "why_tests_cant": "Relates pairs of executions; tests check single executions.", "anchors": ["manul/src/session/tokio.rs: run_session, par_run_session", "manul/src/session/session.rs: preprocess_message, finalize_round, filter_messages"]}
{"id": "C120", "title": "What run_session does is determined by what it receives", "statement": "Two calls of run_session with the same session and random choices, of which one has received what the other has received in the same order and possibly more, do the same things in the same order: one of them has done what the other did, and if both have returned they have returned the same report or error. When messages arrive has no influence.", "quantifier": "all protocols, sessions, received messages (also of misbehaving parties), times of arrival", "why_tests_cant": "Relates pairs of executions; tests check single executions.", "anchors": ["manul/src/session/tokio.rs: run_session"]}
{"id": "C121", "title": "The nodes of run_async make independent random choices", "statement": "What a node started by run_async sends does not reveal the random choices of another node, unless the protocol makes it.", "quantifier": "all generators, protocols, nodes", "why_tests_cant": "A statement about all generators; the tests of the examples draw once and do not compare the draws of different nodes.", "anchors": ["manul/src/dev/tokio.rs: run_async", "examples/dining_cryptographers.rs: make_round"]}
{"id": "C122", "title": "run_session reports as missing exactly the messages that did not arrive", "statement": "The report of run_session lists as missing exactly the messages of its last round that did not arrive: everybody listed was expected to send in this round and, unless blamed in the same report, no message signed by it for this round was received; everybody who was expected to send and whose message was not received is listed; nobody is listed unless the driver was cancelled.", "quantifier": "all protocols, sessions, received messages, times of cancellation", "why_tests_cant": "No test cancels a driver; the moment of cancellation ranges over all states of all rounds.", "anchors": ["manul/src/session/tokio.rs: run_session", "manul/src/session/session.rs: terminate_inner", "manul/src/session/transcript.rs: update"]}
{"id": "C123", "title": "par_run_session reports as missing exactly the messages that did not arrive", "statement": "The same for par_run_session.", "quantifier": "all protocols, sessions, received messages, schedules of the tasks, times of cancellation", "why_tests_cant": "No test cancels a driver, and the schedule of the tasks is not under the control of a test.", "anchors": ["manul/src/session/tokio.rs: par_run_session"]}
{"id": "C124", "title": "What the drivers do is a history of their session", "statement": "Whatever run_session and par_run_session have done up to some moment is a history of the session: they preprocess what they receive, process what preprocessing or caching hands out, add the artifacts of what they send, and finalize a round only after everything has been sent, in the states which this history gives. A driver that returns a report has closed the session in the last state of the history.", "quantifier": "all protocols, sessions, received messages, schedules of the tasks, random choices", "why_tests_cant": "Tests run the drivers with a few protocols on one network; the property is about every interleaving of messages and tasks.", "anchors": ["manul/src/session/tokio.rs: run_session", "manul/src/session/tokio.rs: par_run_session"]}
{"id": "C125", "title": "The reports of the drivers blame exactly those whose messages were turned down", "statement": "The reports of both drivers blame exactly those of whom a message was turned down on receipt or by the round, in the history performed by the driver; the evidence in them is about such messages.", "quantifier": "all protocols, sessions, received messages, schedules of the tasks", "why_tests_cant": "The misbehaviour tests cover a handful of faults in one protocol; the property is about all messages in all orders.", "anchors": ["manul/src/session/tokio.rs: run_session", "manul/src/session/tokio.rs: par_run_session", "manul/src/session/session.rs: add_processed_message", "manul/src/session/session.rs: preprocess_message"]}
{"id": "C126", "title": "What HumanReadableFormat writes is read back, and nothing else is taken for it", "statement": "With HumanReadableFormat (JSON) messages, evidence, metadata, signatures and echo broadcasts are read back from their texts, whatever follows the text; no proper prefix of the text of a message or evidence is accepted; what is read from any text depends only on the part which was read; a text with two values for a field or for a key of a map is refused. The assumptions which the other properties make about the wire format and signatures hold for it with the parameters of dev/session_parameters.rs.", "quantifier": "all messages, evidence, continuations, texts, encodings of byte strings", "why_tests_cant": "The repository's tests only serialize some values they create; the property is about all values and about all texts which others may send.", "anchors": ["manul/src/dev/wire_format.rs: HumanReadableFormat", "manul/src/session/wire_format.rs: WireFormat", "manul/src/dev/session_parameters.rs: TestSessionParams", "manul/src/utils/serializable_map.rs: SerializableMap"]}
{"id": "C127", "title": "The example protocol gives its results with HumanReadableFormat", "statement": "simple.rs run by run_sync with TestSessionParams<HumanReadableFormat> gives each of n parties, 2 <= n <= 16, the result n(n-1).", "quantifier": "all sets of 2 to 16 parties, session ids, delivery orders, random choices", "why_tests_cant": "The tests run three parties with the binary format.", "anchors": ["manul/src/dev/wire_format.rs: HumanReadableFormat", "manul/src/dev/run_sync.rs: run_sync", "examples/src/simple.rs"]}
{"id": "C128", "title": "What the methods of typed rounds return reaches the session", "statement": "A message is turned down with the error for the first part which is not of the type declared by the round; otherwise the round's receive_message gets exactly these parts, and its payload, unprovable error, local error or protocol error (serialized, with the messages it requires) reaches the session, which keeps the payload, blames the sender with that error, or returns the local error. The message parts sent are the serialized messages made by the round. A method that is not implemented sends nothing if the message type is NoMessage (and the artifact type NoArtifact), and is an error otherwise.", "quantifier": "all protocols made of typed rounds, rounds, messages, sessions, accumulators", "why_tests_cant": "Each test protocol uses a few combinations of message types and errors; the property is about all of them.", "anchors": ["manul/src/protocol/dyn_round.rs: RoundWrapper", "manul/src/protocol/dyn_round.rs: BoxedReceiveError", "manul/src/protocol/round.rs: Round", "manul/src/session/session.rs: process_message"]}
{"id": "C129", "title": "HumanReadableFormat reads exactly the JSON texts", "statement": "A value is read from some bytes exactly if these start, after white space, with a JSON text (as in RFC 8259) of nesting at most 127 which stands for the value, and what is left is what follows this text. A text has one meaning only. Messages and evidence are written as such texts.", "quantifier": "all bytes, types, values", "why_tests_cant": "The property is about all byte strings, most of which nobody writes in a test.", "anchors": ["manul/src/dev/wire_format.rs: HumanReadableFormat", "manul/src/session/wire_format.rs: WireFormat"]}
{"id": "C130", "title": "Evidence verifies exactly if it shows what it says", "statement": "Evidence::verify succeeds exactly if: (equivocation) the named party signed an echo broadcast and, with the same metadata, a digest different from the one of this broadcast; (invalid echo) the guilty party signed an echo message with a digest that its alleged sender did not sign, or with other metadata than the message; (malformed part) the guilty party signed a part which the echo round or the round of the protocol says to be malformed; (protocol error) the triggering message, of which a part is present, and the earlier ones are signed by the guilty party for one session and their rounds, the echoed broadcasts are there, signed by their senders, with the digests that the guilty party echoed, and the protocol's check accepts.", "quantifier": "all parameters, protocols, evidence (also forged), shared data", "why_tests_cant": "Evidence may be made by anybody, with any contents; tests try a few.", "anchors": ["manul/src/session/evidence.rs: Evidence::verify", "manul/src/session/echo.rs: verify", "manul/src/session/evidence.rs: ProtocolEvidence::verify"]}
{"id": "C131", "title": "HumanReadableFormat: the texts of messages and evidence", "statement": "A message, evidence, echo round message or signature is read from some bytes exactly if these start with a JSON text of an object which has the fields of the type, each once, with readable values (an optional field may be null or left out, other fields are ignored, the order does not matter), or of an array of their values. The kind of evidence is the name of the only field of its object. Maps are arrays of pairs with different keys.", "quantifier": "all bytes, encodings, messages, evidence", "why_tests_cant": "Messages come from other programs, which may write the same message in any of infinitely many ways.", "anchors": ["manul/src/dev/wire_format.rs: HumanReadableFormat", "manul/src/session/message.rs: Message", "manul/src/session/evidence.rs: Evidence, ProtocolEvidence", "manul/src/utils/serializable_map.rs"]}
{"id": "C132", "title": "BinaryFormat: the bytes of messages and evidence", "statement": "A message, evidence, echo round message or signature is read from some bytes exactly if these start with a layout of it in the format (fields in order, lengths and integers as base-128 numbers possibly with superfluous bytes, options preceded by 0 or 1, maps as a number of entries and the entries in any order with different keys, the kind of evidence by its number); what is left is what follows. The same bytes are never the layout of two values, and every value has a layout, the one that is written.", "quantifier": "all bytes, messages, evidence", "why_tests_cant": "Bytes come from other parties, who may send any of them.", "anchors": ["manul/src/dev/wire_format.rs: BinaryFormat", "manul/src/session/message.rs: Message", "manul/src/session/evidence.rs: Evidence, ProtocolEvidence", "manul/src/utils/serializable_map.rs"]}
{"id": "C133", "title": "Simple example protocol in release builds", "statement": "In a release build (u8 additions wrap) an honest run of the example protocol with any number n of parties always completes, never panics, and yields n(n-1) modulo 256 for every party, which is the sum of the positions in both rounds exactly for n <= 16; whatever other parties sent, a round that a debug build finishes is finished by a release build with the same outcome.", "quantifier": "all n, all delivery orders, all received payloads", "why_tests_cant": "All n; tests run in debug builds.", "anchors": ["examples/src/simple.rs: Round1, Round2"]}
{"id": "C134", "title": "What messages can do that their declared sender did not sign", "statement": "A message which its declared sender has not signed for this session has exactly one effect, if that sender is not banned yet: an unprovable error is noted for the sender. It never leads to evidence, a payload or a cached message. But whenever run_session waits for this sender, such a message makes it wait until it is cancelled, also if it would otherwise return a result; so the sender of incoming messages has to be authenticated (as the documentation demands) although messages are signed.", "quantifier": "all protocols, reachable states, messages, schedules", "why_tests_cant": "Any bytes may be received, in any state, and nothing that follows helps: the continuations are infinitely many.", "anchors": ["manul/src/session/session.rs: preprocess_message", "manul/src/session/tokio.rs: MessageIn, run_session"]}
{"id": "C135", "title": "What messages can do that are delivered more than once", "statement": "A message that is received again while the round is the same is turned down, and its only effect is that an unprovable error is noted for its sender (none if the sender is banned already). So the sender is ignored from then on: neither run_session nor par_run_session finishes a round that still waits for this sender, before it is cancelled. One duplicate of an honest message can therefore keep a session from returning the result it would return otherwise; the drivers need a transport that delivers every message at most once.", "quantifier": "all protocols, reachable states, messages, schedules", "why_tests_cant": "The second delivery may come at any moment of the round, and what follows it are infinitely many continuations.", "anchors": ["manul/src/session/session.rs: preprocess_message", "manul/src/session/tokio.rs: run_session, par_run_session"]}
{"id": "C136", "title": "Any protocol can be made extendable", "statement": "ExtendableEntryPoint can be wrapped around the entry point of any protocol, in particular of a chained or an already extended one; without extensions nothing changes. (False: wrap_round requires typed rounds, but all rounds of chained protocols, and the rounds of extended protocols that are passed through, are dynamic; no session can be created. What holds: the two parts of a chain can be extended before they are chained, with exactly the effect of rewriting them by hand.)", "quantifier": "all protocols, joins, entry points, extensions, sequences of session calls", "why_tests_cant": "Protocols and extensions are arbitrary code; the tests extend single typed protocols only.", "anchors": ["manul/src/dev/extend.rs: wrap_round, ExtendableEntryPoint, PassthroughRound", "manul/src/protocol/dyn_round.rs: BoxedRound::as_typed, new_dynamic", "manul/src/combinators/chain.rs: ChainedRound, make_round"]}
{"id": "C137", "title": "What messages of other rounds can do, in particular of rounds that are over", "statement": "An authentic message of a round other than the current one is kept if TransitionInfo lets other parties be in this round and no message of the sender is kept for it; otherwise its only effect is that an unprovable error is noted for its sender. In protocols of linear rounds, rounds never come back, so messages of rounds that are over are never processed; but they are harmless only in two cases: in an echo round for messages of the round being echoed, and in a round that no echo round follows for messages of the round with the preceding number (not of its echo round). Any other late message makes the session ignore its sender, and no driver finishes a round that waits for this sender; a transport that delivers an honest message again one round later can block a session this way.", "quantifier": "all protocols, reachable states, messages, schedules; for the part on linear rounds all numbers of rounds", "why_tests_cant": "The tests deliver each message once and in order; lateness can be arbitrary, and what follows are infinitely many continuations.", "anchors": ["manul/src/session/session.rs: preprocess_message, finalize_round", "manul/src/protocol/round_id.rs: simultaneous_rounds, new_linear, new_linear_terminating", "manul/src/session/tokio.rs: run_session, par_run_session"]}
{"id": "C138", "title": "What happens if a session id is used twice", "statement": "If two executions (even of different protocols) use the same session id, every message a party made in one of them, for whatever destination, is accepted and processed as its message of the same round in the other one; after that the message the party makes there is turned down and the party is ignored. A party that follows the protocol in both executions, but makes different echo broadcasts in the same round of them, can be accused of equivocation with evidence that verifies, unless the hash function collides. So the uniqueness that the documentation of SessionId requires is necessary for both what it says: replay protection and error attribution. (With different ids none of this happens: C31, C89.)", "quantifier": "all protocols, pairs of executions, reachable states, rounds, messages", "why_tests_cant": "It is about all pairs of executions; the tests use a fresh id for each.", "anchors": ["manul/src/session/session.rs: SessionId, preprocess_message", "manul/src/session/message.rs: MessageMetadata", "manul/src/session/echo.rs: MismatchedBroadcastsError::verify"]}
{"id": "C139", "title": "What happens if parties are given different session ids", "statement": "A message made in a session with another id is turned down with that reason, whoever is said to have sent it, and the only effect is that the error is noted for this party; so both drivers ignore the party from then on and never finish a round that still waits for it. A round that expects a party is not finalizable (it waits, it does not fail) as long as no message has arrived which the party signed for the session's own id and for this round; when either driver finalizes a round, such a message of everybody expected has arrived before. So the requirement that every node is given the same session id is necessary, and a violation shows as waiting, not as a wrong result.", "quantifier": "all protocols, sessions, histories, messages made under other ids, driver executions", "why_tests_cant": "The tests give everybody the same id; the claim is about all histories and all messages.", "anchors": ["manul/src/session/session.rs: SessionId::from_seed, preprocess_message, can_finalize", "manul/src/session/tokio.rs: run_session, par_run_session"]}
{"id": "C140", "title": "run_session among dishonest parties", "statement": "Honest parties run any number of sessions with run_session; dishonest parties and the network decide what arrives where and when, channels may be closed and sessions cancelled at any time, and only signatures of honest parties cannot be forged. Then, unless a hash collision is found: the payload that a driver holds for an honest party is computed from parts that the driver of this party made in the same session and round; when a driver is about to finalize an echo round, every honest party it expected an echo message from has been in that echo round and held the same broadcasts; and evidence against an honest party in a returned report, or collected so far, stems from a message of this party which the protocol rejected, or from a dishonest party that echoed the hash of another part (the defect of C68/C69).", "quantifier": "all protocols, sets of honest parties, adversaries, interleavings of driver executions in all sessions, randomness", "why_tests_cant": "The tests of run_session use one fixed misbehaviour each; the claim is about all adversaries and all interleavings of several drivers.", "anchors": ["manul/src/session/tokio.rs: run_session", "manul/src/session/session.rs", "manul/src/session/echo.rs"]}
