# Formal model of manul in Rocq: design

## What is modelled

The model lives in `rocq/theories`. Each definition carries a comment citing the file and lines of `/repo` it
models. Parts:

| file | models |
|---|---|
| `Base.v`, `BMap.v` | `Result` + panics; `BTreeMap`/`BTreeSet` as key-sorted association lists (same iteration order) |
| `RoundId.v` | `protocol/round_id.rs` |
| `Message.v` | `SessionParameters`, `WireFormat`, digest and signature traits as parameters (record `Params`); `protocol/message.rs`, `session/message.rs` |
| `Protocol.v` | `DynRound`, `DynRoundInfo`, `CommunicationInfo`, `RequiredMessages`, receive errors |
| `Typed.v` | `Round` trait, `RoundWrapper`, `RoundInfoObject`, `EvidenceMessages`, `NoProtocolErrors` |
| `Evidence.v`, `Transcript.v`, `Session.v` | `session/{evidence,echo,transcript,session}.rs` |
| `RunSync.v` | `dev/run_sync.rs` |
| `Driver.v` | `session/tokio.rs`: `run_session` as a state machine; networks of such drivers |
| `Par.v` | `session/tokio.rs`: `par_run_session`, its tasks and its two bounded channels; networks of such drivers |
| `Async.v` | `dev/tokio.rs`: `run_async` with `offload_processing = false`: the task of the message dispatcher, the node tasks (each a `run_session`), the bounded channels between them, any interleaving |
| `Offload.v` | the same with `offload_processing = true`: each node is a `par_run_session` with its tasks |
| `Chain.v` | `combinators/chain.rs` |
| `Extend.v` | `dev/extend.rs` |
| `Over.v` | `dev/extend.rs` around entry points with dynamic rounds (`BoxedRound::as_typed`): chained and already extended protocols |
| `Misbehave.v` | `dev/misbehave.rs` |
| `Network.v` | n nodes running the library, driven as `session/tokio.rs` and `dev/run_sync.rs` drive them, with arbitrary scheduling |
| `SpecWorld.v` | honest parties running the library among dishonest ones: the adversary delivers any messages it likes, but signs nothing in the names of honest parties |
| `SpecBlame.v` | honest parties among dishonest ones when the transport attributes messages correctly and delivers each at most once; protocols where everybody sends to everybody in each round (C73, C74, C76) |
| `SerMap.v` | `utils/serializable_map.rs` |
| `TestParams.v` | `dev/session_parameters.rs` and the `BinaryFormat` of `dev/wire_format.rs` (postcard, from its documentation) as an instance of `Params`; the messages of simple.rs in that format |
| `Codec.v` | `Message` and `Evidence` as bytes in that format (the derived `Serialize` and `Deserialize`) |
| `Simple.v`, `Dining.v`, `DoubleSimple.v` | example protocols (debug builds: `u8` overflow panics) |
| `SpecForge.v` | forged messages, drivers that return only when cancelled (C11, C134) |
| `SpecAgain.v` | messages delivered again; the parallel driver returning only when cancelled (C135) |
| `SpecOver.v` | chains of extended and of rewritten protocols (C136) |
| `SpecLate.v` | messages kept for other rounds; linear protocols, the order of their rounds, and which late messages are forgiven (C137) |
| `SimpleRelease.v` | the example protocol in release builds: `u8` additions wrap (C133) |
| `SimpleTest.v` | `examples/src/simple_test.rs` |
| `SpecTimeout.v` | where a message is that was not processed (C104) |
| `SpecChainFaults.v` | two executions with faults, one after the other (C105) |
| `SpecAsyncFaults.v` | reports of all parties of `run_async`; nobody goes past a round (C106, C107) |
| `SpecStory.v` | what a session's rounds were made of; entry points (C108 to C110) |
| `SpecRecord.v` | completed rounds of a history; accepted parts (C111) |
| `SpecCause.v` | answers of rounds in a history; reasons for turning down messages (C112, C113) |
| `SpecCourse.v` | pairs of histories with the same messages processed (C114) |
| `SpecExact.v` | who is blamed again (C115, C116) |
| `SpecFailure.v` | the reasons for failures of `run_session` (C117) |
| `SpecParFailure.v` | the reasons for failures of `par_run_session` (C118) |
| `SpecAgree.v` | histories with given random choices, and the absence of double messages (C119) |
| `SpecDet.v` | undisturbed calls of `run_session` (C120); cloned generators (C121) |
| `SpecMissing.v` | the last round of a driver and the messages that arrived in it (C122, C123) |
| `SpecPerform.v` | histories as a driver performs them (C124, C125) |
| `SpecWrap.v` | message parts of declared types, answers of typed rounds (C128) |
| `SpecJson.v` | the grammar of JSON texts (C129) |
| `SpecVerify.v` | what each kind of evidence has to contain (C130) |
| `SpecJsonTypes.v` | which JSON values stand for messages and evidence (C131) |
| `SpecLayout.v` | the layout of messages and evidence in the binary format (C132) |
| `SpecFaults.v` | executions in which any messages of any parties are turned down (C100 to C102) |
| `SpecCaught.v` | executions in which the messages of one party are turned down by everybody (C79, C80, C98, C99) |
| `PartialEcho.v` | the protocol of `tests/partial_echo.rs` |
| `Text.v` | `Display` of round ids, `Evidence::description`, `SessionReport::brief`; texts of errors, ids and results are arbitrary functions (C94 to C97) |
| `Bench.v` | the protocols of `benches/empty_rounds.rs` and `benches/async_session.rs` |

`*Facts.v` files hold proofs, `Spec*.v` small specifications used in statements, `Prop*.v` the property theorems.

### Modelling decisions

* **Panics and errors.** Every fallible Rust function returns `res E A` (`Ok`/`Err`/`Panic`). A function that takes
  `&mut accum` returns the new accumulator also on `Err`. `LocalError`/`RemoteError` are strings in Rust; the model uses
  one constructor per construction site instead of the text.
* **Randomness.** `&mut rng` becomes an oracle `rng := list nat -> N` given to the API call; independent draws within one
  call use disjoint sub-oracles. A theorem "for all rng" covers every stream of draws.
* **Cryptography.** The digest is an arbitrary function `H : bytes -> bytes`; collision resistance is never assumed,
  theorems conclude "... or these two explicit byte strings collide". Signing/verification are arbitrary functions;
  unforgeability appears only as an explicit hypothesis of the theorems that need it. The digest passed to the signature
  scheme is modelled as the finalized hash.
* **Wire format.** Serializers of the library's own types and of user message types are arbitrary (partial) functions;
  round-trip is assumed explicitly where needed. Trailing bytes etc. are a matter of the concrete format; `TestParams.v` has one (postcard), `Json.v` another (serde_json); C77 and C126
  show that they meet the assumptions.
* **Protocols.** A protocol is a record of a state type and the `DynRound`/`DynRoundInfo` functions (`Proto`); user code
  is total and does not panic (except `NoProtocolErrors`). Typed protocols (`TProto`) are turned into a `Proto` by a model
  of `RoundWrapper`/`RoundInfoObject`.
* **`dyn Any`.** Payloads/artifacts carry their round's type tag; a downcast compares tags.
* **Extensions.** An extension overrides some of the methods of one round type (`Ext`, an absent field is the default method);
  `TypeId`s are round tags; `ExtendedProtocolError` is a newtype and is taken to serialize as its content.
* **Overflow.** `u8` arithmetic that overflows panics (debug semantics).
* **Concurrency.** `par_run_session` is modelled as a transition system with the two bounded channels and task pools;
  taking a message from `outgoing_rx` and completing `tx.send` are separate steps, between which only the tasks go on.
  Everything else in the library is sequential.

Not modelled: `Debug`/tracing output and `Display` other than in `Text.v`, where the description is computed from the evidence (C67, C79, C80 are about any predicate of evidence in place of the comparison with the expected description; C96 is about the texts), `Send`/`Sync` bounds, `BoxedRng`,
simplifications of JSON noted in `Json.v` (signed and fractional numbers, non-ASCII escapes), concrete hash/signature algorithms (other than the toy ones of `dev/session_parameters.rs`), memory safety of the two `unsafe` downcasts
(modelled as tag-checked casts).

Chained entry points: `ChainedSplit::make_entry_point1` and `ChainedJoin::make_entry_point2` are user code; `chain_entry` takes
what the former returns, and the `Join` record combines the latter with the `make_round` call on its result.

## Trusted base

The Coq 8.16.1 kernel (incl. `vm_compute`), the hand-written correspondence between model and Rust source, and whatever
`Print Assumptions` lists under each theorem (target: "Closed under the global context" everywhere). No axioms are declared,
nothing is admitted. At present every property theorem is closed under the global context. The only axioms found anywhere in
the loaded libraries are the seven of `Coq.ssr.ssrunder` (part of the standard distribution, loaded through `Lia`); no theorem
depends on them.

## Properties found to be false

Each has a `..._refuted` theorem with a concrete execution, and a `_partial` theorem stating what holds.

| id | what the code does |
|---|---|
| C06 | `add_processed_message`/`process_message` return a `LocalError` for messages that a remote party can cause |
| C117 | consequence of C06: `run_session` returns an error, and loses everything it has recorded, when it gets a correctly signed message of anybody who is not expected to send in the current round |
| C118 | as C117 for `par_run_session`; there the order in which tasks finish decides between the error and the result |
| C119 | consequence of C53: if a party signs two messages for the round after an echo round, `par_run_session` may return different results for the same messages received in the same order |
| C121 | `run_async` hands a clone of the same generator to every node: their random choices are the same |
| C123 | a cancelled `par_run_session` reports as missing a message that it has received and processed, if the result is still in the channel |
| C11 | a party whose message was rejected is banned but still awaited; nothing ever ends this except cancellation (`C11_waits_forever`) |
| C19, C55 | the cache is filtered against the old errors when an echo round follows; a banned party's message is handed on |
| C23 | a mismatch found in an echo is filed under (and bans) the honest relayer |
| C26, C29 | `InvalidEchoEvidence::verify` compares the metadata of the echoed hash with the metadata of the *echo* round; so some real evidence does not verify and every honest echo message is evidence against its sender. Nor does it check that the broadcast is from an echo round: a normal broadcast of any round whose bytes read as an echo message is evidence too, also in protocols without echo broadcasts (`C29_other_rounds_refuted`; `C29_exact` gives the exact condition) |
| C27 | `MismatchedBroadcastsEvidence::verify` ignores the outer `guilty_party` |
| C38 | cancelled in an echo round, `run_session` can return an error instead of a report, all recorded errors are lost (consequence of C19) |
| C40 | `par_run_session` joins its tasks before it empties the channels (capacity 100) they write to: a round that expects no message and has more than 100 destinations never ends and sends nothing; cancelled with more than 100 untaken results, the driver hangs |
| C39 | `terminate_due_to_errors` reports `Terminated`; `NotEnoughMessages` is never reported |
| C45 | destinations are neither signed nor checked |
| C50 | only at the boundary: `new_linear(255)` overflows (`C50_overflow_only_at_255`); holds otherwise |
| C54 | `NoProtocolErrors` can be deserialized, and its `verify_evidence` panics |
| C49 | with 17 or more parties the sum of positions overflows a `u8` (round 1 overflows from 24 on) |
| C57 | `run_sync` pops a message before it checks whether there is one: panics if no message is ever sent (single party) |
| C53 | messages cached for the next round are dropped when an echo round is entered |
| C61 | results of processing that are in tasks or in the channel of `par_run_session` when it leaves its loop are dropped, evidence included |
| C64 | a message of the next round that arrives before an echo round is dropped (consequence of C53); the echo of a party that is ahead, and the message of a party two rounds ahead, are rejected and the honest sender is banned. Happens exactly in the protocols that are not `waits`, see `C64_exact_partial`; cannot happen when everybody waits for everybody |
| C68, C69 | `SignedMessageHash` does not contain the kind of the part it is the hash of: the signed hash of an honest party's normal broadcast or direct message passes for the hash of a second, different echo broadcast. Anybody who got one message of a party can make verifiable evidence of equivocation against it, and a dishonest echoer makes honest parties record such evidence |
| C60 | consequence of C40: with n > 101 parties, one of which sends to all others and expects nothing, networks of `par_run_session` never complete; whenever a party has more than 100 destinations in the first round, a network may get stuck; up to 100 destinations are safe, so 101 parties are |
| C70 | the channels of `run_async` have room for 100 messages; the dispatcher waits for a node whose channel is full, and that node waits for the dispatcher to take a message. With 52 parties (51 others, two rounds of messages each) or more this can happen; 51 parties are safe |
| C81 | the same as C70 with `offload_processing = true`: the node task waits in `tx.send` and takes nothing from its channel meanwhile |
| C83 | consequence of C64: in the second protocol of a chain a party can be two rounds ahead of one that is still in the first protocol, even if neither protocol alone allows this; the honest sender is banned. `C83_exact_partial` says exactly when; cannot happen when everybody waits for everybody |
| C86 | `preprocess_message` does not check that the sender is a party of the protocol; correctly signed messages of outsiders are cached, and errors are recorded for outsiders, without limit. Per sender there is a limit |
| C88 | C54 in bytes: 22 bytes that can be read as evidence for the dining cryptographers make `Evidence::verify` panic; in `HumanReadableFormat`, a JSON text does (`C88_text_refuted`) |
| C136 | `wrap_round` calls `as_typed`, which fails for dynamic rounds: an `ExtendableEntryPoint` around a chained protocol never makes a session, nor does one around another that leaves the first round alone; if the inner one extends all rounds, extensions of the outer one are ignored silently |
| C93 | as C72: tasks of their own for the messages change nothing about it |
| C97 | the description of evidence is neither signed nor checked by `verify`; a peer can attach any text to evidence that verifies |
| C72 | `message_dispatcher` treats a message to a node that has already returned as a failure, and `run_async` then returns an error instead of the reports it already has, with the evidence in them; this is what happens when a party misbehaves and goes on to the next round |
| C75 | the benchmarks fail: `EmptyRound` has an echo broadcast type but keeps the default `make_echo_broadcast`, which returns an error; `EmptyRoundWithEcho` goes on to an `EmptyRound`. `empty_rounds` panics on the `unwrap`; `async_session` ignores the result of `run_async` and measures a failure |

Observation that is not one of the numbered failures: in a chained protocol the first round of the second protocol declares
no parents, so the declared parents of a chained round graph are incomplete (`C36`). Extending an entry point whose rounds
are dynamic (a chained or an already extended one) always ends in a `LocalError` of `as_typed`.

## Plan per property

`R` = expected to be false in the code as it stands; a `..._refuted` theorem with a concrete witness will be proved plus a
`..._partial` theorem with the condition under which it holds.

| id | plan |
|---|---|
| C01 | case analysis of `preprocess_message`; specification `authentic` stated with the raw signature check |
| C02 | same |
| C03 | invariant over the API transition system `step` (Spec); final report of every terminating call |
| C04 | case analysis, equation for the accumulator after the call |
| C05 | invariant (round ids of reachable sessions with echo rounds are not echo ids, `unprovable_errors` disjointness) |
| C06 | R: witnesses: unexpected sender; second message after a cached one. Partial: no local error if sender expected and not heard from |
| C07 | invariant over histories within a round |
| C08 | characterisation from accumulators reachable through the API |
| C09 | invariant linking payloads with received messages (ghost history) |
| C10 | monotonicity over all calls |
| C11 | R: witness: rejected message bans the party but keeps it awaited. Partial: holds when bans come from processing only |
| C12 | invariant: three-way partition of the expected set |
| C13 | commutation of intake of messages of different senders; permutation induction |
| C14 | case analysis of `finalize_round` |
| C15 | transcript keys invariant; counting argument |
| C16 | case analysis of session creation |
| C17 | unfolding of the echo round + invariant |
| C18 | characterisation of `filter_messages` |
| C19 | R on the echo path; partial for the other path |
| C20 | invariant: expected echoes are among received echo broadcasts when Yes |
| C21 | loop characterisation of echo `receive_message`, collision disjunct |
| C22 | loop characterisation, codec round trip |
| C23 | R: filed under the relayer. Partial: `guilty_party` of the evidence is the equivocator |
| C24 | typed wrapper lemma + `process`/`add` + evidence verification; also through chain |
| C25 | `new_provable_error` then `verify` computes the protocol's check on the received parts |
| C26 | R for InvalidEcho; partial for mismatched broadcasts and for bad signatures |
| C27 | R for mismatched-broadcast evidence (outer field unchecked); partial for the other kinds |
| C28 | honest-signature hypothesis + codec round trip; exception: receive-only nodes' signed empty echo |
| C29 | R: an honest echo message is itself accepted as invalid-echo evidence; the exact condition by unfolding both ways (`honest_framed_iff`) |
| C30 | injectivity of the digest preimage up to collisions |
| C31 | corollaries of C30 and C01 |
| C32, C33 | direct induction |
| C34 | fold over entries |
| C35 | simulation between chained run and two separate runs |
| C36, C37 | computation on chained round/round info |
| C38 | the driver as a transition system with visible labels; R for cancellation in an echo round (same cause as C19) |
| C39 | R |
| C40 | R for more than 100 destinations; partial below |
| C41 | permutation/order invariants of the queue |
| C42 | n-party transition system (`Network.v`), global invariant counting where every message is (`NetFacts.v`); the hypothesis `honest_run` is a lock-step execution of the protocol without sessions, and the round ids, states, messages of the network are shown to be those of that execution |
| C43 | case analysis |
| C44 | invariant: tags of stored payloads equal the tag of the round |
| C45 | R: destination is neither signed nor checked; partial: broadcasts are the same in all messages of a round (C52), with C65 |
| C46, C47 | simulation; state projection |
| C48 | instance of C42 for the plan of the dining protocol; parity computation |
| C49 | R for n >= 17; partial for n <= 16 by sum bound |
| C50 | arithmetic; R at 255 |
| C51 | induction over constructors |
| C52 | unfolding `make_message`, `preprocess_message`, `process_message` |
| C53 | R: the cache is filtered for the echo round only; partial: from C18 |
| C54 | R: `NoProtocolErrors` panics; partial for other evidence kinds and other protocols |
| C55 | R: same cause as C19 |
| C56 | simulation: a run of `run_sync` is one of the schedules of `Network.v`, termination from that of the network |
| C57 | R: empty queue |
| C58 | simulation of the network of drivers by `Network.v` |
| C59 | invariant on where each message of a round is (task, channel, sent); simulation by the API transition system |
| C60 | simulation by `Network.v`; steps of tasks decrease a weight; the bound on destinations keeps the channels from filling up. R: the others speak first, one after the other; then the invariant "has heard everybody, sent nothing" is kept by every step (`ParBoundFacts.v`) |
| C61 | R |
| C62 | lock-step simulation of sessions over two protocols, call by call (`SimFacts.v`) |
| C63 | instance of the network theorem of C42 |
| C64 | R: three patterns. The condition `in_step` of C42 (what a party knows about where the others are, by causality) is exact: let everybody go only as far as the sender's knowledge forces them to; then the message is delivered too early (`StepFacts.v`) |
| C65, C66 | executions against an arbitrary adversary (`SpecWorld.v`): invariant that every verified part of an honest party was sent by it; C66 combines it with the local argument of C21 |
| C67 | case analysis; an honest execution of a protocol is one of its extension by nothing, so C56 applies |
| C68 | R: any message of an honest party; otherwise digest binding (C30) and: a session makes one echo broadcast per round (C66) |
| C69 | R: world with a dishonest echoer; otherwise induction over the trace: evidence comes from a message that arrived; transcript entries come from messages that arrived |
| C70 | R: 52 parties, computed schedule; more parties, which have nobody to speak to, return first and change nothing for the others (`PadFacts.v`). Otherwise simulation: the network of `Driver.v` with all messages on their way as its flight; at most two messages per sender are on the way to a party |
| C71 | invariant: messages sent = taken + in channels + in the dispatcher's list (+ lost, if it failed) |
| C72 | R: computed execution of simple_test.rs's misbehaving party. Otherwise invariant about the first failure |
| C73 | invariant over all sessions and messages on their way: two honest parties are at most one round (or echo round) apart, so a message is always in the window of its receiver; what is held against an honest party traces back to an answer of the protocol or of the echo round |
| C74 | on top of the invariant of C73: where the message made for a party is (on its way, cached, handed out, processed, or its sender is blamed) |
| C75 | R: sessions without echo broadcasts cannot be created; the invariant that a session with echo broadcasts never leaves round 1; partial: a plan for one round |
| C76 | a session has been in all earlier phases; induction on the phase of the waiting session, with C74 for parties that are not behind |
| C77 | every reader undoes its writer, whatever follows; the digest is a fold over bytes; flipping two bytes 32 positions apart does not change it |
| C78 | C56 for simple.rs, with the assumptions discharged by C77 |
| C79 | simulation by the network of a protocol that receives everything (`with_receive`), up to the moment where a party turns down the bad message; from then on this party only waits; the evidence is checked with the transcripts of honest executions (`PlanTrFacts.v`) |
| C80 | instance of C79 for the plan of simple.rs; assumptions discharged by C77 |
| C81 | R: as C70. Otherwise the invariant of C70 with the simulation of C60 for the nodes |
| C82 | as C71 |
| C83 | R: computed execution of a chain of two protocols in which some parties send nothing. Otherwise the plans of the two protocols are put together into one of the chain, so that the theorems about honest networks apply, and the exact condition of C64 splits into one for each protocol and one for the border (`ChainStepFacts.v`) |
| C84, C85 | C83 and C56/C70/C81 for the plan of simple.rs; assumptions discharged by C77 |
| C86 | R: any number of outsiders. Otherwise an invariant: the keys of all maps are senders, cached messages belong to rounds of the window |
| C87 | every reader undoes its writer and depends only on the bytes it takes; both properties are closed under sequencing, options and maps |
| C88 | R: the bytes of the evidence of C54. Otherwise C54 |
| C89 | prefixes of the hashed strings; then C31 |
| C90 | C27 for typed rounds: what is presented to the check, read through each accessor |
| C91 | C48 (termination of `run_sync` in an honest network), with the draws of the entry point put into the plan |
| C92 | an invariant of honest networks: what is in flight is what the plan says; then the two plans are compared |
| C93 | R: computed execution as for C72. Otherwise as C72 |
| C94 | decimal numbers are injective and the separators are no digits |
| C95 | C56 and C79 for the outcome, then computation with strings |
| C96 | C80 with `str::contains` |
| C97 | R: evidence against a party of simple.rs, written with any text |
| C98 | the executions of the drivers are schedules of the network of C79 in which nodes that have given up are left alone |
| C99 | the same, on top of the simulation of C60; a driver that gives up still makes and sends all its messages |
| C100 | `FaultFacts.v`: every node is simulated, up to the round in which it first turns something down, by the node of the honest execution; C79 and C80 are corollaries |
| C101 | as C98, on top of C100 |
| C102 | as C99, on top of C100 |
| C103 | the texts differ in their first characters; decimal numbers as in C94 |
| C104 | the invariant of C42 counts the messages; which of them were made is compared with the history |
| C105 | the plan of C83 for protocols that accept everything; regrouping of the required messages as in C37 |
| C106 | the simulation of C101 under the channels of C70; a party that gave up has all messages of its round, so nothing is on the way to it |
| C107 | the same, with the simulation of C102 under the channels of C81 |
| C108 | by computation with the entry points |
| C109, C110 | C09 and C17 for each round of the history; then by computation with the rounds of the examples. Defect of simple.rs found on the way: one claim of a dishonest party can make the sum overflow and the honest party panic (`C109_panic`) |
| C111 | induction over histories with the invariant of C09 for each completed round |
| C112 | induction over histories with the exhaustive descriptions of `preprocess_message` and `add_processed` |
| C113 | by cases, with the round invariant for what was handed out and cached before |
| C114 | induction over the rounds of two histories; the round invariant determines the maps of the accumulator |
| C115 | the invariant of the history of a round; `new_provable_error` succeeds exactly if the messages are there |
| C116 | invariant about errors noted for parties that were banned when the round began |
| C117 | R: witness from C06. Partial: case analysis of the last step of the driver, with C115 and C116 |
| C118 | as C117, with an invariant about the results of tasks; R: two schedules from one state |
| C119 | R: two schedules of C53. Partial: round by round, a completed round has processed the only message of each expected sender; then C114 |
| C120 | the driver never has a choice between going on and receiving; induction over both executions at once |
| C121 | R: the toss made by diner 1 is the first draw, which is also the draw that decides whether diner 0 pays |
| C122 | invariant: who is heard has arrived, and who has arrived is heard or banned; transcripts of completed rounds list nobody |
| C123 | R: a driver cancelled before it takes a result from its channel; invariant about `still_have_not_sent_messages` |
| C124 | induction over the steps of the driver, with its invariants |
| C125 | C124 and the lemmas of C112 |
| C126 | structural induction over JSON values (nesting up to the depth limit of serde_json), round trip of each type, locality of the reader |
| C127 | the run of C78 with the assumptions shown in C126 |
| C128 | case analysis of the wrapper; added after wrong programs in it survived |
| C129 | induction over the nesting depth; each part of the reader is shown to accept exactly what the grammar describes |
| C130 | each step of the verification is turned into an equivalence; the maps it builds are determined by their entries |
| C131 | each reader of a type is shown equivalent to its description, then combined with C129 |
| C132 | the layouts of readers composed of readers; induction for integers and sequences |
| C133 | as C49, with sums modulo 256 and positions that wrap (`ReleaseFacts.v`, model `SimpleRelease.v`) |
| C134 | a round that waits for a banned party of whom nothing is left to process stays so (`stuck` in `ForgeFacts.v`: invariant of sessions and of both drivers); cases of `preprocess_message` |
| C135 | reasons of `preprocess_message` (C113), histories performed by the drivers (C124), then C11 |
| C136 | R: the chained example; in general by computation of `make_round`. The parts: `alike` lifted through `chain`, then C62 |
| C137 | computation of `preprocess_message` for authentic messages; the window of linear rounds (C50) and the child check of `finalize_round`; then C11 as for C135 |
| C138 | messages made by reachable sessions are authentic (C52), then C04, C07 and C130 |
| C139 | messages of other sessions fail the session id check (C04); what a round processes was received and is authentic (C01), then C08; drivers by C124 |
| C140 | every step of run_session is a few session calls (none if it stops), so a world of drivers (SpecDrvWorld.v) is simulated by a world of sessions (SpecWorld.v) with the same sent messages; then C65, C66, C69 |
