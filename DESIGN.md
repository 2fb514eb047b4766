# Formal model of memberlist (memberlist-proto)

The prover is Rocq/Coq 8.16.1; the sources are in `rocq/theories` (logical
path `Verif`).  The object of study is `memberlist-proto` in `/repo`: a
Sans-I/O SWIM state machine (`Endpoint`), the per-exchange stream state
machine (`Stream`), and the pure wire/codec layers under them.  The code is
read as text; nothing in `/repo` is built or changed.

## Method

* Every component is written as small total Gallina functions, one per Rust
  function, with a comment giving the file and lines modelled and any
  simplification.
* Operations on a component form an inductive type `op`; `step` folds over
  lists of them; invariants are proved by induction over operation lists, so
  they hold for every history.
* Randomness, delegates, crypto/compression/hash backends and the
  floating-point timer formulas are arbitrary parameters (function arguments
  or configuration fields), so the theorems hold for every behaviour of them.
* Time is a natural number of nanoseconds with the saturation of
  `time/mod.rs`.  Machine integers wrap or saturate explicitly.
* Property theorems live in `Props*.v` files, each closed by `exact`, with
  `Print Assumptions` beneath, and with an `Example` showing that the
  hypotheses can be met.

## Layout (per component: Model, Facts, Props)

`XModel.v` holds definitions only, `XFacts.v` the proofs, `PropsX.v` the
property theorems and examples.

## Plan per property

| id | property | component | how |
|----|----------|-----------|-----|
| C01 | Varint lengths survive the wire | Codec | Model `encode_varint_u32`/`decode_varint_u32` on lists of bytes; round-trip by induction on 7-bit groups; bound by case analysis of the reader's fuel (5). |
| C02 | Frames are self-delimiting | Codec | Model plain frame encode/decode over bytes; round-trip with suffix; prefix-incompleteness by case analysis on the cut. |
| C03 | Stream frame sizing agrees with frame decoding | Codec | Model `probe_frame` separately; refinement lemma relating both parsers on all buffers. |
| C04 | Compound datagrams round-trip in order | Codec | Induction over the parts list. |
| C05 | Compound decoding is total and exact | Codec | Inversion of the splitter: a successful result accounts for every byte, by induction over the part count. |
| C06 | Protocol messages survive encode/decode | Wire | Model of the protobuf schema (messages.proto) and of bridge/mod.rs; round-trip per message. Protobuf primitives (generated code, not in /repo) are modelled from the schema. |
| C07 | Socket addresses survive the wire | Codec | Byte-level model of address encoding; injectivity both ways. |
| C08 | Cluster label isolation | Label | Truth-table theorems over all labels, for datagrams and streams. |
| C09 | Label verdicts do not depend on how a stream is chunked | Label | Induction over chunk lists: fold of `consume_inbound` = one-shot classification of the concatenation; buffer bound as an invariant. |
| C10 | An acceptor does not reveal its label to an unvalidated peer | Label | Trace invariant over gate operations. |
| C11 | Transform wrappers are accepted only in canonical order and within the size ceiling | Transforms | Backends (hash, compress, AEAD) as a record argument; unwrap loop with structural measure; inversion lemmas. |
| C12 | With encryption on, only ring-authenticated bytes are processed | Transforms | Inversion of the encrypted unwrap. |
| C13 | The transform pipeline is lossless | Transforms | Round-trip assuming only the backend laws decompress(compress x)=x and open(seal x)=x as explicit hypotheses. |
| C14 | Reliable units are recovered from any fragmentation | Transforms | Induction over chunk list with the accumulation buffer. |
| C15 | Keyring rotation never loses or duplicates a key | Keyring | Invariant by induction over operations. |
| C16 | CIDR admission is fail-closed | Cidr | Refinement to a set of networks; histories by induction. |
| C17 | Health score stays bounded | Awareness | Invariant by induction over operations. |
| C18 | Suspicion timers stay within their bounds and only shorten | Suspicion | Timer arithmetic with the confirmation fraction as an arbitrary antitone oracle; invariants by induction over confirms. |
| C19 | Lifeguard timer formula is bounded and monotone | SuspicionReal | Stdlib Reals model of the formula; bounds and strict monotonicity of ln. |
| C20 | At most one pending broadcast per node | Broadcast | Invariant over queue operations. |
| C21 | Broadcasts are retransmitted at most the limit and within the byte budget | Broadcast | Invariant over queue operations, ghost count of hand-outs per queued item. |
| C22 | Less-transmitted broadcasts go first | Broadcast | Order lemma about the tier scan. |
| C23 | User broadcast tiers are served in rank order within one budget | Broadcast | Induction over tiers. |
| C24 | Earliest-deadline queries are exact | Deadline | Refinement of the two-map index to a key->deadline map. |
| C25 | The member table stays consistent | Members | Invariant node_map/nodes; refinement to an id->member map. |
| C26 | Pending acks are matched at most once | Ack | Refinement; at-most-once by history induction. |
| C27 | A member's incarnation never goes backwards | Endpoint | Step invariant: relation between member entries before/after each operation, lifted to executions by induction. |
| C28 | No false resurrection | Endpoint | Same transition relation as C27. |
| C29 | Departed members are never suspected | Endpoint | Same transition relation as C27. |
| C30 | A running node always refutes | Endpoint | Direct theorem on process_suspect/dead/alive for the local id, plus a peer-side theorem. |
| C31 | A node is never Suspect or Dead in its own view | Endpoint | Inductive invariant. |
| C32 | Stale gossip changes nothing | Endpoint | Direct theorems, state equality. |
| C33 | Re-delivered gossip is idempotent | Endpoint | Direct theorems. |
| C34 | Membership events mirror the membership table | Endpoint | Ghost replay of emitted events; inductive invariant. |
| C35 | Every suspect has a running timer and the node wakes up for it | Endpoint | Inductive invariant on suspicion map and index; poll_timeout lower-bound theorem. |
| C36 | Expired suspicions become deaths | Endpoint | Fold over the expiry loop. |
| C37 | Spoofed or late acks complete nothing | Endpoint | Direct theorems. |
| C38 | Sequence numbers in flight are unique | Endpoint | Pigeonhole argument on the allocation loop. |
| C39 | A failed probe suspects only the member it probed | Endpoint | Direct theorem + invariant. |
| C40 | Helper nacks count once each | Endpoint | Inductive invariant on probes. |
| C41 | Each relayed probe is answered at most once | Endpoint | Inductive invariant on forwards/ack registry lockstep. |
| C42 | A node that has left is inert | Endpoint | Inductive theorem on executions starting from a non-running state. |
| C43 | Leave completes exactly once | Endpoint | Inductive invariant with ghost counters. |
| C44 | Datagrams fit the gossip MTU | Endpoint | Length arithmetic over exact encoded lengths. |
| C45 | Farewell capacity is honoured | Endpoint | Full statement is suspected false for payloads of 16384 bytes and more: refuted with a witness, positive theorem below that length. |
| C46 | The member cap is respected | Endpoint | Inductive invariant. |
| C47 | Pruning removes only long-departed members | Endpoint | Direct theorem. |
| C48 | Probe round-robin is fair | Endpoint | Permutation argument over the scan index. |
| C49 | Push/pull merge equals gossip | Endpoint | Induction over the listing. |
| C50 | Cluster-wide incarnation authority | Cluster | Network of endpoints with a message soup; inductive global invariant; no restarts, no incarnation wrap-around (both stated). |
| C51 | Failed exchanges have no effect | Stream | Trace invariant of the stream FSM. |
| C52 | Stream input buffering is bounded | Stream | Invariant. |
| C53 | Stream exchanges follow the request/response protocol | Stream | Trace invariant. |
| C54 | No stream progress past its deadline | Stream | Direct theorems. |
| C55 | Push/pull interval scaling | Endpoint | Integer model of ceil(log2 n - 5). |
| C56 | Dialled exchanges are accounted for exactly once | Endpoint | Invariant + direct theorems. |
| C57 | Ack payloads are withheld from strangers | Endpoint | Direct theorem. |
| C58 | Snapshot version reflects every visible change | Endpoint | Step theorem: visible projection changed implies version changed (mod 2^64, stated on the unbounded count). |
| C59 | Reliable streams are isolated by label, except at unlabelled endpoints | Label | Trace theorems over record-layer calls; the unlabelled case is refuted with a witness. |
| C60 | Gossip frames within the MTU are deliverable, except that labels are not budgeted | Transforms | Composition of the egress and ingress pipelines; the labelled case is refuted with a witness. |
| C61 | Every queued broadcast is released exactly once | Broadcast | Permutation invariant between everything queued and finished ++ still queued, by induction over histories. |
| C62 | A member is recorded as having left only if it said so itself | Endpoint | Same transition relation as C27. |
| C63 | The endpoint changes its membership record only through the membership operations | Endpoint | Simulation: every driver call projects to a list of core operations; induction over runs. |
| C64 | A message has the same effect however its bytes are cut | Stream | Induction over the chunk list; bytes after the frame refuted with a witness. |
| C65 | An exchange between two nodes delivers exactly what was sent | Stream + Wire | Composition of both stream machines through arbitrary cuts of the byte sequences. |
| C66 | The application's vetoes are binding | Endpoint | Inductive invariant over runs with the delegate as an arbitrary predicate. |
| C67 | A metadata update takes effect at once and is announced | Endpoint | Direct theorem; the announcement of maximal metadata refuted with a witness. |
| C68 | The first accusation starts a suspicion with the longest timeout | Endpoint | Direct theorem on the record, the timer and the gossip queue. |
| C69 | A driver that sleeps until poll_timeout never spins | Endpoint | Invariant of the timer handler over all the deadlines that poll_timeout looks at; one call not enough: refuted. |
| C70 | A gossip round reaches the configured number of eligible members | Endpoint | Counting argument over the shuffled eligible list; output of the whole timer call. |
| C71 | Push/pull tells peers the whole table | Endpoint | Direct theorem, permutation of the table; freshness between calls refuted. |
| C72 | Queued user broadcasts go out | Endpoint | Direct theorem over the byte budget of one round. |
| C73 | A probe asks a live member, and records whom | Endpoint | Direct theorem with the scan's permutation argument. |
| C74 | An unanswered direct probe asks for help | Endpoint | Direct theorem on the timer handler's escalation pass. |
| C75 | Silence is noticed | Endpoint | Invariant carried through arbitrary runs from the probe to its end. |
| C76 | Suspicion ends | Endpoint | Invariant carried through arbitrary runs from the accusation to the latest timeout. |
| C77 | User data is delivered exactly once and in order | Endpoint | Event queue as a log; induction over runs. |
| C78 | A relay request is carried out exactly once | Endpoint | Direct theorem with all refusal cases. |
| C79 | Every application ping has exactly one outcome | Endpoint | Counting invariant over runs; pending at leave refuted with a witness. |
| C80 | Periodic work starts within one interval | Endpoint | Direct theorem for every random draw. |
| C81 | Payload limits are enforced when the payload is set | Endpoint + Wire | Length arithmetic over exact encodings; relayed acks refuted with a witness. |
| C82 | Ids and addresses survive their encoding | Data | Induction over a universe of types; composed with the wire model through `codec_of`. |
| C83 | Pairs decode in any field order and fail safely | Data | Induction over lists of unknown fields and over cut positions. |
| C84 | Every member is probed | Endpoint | Measure on the probe cursor and round counter: nothing passes a member by between reshuffles; induction over runs; composed with C75. |
| C85 | Nothing acted on before the stream ends | Coord | Invariant of bridges (`xo_gat`): a bridge's receive side closes only by a call with `eof`; every core call is logged with its connection. |
| C86 | One pump takes all | Stream | Case analysis on the stream state. |
| C87 | No exchange outlives its deadline | Coord | Invariant with the set of bridges not yet pumped; after a timer call it is empty. |
| C88 | Connection instructions in order | Coord | Invariant relating the history of polled actions, the queued actions, and the state of each connection. |
| C89 | Completions: once, earned, not forgotten | Coord | Accounting: events seen + pending = initial + put back + made; each made once, when the exchange leaves the table. |
| C90 | Leaving opens nothing | Coord | Invariant after leaving: no dial, no queued connect, core not running. |
| C91 | Key change cuts off older | Coord | Set of silenced connections is preserved by every step. |
| C92 | Inbound and ingress bounded | Coord | Induction over calls. |
| C93 | The core inside is a core | Coord | Refinement: log of core calls replayed. |
| C94 | Lost connection ends its exchange | Coord | As C91 for one connection. |
| C95 | What a completion does not promise | Coord | Witnesses, closed under continuation by C90 and C91. |
| C96 | Only sealed bytes leave | Coord | Invariant: everything queued is a concatenation of label headers and sealed payloads under the ring in force. |
| C97 | Events tell address and metadata | Core | As C34, the ghost replay keeps the last data told. |
| C98 | A user message arrives | Coord | Three stages of one exchange (accepted, minted, over), each kept by every call; the bytes so far are a prefix of the message. |
| C99 | A message is sent whole | Coord | Ids of dials are fresh (invariant over all calls); the exchange is followed through each stage of the call, with a frame for the others; composed with C98 for the whole way. |
| C100 | A push/pull takes the members across | Coord | C99 for the sender; for the receiver the stages of C98 with the event of the exchange as a parameter, and one more stage for the answer; the endpoint's history contains the request as one step (C93). |
| C101 | After a push/pull the other node knows the members | Core, Endpoint, Coord | A frame for every other entry of the list, the rule for alive messages for this one; lifted to the endpoint and composed with C100. |
| C102 | A push/pull tells of suspicions and departures, and nothing of the unlisted | Core | The same frame, with the rules for suspect and dead messages. |
| C103 | The same push/pull again changes nothing | Core | Case analysis of one entry seen twice, with the frame of C101 for what lies between. |

A status of `proved` in MANIFEST.json means that the statement in
properties.jsonl, including the exceptions it names, is proved.  Where the
natural statement is false of the model, the statement names the exception, a
theorem with the suffix `_refuted` (or `..._witness`) exhibits a concrete
reachable case, and the positive theorem states exactly what does hold.

## What is modelled

Citation paths in comments are relative to `memberlist-proto/src` unless they
begin with the name of a crate.

| file in /repo (memberlist-proto/src) | model | what |
|---|---|---|
| endpoint/mod.rs | CoreModel, EndpointModel | membership handlers (alive, suspect, dead, merge, refute, left, prune), the timer handler with all passes, probing with indirect helpers and the reliable fallback, relays, application pings, gossip, push/pull scheduling and answers, user broadcasts and messages, leave, metadata, ack payload and snapshot setters, dial and stream bookkeeping, poll_transmit/poll_event/poll_action, packet and stream-event dispatch |
| members/mod.rs | MembersModel, and as a list in CoreModel | the vector with its index map; `C25_list_behaviour` connects both |
| broadcast/mod.rs | BroadcastModel | gossip queue (tiers, limits, byte budget, invalidation) and the user-broadcast tiers |
| suspicion/mod.rs | SuspicionModel, SuspicionReal | the timer; the formula over real numbers |
| awareness/mod.rs, ack/mod.rs, probe.rs, endpoint/deadline/mod.rs, cidr/mod.rs, time/mod.rs | the model of the same name (probe.rs in EndpointModel) | all operations |
| framing/mod.rs, codec/mod.rs | CodecModel, WireModel | varints, plain frames, compound frames, frame probing, frame classification and message decode |
| convert/mod.rs | CodecModel | socket addresses |
| bridge/mod.rs, typed/*.rs | WireModel | every message type, field by field |
| data/*.rs, wire_type.rs, bridge/mod.rs:46-72 | DataModel | the `Data`/`DataRef` encodings of every built-in id and address type as a universe of types closed under pairs; LEB128 and zigzag of the external crate varing written out from their definition; `Duration` is left out |
| stream/mod.rs | StreamModel | the per-exchange state machine |
| label/mod.rs, streams/label.rs, streams/labeled/mod.rs | LabelModel | datagram labels, the label gate, the labelled record layer |
| encryption/mod.rs, checksum/mod.rs, compression/mod.rs, streams/bridge.rs, streams/mod.rs | TransformModel, KeyringModel | wrappers in order, unwrap with ceilings, the reliable unit, the datagram egress and ingress, the keyring |
| streams/bridge.rs, bridge_phase.rs, streams/phase.rs | BridgeModel | one exchange on one connection: label gate, units, record layer, half-closes, failures, for plain TCP |
| streams/mod.rs, streams/conn.rs, streams/action.rs | CoordModel | the stream coordinator for plain TCP: dials, accepts, pump, reap, queues of bytes and actions, timers, leave, change of encryption options, ingress queue |
| a network of endpoints | ClusterModel | any number of nodes, messages lost, duplicated, reordered and delayed without bound |

Simplifications, each repeated in the comment of the definition concerned:

* Node ids and addresses are natural numbers in the endpoint model.  Their
  encodings are an arbitrary injective codec with exact announced lengths in
  the wire model (`wf_codec`), so lengths and bytes of messages are exact.
* Hash maps are association lists; an explicit operation permutes them
  arbitrarily between calls, so nothing depends on an iteration order.
* Random draws are an arbitrary stream indexed by a counter.  Delegates are
  arbitrary predicates.  The floating-point timer formula is an arbitrary
  function between its bounds (C18) and is studied over the reals (C19).
  Rounding of `f64` is not modelled.
* Compression, hashing and AEAD are arbitrary functions; where a law is
  needed it is an explicit hypothesis of the theorem.
* Protobuf primitives: the generated code is not in /repo.  Its encoding is
  modelled from `messages.proto` and the protobuf encoding rules (tag and
  wire type, varint, length-delimited; unknown fields skipped; last scalar
  wins; default values omitted).
* Time is a natural number of nanoseconds since the clock's origin with the
  saturation of time/mod.rs.  Sequence numbers, incarnations and versions wrap
  explicitly.  Vectors do not overflow memory.

## What is not modelled

* The QUIC coordinator (`quic/`) and the TLS record layer (`tls/`).  The stream
  coordinator is modelled for plain TCP only (`tcp/` is an alias of it).
* The async drivers (`memberlist-compio`, `memberlist-reactor`,
  `memberlist-embassy`, `memberlist-smoltcp`, `memberlist-embedded`,
  `memberlist-driver`), apart from the datagram egress/ingress order of the
  reactor's stream driver, which C60 composes.
* `Data` implementations written by users: the wire model takes the laws it
  needs of them as `wf_codec`; C82 proves the laws for the built-in ones.
* Metrics, logging, error texts, serde, arbitrary/quickcheck support,
  configuration builders beyond the fields the endpoint reads.
* In the endpoint: `bootstrap = true` announcements, encoding failures of
  user types and compression of push/pull answers.

## Findings

Each is proved on the model with a concrete witness.

| property | finding |
|---|---|
| C15 | the same key bytes can be in the ring twice under different ciphers |
| C16 | two networks with the same set of addresses can be unequal (host bits kept) |
| C17 | scaling a timeout by the score overflows for very large timeouts |
| C18 | a confirmation after the deadline still counts; a minimum below one millisecond is not respected |
| C27, C30 | an incarnation of `u32::MAX` wraps to 0 and ends refutation |
| C37 | a late ack fails the probe at once rather than being ignored |
| C45 | farewell capacity promises more than fits for payloads of 16381 bytes and more |
| C48 | a member can be probed twice in a pass |
| C50 | a suspicion can carry stale metadata back |
| C55 | the scaled push/pull interval overflows |
| C59 | an unlabelled endpoint passes a labelled stream through |
| C60 | the label header is not in the MTU budget |
| C64 | bytes after a complete frame are tolerated or not depending on chunking |
| C67 | metadata within the limit may never be announced |
| C69 | after one timer call at time t a suspicion timer may still be due at t |
| C71 | the answer kept ready for push/pull can be out of date between timer calls |
| C79 | a ping pending when the node leaves is never reported |
| C81 | relayed acks may exceed the MTU |
| C88 | a connection is aborted twice when the encryption options change while it is live (harmless) |
| C95 | a user message reported as succeeded may never leave; an exchange started after leaving gets an id but never a report; bytes may still leave after leaving |
| C97 | a change of version alone is not announced; a takeover is announced as `NodeJoined`, not `NodeUpdated` as documented |
| C28 | after pruning, an alive message older than the recorded death readmits the member |

## Trusted base

* The Coq 8.16.1 kernel (with `vm_compute`, used for examples and witnesses).
* The correspondence between the Gallina model and the Rust code, by reading;
  each definition cites the lines it models.  Nothing was run against it.
* Axioms, from `Print Assumptions` under each theorem: "Closed under the
  global context" for every theorem except those of C19, which use the
  Stdlib's real numbers and so list
  `ClassicalDedekindReals.sig_forall_dec`,
  `ClassicalDedekindReals.sig_not_dec`,
  `FunctionalExtensionality.functional_extensionality_dep` and, where noted,
  `Classical_Prop.classic`.
* No axiom, parameter, functor or module type is defined here; no kernel check
  is switched off.

## Mutation testing

`seeded/LOG.jsonl` has one line per wrong program tried: the definition
edited, the edit, the claim it breaks, the theorems whose proof no longer goes
through (directly or through a lemma they depend on) and what was tightened.
A theorem counts as failed when, with every broken proof replaced by an
assumption, `Print Assumptions` shows that it rests on one of those; so a broken
basic lemma makes many theorems fail, and a line tells which claim was meant to
be broken. For every edit that got through on its first attempt the line names
the theorem added or tightened because of it.
