{"id": "C01", "title": "Varint lengths survive the wire", "statement": "Every 32-bit length written by the frame encoder is read back exactly, using exactly the bytes written (1 to 5), whatever follows; and no byte string makes the reader return a value above u32::MAX or consume more than five bytes.", "quantifier": "every u32 value, every trailing byte string, every arbitrary input byte string", "why_tests_cant": "2^32 values times unbounded suffixes, and the negative half ranges over all byte strings", "anchors": ["memberlist-proto/src/framing/mod.rs: encode_varint_u32", "memberlist-proto/src/framing/mod.rs: decode_varint_u32"]}
{"id": "C02", "title": "Frames are self-delimiting", "statement": "A tagged frame followed by arbitrary bytes decodes to the same tag and body and reports exactly its own length; every strict prefix of a frame is reported incomplete, never as a different frame or as corrupt.", "quantifier": "every message tag, every body of encodable length, every suffix, every cut point", "why_tests_cant": "requires all bodies and all cut points; a test covers only selected ones", "anchors": ["memberlist-proto/src/framing/mod.rs: encode_plain_frame", "memberlist-proto/src/framing/mod.rs: decode_plain_frame"]}
{"id": "C03", "title": "Stream frame sizing agrees with frame decoding", "statement": "The incremental length probe that a stream uses to decide when a frame is complete reports size t for a buffer exactly when the frame decoder would consume t bytes of that buffer, never completes early, never waits for bytes the decoder does not need, and rejects oversize frames before they are buffered.", "quantifier": "every byte buffer and every frame-size limit", "why_tests_cant": "two independently written parsers have to agree on all inputs including malformed varints", "anchors": ["memberlist-proto/src/stream/mod.rs: probe_frame", "memberlist-proto/src/framing/mod.rs: decode_plain_frame"]}
{"id": "C04", "title": "Compound datagrams round-trip in order", "statement": "Packing two or more encoded messages into a compound datagram and unpacking it gives back exactly those messages, in the same order.", "quantifier": "every list of at least two encoded messages whose sizes fit the length fields", "why_tests_cant": "unbounded number and size of parts", "anchors": ["memberlist-proto/src/framing/mod.rs: encode_compound", "memberlist-proto/src/framing/mod.rs: decode_compound"]}
{"id": "C05", "title": "Compound decoding is total and exact", "statement": "For any received bytes compound decoding either fails or returns at least two parts that are contiguous, in-bounds slices which together with their prefixes account for every byte; it never reads past the datagram and never accepts trailing bytes.", "quantifier": "every byte string", "why_tests_cant": "hostile inputs range over all byte strings", "anchors": ["memberlist-proto/src/framing/mod.rs: decode_compound"]}
{"id": "C06", "title": "Protocol messages survive encode/decode", "statement": "Each protocol message (ping, indirect ping, ack, nack, suspect, alive, dead, push/pull, user data, error) decoded from its own encoding is identical to the original, including every optional and enumerated field value, and the encoder's announced length equals the bytes it writes.", "quantifier": "every message of every kind with arbitrary ids, addresses, payloads, incarnations, states and versions", "why_tests_cant": "message contents are unbounded; field presence combinations multiply", "anchors": ["memberlist-proto/src/bridge/mod.rs", "memberlist-proto/src/framing/mod.rs: encode_message, decode_message", "memberlist-proto/proto/memberlist/v1/messages.proto"]}
{"id": "C07", "title": "Socket addresses survive the wire", "statement": "Encoding a socket address and decoding it gives the same address; no other byte string of any length decodes to it, and strings of the wrong length or family tag are rejected.", "quantifier": "every IPv4/IPv6 address and port; every byte string", "why_tests_cant": "2^144 addresses and all malformed strings", "anchors": ["memberlist-proto/src/convert/mod.rs: socket_addr_to_bytes, socket_addr_from_bytes"]}
{"id": "C08", "title": "Cluster label isolation of datagrams", "statement": "A datagram labelled for a cluster is accepted only by a node configured with exactly that label; an unlabelled node never accepts a labelled datagram and a labelled node never accepts an unlabelled one; the accepted payload is exactly the bytes after the header. (Streams: C59.)", "quantifier": "every pair of labels (absent, empty, equal, prefix-related, different) and every payload", "why_tests_cant": "label pairs and payloads are unbounded; prefix-related labels are easy to miss", "anchors": ["memberlist-proto/src/label/mod.rs: classify_header, encode_label_prefix, effective_label", "memberlist-proto/src/codec/mod.rs: wrap_label, decode_incoming"]}
{"id": "C09", "title": "Label verdicts do not depend on how a stream is chunked", "statement": "Whether a labelled stream is accepted, and the bytes delivered after the label, depend only on the byte sequence and not on how the transport splits it into reads; and the gate never buffers more than a maximal label header.", "quantifier": "every byte stream and every way of cutting it into chunks", "why_tests_cant": "the number of ways of cutting a stream is exponential", "anchors": ["memberlist-proto/src/streams/label.rs: LabelGate::consume_inbound"]}
{"id": "C10", "title": "An acceptor does not reveal its label to an unvalidated peer", "statement": "A stream acceptor emits its own label header at most once, and never before the peer's label has been validated; a dialer emits its label before any payload.", "quantifier": "every sequence of inbound chunks and outbound writes", "why_tests_cant": "depends on all interleavings of reads and writes", "anchors": ["memberlist-proto/src/streams/label.rs: LabelGate"]}
{"id": "C11", "title": "Transform wrappers are accepted only in canonical order and within the size ceiling", "statement": "The unwrapping of encryption, checksum and compression wrappers succeeds only for the order encrypt(checksum(compress(frame))) with each layer at most once, always terminates, and never yields more than the configured maximum number of plaintext bytes.", "quantifier": "every byte string, every backend behaviour, every ceiling", "why_tests_cant": "nesting depth and backend output are adversarial", "anchors": ["memberlist-proto/src/framing/mod.rs: unwrap_transforms, unwrap_transforms_with_encryption", "memberlist-proto/src/compression/mod.rs: decode_compressed_frame", "memberlist-proto/src/checksum/mod.rs: decode_checksummed_frame"]}
{"id": "C12", "title": "With encryption on, only ring-authenticated bytes are processed", "statement": "When a keyring is configured, no inbound datagram or reliable unit yields any plaintext unless its outermost wrapper is an encrypted frame that opened under one of the ring's keys of the algorithm named on the wire, with that algorithm bound into the authenticated data.", "quantifier": "every byte string, every keyring, every AEAD behaviour", "why_tests_cant": "must hold against all adversarial inputs", "anchors": ["memberlist-proto/src/framing/mod.rs: unwrap_transforms_with_encryption", "memberlist-proto/src/encryption/mod.rs: decode_encrypted_frame"]}
{"id": "C13", "title": "The transform pipeline is lossless", "statement": "For any configuration of compression, checksum and encryption shared by two nodes, the bytes a sender wraps are the bytes the receiver unwraps, and compression never makes a reliable unit larger than its plain form.", "quantifier": "every payload within the ceiling, every combination of enabled transforms, every correct backend", "why_tests_cant": "product of payloads and configurations", "anchors": ["memberlist-proto/src/compression/mod.rs: encode_reliable_unit_with_encryption, take_reliable_unit_with_encryption", "memberlist-proto/src/checksum/mod.rs: encode_checksummed_frame"]}
{"id": "C14", "title": "Reliable units are recovered from any fragmentation", "statement": "A sequence of reliable units written back-to-back on a byte stream is recovered as the same sequence no matter how the bytes are fragmented, and a declared unit length above the ceiling is rejected before its body is buffered.", "quantifier": "every sequence of payloads and every fragmentation", "why_tests_cant": "all fragmentations of all unit sequences", "anchors": ["memberlist-proto/src/compression/mod.rs: encode_reliable_unit, take_reliable_unit"]}
{"id": "C15", "title": "Keyring rotation never loses or duplicates a key", "statement": "Whatever sequence of insert, remove and promote calls is made, the keyring holds no key twice, promoting a key keeps the set of accepted keys unchanged and makes a key with those bytes the primary, and the primary can never be removed.", "quantifier": "every sequence of keyring operations", "why_tests_cant": "operation histories are unbounded", "anchors": ["memberlist-proto/src/encryption/mod.rs: Keyring"]}
{"id": "C16", "title": "CIDR admission is fail-closed", "statement": "An address is admitted exactly when the policy was never restricted or some currently listed network contains it; removing the last network leaves a policy that admits nothing, and only an explicit allow-all lifts the restriction; a composed delegate admits only what both admit.", "quantifier": "every sequence of add/remove operations and every address", "why_tests_cant": "histories and addresses are unbounded", "anchors": ["memberlist-proto/src/cidr/mod.rs: CidrPolicy, CidrAnd"]}
{"id": "C17", "title": "Health score stays bounded", "statement": "The local health score always lies between 0 and the configured maximum minus one, moves by exactly the recorded successes and failures otherwise, and scaling a timeout never shortens it.", "quantifier": "every sequence of successes and failures of any severity and every maximum", "why_tests_cant": "unbounded histories including saturating arithmetic at the extremes", "anchors": ["memberlist-proto/src/awareness/mod.rs: Awareness"]}
{"id": "C18", "title": "Suspicion timers stay within their bounds and only shorten", "statement": "The deadline of a suspicion is never before start+min and, as long as accusations arrive before it, never after start+max; further independent accusations never move it later while it is still pending, one accuser counts at most once, the first accuser never counts as its own confirmation, and after k confirmations the deadline is start+min (or the moment of an accusation that came later than that).", "quantifier": "every min/max/k, every sequence of accusers and every non-decreasing clock", "why_tests_cant": "accusation histories and clocks are unbounded", "anchors": ["memberlist-proto/src/suspicion/mod.rs: Suspicion, remaining_suspicion_time"]}
{"id": "C19", "title": "Lifeguard timer formula is bounded and monotone", "statement": "The suspicion timeout as a function of the number of confirmations starts at max, ends at min, always lies between them and strictly decreases when max exceeds min.", "quantifier": "every k at least 1, every n up to k, all real min and max", "why_tests_cant": "a continuous family of parameters", "anchors": ["memberlist-proto/src/suspicion/mod.rs: remaining_suspicion_time"]}
{"id": "C20", "title": "At most one pending broadcast per node", "statement": "The gossip queue never holds two broadcasts about the same node; queueing a newer one makes the older one unobtainable and starts the newer one with a fresh transmit count; broadcasts about different nodes do not disturb each other.", "quantifier": "every sequence of queue/take/prune/reset operations", "why_tests_cant": "operation histories are unbounded", "anchors": ["memberlist-proto/src/broadcast/mod.rs: TransmitLimitedQueue::queue_broadcast, MemberlistBroadcast"]}
{"id": "C21", "title": "Broadcasts are retransmitted at most the limit and within the byte budget", "statement": "Any one queued broadcast is handed out at most max(1, retransmit limit) times, each batch stays within the byte budget including per-message overhead, contains no broadcast twice, and every queued message that is not handed out on a call either did not fit in the budget left or stays queued.", "quantifier": "every sequence of queue/take operations, every budget and every cluster size", "why_tests_cant": "interaction of tiers, deferral and budget over unbounded histories", "anchors": ["memberlist-proto/src/broadcast/mod.rs: take_broadcasts_measured"]}
{"id": "C22", "title": "Less-transmitted broadcasts go first", "statement": "A batch considers queued broadcasts in order of fewest transmits first: whenever a message is handed out, no queued message with fewer transmits that would have fitted was passed over.", "quantifier": "every queue content and budget", "why_tests_cant": "all queue contents", "anchors": ["memberlist-proto/src/broadcast/mod.rs: take_broadcasts_measured, LimitedBroadcast order"]}
{"id": "C23", "title": "User broadcast tiers are served in rank order within one budget", "statement": "Ranked user broadcasts are drained strictly by rank, the total handed out over all tiers including overhead never exceeds the budget, and ranks beyond the configured number of tiers fall into the last tier.", "quantifier": "every number of tiers, every queue content and every budget", "why_tests_cant": "all contents of all tiers", "anchors": ["memberlist-proto/src/broadcast/mod.rs: UserBroadcasts"]}
{"id": "C24", "title": "Earliest-deadline queries are exact", "statement": "The deadline index always reports exactly the earliest deadline among the entries last set and not cleared, is empty exactly when no key holds a deadline, and stores one ordered entry per registered key: no stale entry survives however often a deadline is replaced.", "quantifier": "every sequence of set/clear operations with arbitrary keys and deadlines", "why_tests_cant": "operation histories are unbounded", "anchors": ["memberlist-proto/src/endpoint/deadline/mod.rs: DeadlineIndex"]}
{"id": "C25", "title": "The member table stays consistent", "statement": "Under any sequence of inserts, random-position inserts, removals and shuffles a lookup by id finds a member exactly when that id was inserted and not removed, it is the member last stored for that id, no id appears twice in the iteration order, and the iteration order is a permutation of the table's content. Each call changes the order in one fixed way: an update leaves it alone, a removal closes the gap, a random-position insert moves only the displaced member to the end, and a shuffle permutes it by the random draws alone.", "quantifier": "every sequence of table operations and random choices", "why_tests_cant": "index bookkeeping over unbounded histories", "anchors": ["memberlist-proto/src/members/mod.rs: Members"]}
{"id": "C26", "title": "Pending acks are matched at most once", "statement": "A registered sequence number is delivered at most once: after it has been consumed, removed or expired, no later ack for it is matched, and expiry returns an entry with the earliest deadline not later than now.", "quantifier": "every sequence of register/ack/remove/expire operations", "why_tests_cant": "operation histories are unbounded", "anchors": ["memberlist-proto/src/ack/mod.rs: AckRegistry"]}
{"id": "C27", "title": "A member's incarnation never goes backwards", "statement": "As seen by one node, the incarnation recorded for another member never decreases while the entry exists, except when a departed (or reclaimable dead) member's name is taken over from a different address, which starts a new instance of the member. The node's own incarnation never decreases as long as nobody accuses it at u32::MAX and its own count does not reach u32::MAX.", "quantifier": "every sequence of packets, streams, timer firings and API calls, over all clocks and random choices", "why_tests_cant": "unbounded adversarial message histories", "anchors": ["memberlist-proto/src/endpoint/mod.rs: process_alive_decided, process_suspect, process_dead"]}
{"id": "C28", "title": "No false resurrection", "statement": "A member recorded Dead or Left at incarnation i becomes Alive again only through an alive message with an incarnation greater than i, or through address take-over of a left/reclaimable name, or after the entry was pruned.", "quantifier": "every sequence of packets, streams, timer firings and API calls", "why_tests_cant": "unbounded adversarial message histories", "anchors": ["memberlist-proto/src/endpoint/mod.rs: process_alive_decided, merge_state"]}
{"id": "C29", "title": "Departed members are never suspected", "statement": "A member recorded Left or Dead never becomes Suspect without first becoming Alive again, and a Left member never turns Dead or a Dead one Left.", "quantifier": "every sequence of packets, streams, timer firings and API calls", "why_tests_cant": "unbounded message histories", "anchors": ["memberlist-proto/src/endpoint/mod.rs: process_suspect, process_dead"]}
{"id": "C30", "title": "A running node always refutes", "statement": "When a running node processes an accusation about itself (suspect, dead, or an alive message from its own address that is ahead of it or contradicts it) at its current or a higher incarnation below the u32 maximum, its own incarnation afterwards is strictly greater than both its old one and the accused one, it remains Alive in its own view, its queue holds an alive message with the new incarnation, and every peer that processes that message while holding an incarnation no greater than the accused one at its address marks it Alive. An alive message about it from another address is only reported as a conflict.", "quantifier": "every endpoint state and every accusation", "why_tests_cant": "ranges over all states and incarnations", "anchors": ["memberlist-proto/src/endpoint/mod.rs: refute, process_suspect, process_dead, process_alive_decided"]}
{"id": "C31", "title": "A node is never Suspect or Dead in its own view", "statement": "In every reachable state the local member exists in its own table, is Alive while the node has not left, and is only ever Alive or Left.", "quantifier": "every reachable state", "why_tests_cant": "all histories", "anchors": ["memberlist-proto/src/endpoint/mod.rs: try_new_at, process_suspect, process_dead, leave_with"]}
{"id": "C32", "title": "Stale gossip changes nothing", "statement": "Suspect and dead messages with an incarnation lower than the recorded one, and alive messages about another node from its recorded address with an incarnation not greater than the recorded one, leave membership, timers, queues and events unchanged.", "quantifier": "every endpoint state and message", "why_tests_cant": "all states and messages", "anchors": ["memberlist-proto/src/endpoint/mod.rs: process_suspect, process_dead, process_alive_decided"]}
{"id": "C33", "title": "Re-delivered gossip is idempotent", "statement": "Processing the same alive, suspect or dead message (below the u32 maximum incarnation) twice in a row leaves exactly the same state as processing it once, except that a name conflict is reported again.", "quantifier": "every endpoint state and message", "why_tests_cant": "all states and messages", "anchors": ["memberlist-proto/src/endpoint/mod.rs: process_alive, process_suspect, process_dead"]}
{"id": "C34", "title": "Membership events mirror the membership table", "statement": "Replaying the emitted join and leave events from start-up reconstructs exactly the set of members currently Alive or Suspect: a join is emitted only for a member not currently joined and a leave only for one that is.", "quantifier": "every sequence of packets, streams, timer firings and API calls", "why_tests_cant": "unbounded histories", "anchors": ["memberlist-proto/src/endpoint/mod.rs: process_alive_decided, process_dead, reset_nodes, leave_with"]}
{"id": "C35", "title": "Every suspect has a running timer and the node wakes up for it", "statement": "In every reachable state of a running node a member is Suspect exactly when it has a pending suspicion, and the wake-up time reported to the driver is never later than the earliest suspicion deadline, probe deadline, relay deadline or dial deadline.", "quantifier": "every reachable state", "why_tests_cant": "all histories", "anchors": ["memberlist-proto/src/endpoint/mod.rs: poll_timeout, install_suspicion, clear_suspicion"]}
{"id": "C36", "title": "Expired suspicions become deaths", "statement": "After the timer handler runs at time t on a running node, no member whose suspicion deadline had passed before the call is still Suspect under that suspicion: it is Dead at the suspected incarnation and a dead broadcast and leave event were produced.", "quantifier": "every reachable state and time", "why_tests_cant": "all histories", "anchors": ["memberlist-proto/src/endpoint/mod.rs: fire_expired_suspicions"]}
{"id": "C37", "title": "Spoofed or late acks complete nothing", "statement": "An ack completes a probe only if its sequence number belongs to that live probe, it arrives before the probe's failure deadline and it comes from the probed address or from one of the helpers asked to relay. An ack with another number or from another source leaves every pending probe untouched and still answerable; one from an admissible source at or after the failure deadline fails the probe there and then, exactly as its deadline demands.", "quantifier": "every endpoint state, ack, source address and time", "why_tests_cant": "adversarial ack streams", "anchors": ["memberlist-proto/src/endpoint/mod.rs: handle_ack, ack_source_is_valid, complete_probe_success"]}
{"id": "C38", "title": "Sequence numbers in flight are unique", "statement": "A freshly allocated sequence number is non-zero and differs from every sequence number of a live probe, ping, relay or pending ack, even after the 32-bit counter wraps, as long as fewer than 2^32-1 are in flight.", "quantifier": "every reachable state including counter wrap-around", "why_tests_cant": "wrap-around takes 2^32 allocations", "anchors": ["memberlist-proto/src/endpoint/mod.rs: allocate_seq"]}
{"id": "C39", "title": "A failed probe suspects only the member it probed", "statement": "Suspicion raised by a failed probe concerns the probed member at the incarnation snapshotted when the probe started; it is raised only if the probe was actually sent and the table still holds the same generation of that member.", "quantifier": "every reachable state with a failing probe", "why_tests_cant": "depends on interleavings of probe, reclaim and failure", "anchors": ["memberlist-proto/src/endpoint/mod.rs: probe_terminate_failure, start_probe"]}
{"id": "C40", "title": "Helper nacks count once each", "statement": "The number of nacks credited to a probe never exceeds the number of helpers asked, each helper counts at most once, and only helpers that were asked count, so the health penalty of a failed probe is always between 0 and the number of helpers (or 1 when none was asked).", "quantifier": "every sequence of nacks from arbitrary addresses", "why_tests_cant": "adversarial nack streams", "anchors": ["memberlist-proto/src/endpoint/mod.rs: handle_nack, probe_terminate_failure"]}
{"id": "C41", "title": "Each relayed probe is answered at most once", "statement": "For each indirect ping accepted for relay the requester gets at most one answer for that relay entry - an ack if the target answered before the deadline, otherwise exactly one nack when the deadline passes - and the number of outstanding relays never exceeds the configured cap.", "quantifier": "every sequence of packets and timer firings", "why_tests_cant": "interleavings of acks and expiry", "anchors": ["memberlist-proto/src/endpoint/mod.rs: handle_indirect_ping, handle_ack, fire_expired_forwards"]}
{"id": "C42", "title": "A node that has left is inert", "statement": "Once a node has begun leaving, timers do nothing and no wake-up is requested, incoming traffic neither changes its membership view of others nor starts new exchanges, it never asks the driver to dial anyone (not even for an exchange asked for before and not yet picked up), and it cannot return to running.", "quantifier": "every sequence of operations after leave", "why_tests_cant": "all post-leave histories", "anchors": ["memberlist-proto/src/endpoint/mod.rs: leave_with, handle_timeout, poll_timeout, handle_packet"]}
{"id": "C43", "title": "Leave completes exactly once", "statement": "The left-cluster notification is produced at most once, only after leave was called, not before every farewell datagram queued by leave has been handed to the driver, and it is produced when the last of them has been; the farewells go, once each, to exactly the members other than the node itself that it held Alive or Suspect when leave was called; each says, at the node's current incarnation, that the node itself is leaving.", "quantifier": "every sequence of operations", "why_tests_cant": "interleaving of polling and traffic", "anchors": ["memberlist-proto/src/endpoint/mod.rs: leave_with, poll_transmit"]}
{"id": "C44", "title": "Datagrams fit the gossip MTU", "statement": "Every datagram that carries gossip (compound or single), user broadcasts or a farewell encodes to at most the configured gossip MTU.", "quantifier": "every queue content, member set and payload accepted by the API", "why_tests_cant": "all contents; boundary arithmetic across several overhead constants", "anchors": ["memberlist-proto/src/endpoint/mod.rs: fire_gossip_scheduler, leave_with, check_user_broadcast, drain_user_broadcasts"]}
{"id": "C45", "title": "Farewell capacity is honoured", "statement": "A farewell payload of at most the advertised farewell capacity is always included in the farewell datagrams, if it is at most 16380 bytes long or at least two bytes shorter than the capacity. (The unrestricted claim is refuted: a longer payload of exactly the advertised capacity is silently left out.)", "quantifier": "every gossip MTU and payload length", "why_tests_cant": "fails only for particular length ranges", "anchors": ["memberlist-proto/src/endpoint/mod.rs: farewell_capacity, leave_with"]}
{"id": "C46", "title": "The member cap is respected", "statement": "When a member cap is configured the number of known members never exceeds the larger of the cap and one because of gossip or push/pull, and updates to already known members are still processed.", "quantifier": "every sequence of packets and merges", "why_tests_cant": "all histories", "anchors": ["memberlist-proto/src/endpoint/mod.rs: process_alive_decided"]}
{"id": "C47", "title": "Pruning removes only long-departed members, and removes all of them", "statement": "Periodic pruning never removes the local member nor one that is Alive or Suspect, nor a departed one before the configured gossip-to-the-dead time has elapsed; everything else is kept. Conversely a departed member's record past that time does not stay: with at most M members in the table, by the M-th probe tick it is gone or the member has been heard of again.", "quantifier": "every member table and clock; every run of calls with at most M members, from every reachable state", "why_tests_cant": "all tables", "anchors": ["memberlist-proto/src/endpoint/mod.rs: reset_nodes"]}
{"id": "C48", "title": "Probe round-robin is fair", "statement": "From the start of a round the probed members are exactly the live remote members, each once and in table order, before any of them is chosen again; the local node and departed members are never selected. (Exactly once between two reshuffles is refuted: a round lasts as many probes as there are members including the local one, so the first target is probed twice.)", "quantifier": "every member table and random order", "why_tests_cant": "all tables and orders", "anchors": ["memberlist-proto/src/endpoint/mod.rs: next_probe_target, reset_nodes"]}
{"id": "C49", "title": "Push/pull merge equals gossip", "statement": "Merging a remote state listing is equivalent to processing, in order, an alive message for each Alive entry, a suspect accusation from the local node for each Suspect or Dead entry and a dead announcement for each Left entry; in particular a merge can never directly kill a member that is not reported as having left.", "quantifier": "every endpoint state and every listing", "why_tests_cant": "all listings", "anchors": ["memberlist-proto/src/endpoint/mod.rs: merge_state"]}
{"id": "C50", "title": "Cluster-wide incarnation authority", "statement": "In any cluster of nodes running this protocol over a network that loses, duplicates, delays and reorders messages, no node ever records, and no message ever carries, an incarnation of a node above that node's own current incarnation, which itself never goes down; whatever a member recorded or announced as alive is said to be (address, metadata, versions) is how it described itself under exactly that incarnation, so at equal incarnation such descriptions agree everywhere and at all times. Two limits are shown with concrete histories: a record that is suspect can keep metadata its incarnation never had, and the announcement that would correct it is ignored; and after the u32 maximum a node's incarnation restarts below what others know.", "quantifier": "every number of nodes, every configuration, every interleaving of driver calls, deliveries, losses, duplications and timer firings, without restarts, and (except for the wrap-around refutation) while no node has used up its incarnation numbers", "why_tests_cant": "unbounded distributed executions", "anchors": ["memberlist-proto/src/endpoint/mod.rs: process_alive_decided, process_suspect, process_dead, refute, update_meta, drain_broadcasts, poll_transmit, handle_stream_event, dial_succeeded"]}
{"id": "C51", "title": "Failed exchanges have no effect", "statement": "When a stream exchange fails for any reason (timeout, malformed or unexpected data, early close) none of its not yet delivered effects is delivered afterwards, exactly one failure notification is produced, and nothing more is ever sent or accepted on it.", "quantifier": "every sequence of data chunks, polls and timeouts", "why_tests_cant": "all interleavings and byte streams", "anchors": ["memberlist-proto/src/stream/mod.rs: enter_failed, handle_data, poll_transmit, handle_timeout"]}
{"id": "C52", "title": "Stream input buffering is bounded", "statement": "A stream never buffers more than the configured maximum frame size of input, whatever the peer sends.", "quantifier": "every sequence of chunks", "why_tests_cant": "adversarial peers", "anchors": ["memberlist-proto/src/stream/mod.rs: handle_data_inner"]}
{"id": "C53", "title": "Stream exchanges follow the request/response protocol", "statement": "An outbound exchange produces its result only after its request was fully handed to the transport, at most once, and only from a response of the matching kind (and matching sequence number for a ping); an inbound exchange answers at most one request; no data or timeouts can re-open a finished exchange.", "quantifier": "every sequence of data chunks, polls and timeouts", "why_tests_cant": "all interleavings", "anchors": ["memberlist-proto/src/stream/mod.rs: dispatch_message, poll_transmit"]}
{"id": "C54", "title": "No stream progress past its deadline", "statement": "At or after its deadline an unfinished exchange makes no progress: the next data, poll or timer call fails it, and the wake-up time reported for an unfinished exchange is its deadline.", "quantifier": "every sequence of calls and clock values", "why_tests_cant": "all schedules", "anchors": ["memberlist-proto/src/stream/mod.rs: poll_timeout, handle_timeout, handle_data, poll_transmit"]}
{"id": "C55", "title": "Push/pull interval scaling", "statement": "The push/pull interval is unscaled for clusters of up to 32 nodes, never falls below the configured interval, and grows with the cluster by one interval per doubling as long as the product does not overflow a duration (when it does, the unscaled interval is used, so it is not monotone there).", "quantifier": "every cluster size and interval", "why_tests_cant": "all sizes", "anchors": ["memberlist-proto/src/endpoint/mod.rs: push_pull_scale"]}
{"id": "C56", "title": "Dialled exchanges are accounted for exactly once", "statement": "Each requested dial is resolved at most once - by a successful connection before its deadline, by a reported failure or by its deadline passing - and a resolution for an unknown or already resolved dial has no effect.", "quantifier": "every sequence of dial outcomes and timer firings", "why_tests_cant": "interleavings of outcomes and expiry", "anchors": ["memberlist-proto/src/endpoint/mod.rs: insert_intent, remove_intent, dial_succeeded, dial_failed, fire_expired_stream_intents"]}
{"id": "C57", "title": "Ack payloads are withheld from strangers", "statement": "With members-only ack payloads enabled, the application payload is attached to an ack only when the pinging node is a known member at the address the ping came from; and a ping addressed to a different node id is never answered.", "quantifier": "every endpoint state, ping and source address", "why_tests_cant": "all states and sources", "anchors": ["memberlist-proto/src/endpoint/mod.rs: handle_ping"]}
{"id": "C58", "title": "Snapshot version reflects every visible change", "statement": "If two successive observations return the same snapshot version then the member view (ids, addresses, metadata, states, incarnations, order-insensitively) and the health score are the same.", "quantifier": "every sequence of operations", "why_tests_cant": "a missed bump anywhere in any history breaks it", "anchors": ["memberlist-proto/src/endpoint/mod.rs: emit_event, snapshot_version"]}
{"id": "C59", "title": "Cluster label isolation of reliable streams", "statement": "A labelled endpoint of a reliable stream delivers application bytes only from a stream that began with exactly its own label (or, with the inbound check explicitly skipped, with no label), it delivers exactly the bytes after the header, and it fails any stream labelled for another cluster. The stronger claim that an unlabelled endpoint rejects labelled streams is false and is refuted: such an endpoint is a transparent pipe.", "quantifier": "every label, payload, chunking, role (dialer or acceptor) and both settings of the skip flag", "why_tests_cant": "tests try a few labels and splits; the claim is over all labels, chunkings and interleavings with reads and writes", "anchors": ["memberlist-proto/src/streams/label.rs: LabelGate", "memberlist-proto/src/streams/labeled/mod.rs: Labeled, Passthrough"]}
{"id": "C60", "title": "Gossip frames within the MTU are deliverable, except that labels are not budgeted", "statement": "Between unlabelled nodes with compatible transforms every frame no longer than gossip_mtu is accepted; the natural claim that this also holds for two nodes sharing a label is false: the sender budgets the frame without its label header while the receiver counts both against gossip_mtu, so a frame that fills the MTU is dropped.", "quantifier": "every frame within the MTU, every label and transform configuration", "why_tests_cant": "needs the boundary between two size budgets on two sides of the wire, for every configuration", "anchors": ["memberlist-reactor/src/driver/stream/mod.rs: transform_ingress, transform_egress", "memberlist-proto/src/codec/mod.rs: wrap_label", "memberlist-proto/src/framing/mod.rs: unwrap_transforms"]}
{"id": "C61", "title": "Every queued broadcast is released exactly once", "statement": "At any time every broadcast ever queued is either still in the queue or has had its finished notification fired exactly once; invalidation, the retransmit ceiling, pruning and reset never lose one silently and never notify twice.", "quantifier": "every sequence of fewer than 2^64 queue/take/prune/reset operations", "why_tests_cant": "operation histories are unbounded", "anchors": ["memberlist-proto/src/broadcast/mod.rs: BroadcastQueue::queue_broadcast, take_broadcasts_measured, take_one_broadcast, reset, prune, insert_into"]}
{"id": "C62", "title": "A member is recorded as having left only if it said so itself", "statement": "Another member's record becomes Left, which frees its name for immediate take-over from any address, only on a dead message that names the member itself as its source and carries an incarnation not below the recorded one; push/pull listings, accusations by third parties and the local failure detector record it Dead instead.", "quantifier": "every reachable state, every operation, every listing", "why_tests_cant": "The name hijack this prevents needs particular interleavings of stale listings, deaths and alive messages; tests show single cases, the claim is about every path that can write the state.", "anchors": ["memberlist-proto/src/endpoint/mod.rs:1783-1881", "memberlist-proto/src/endpoint/mod.rs:4070-4106"]}
{"id": "C63", "title": "The endpoint changes its membership record only through the membership operations", "statement": "In every reachable state of the endpoint the membership record, the gossip queue and the pending events are those of the membership core after some sequence of its own operations, so everything proved for every history of the core holds for the endpoint under every sequence of driver calls.", "quantifier": "every configuration, every sequence of driver calls", "why_tests_cant": "A refinement over all histories: tests exercise single calls and cannot show that no path writes the record in another way.", "anchors": ["memberlist-proto/src/endpoint/mod.rs:1327-1541", "memberlist-proto/src/endpoint/mod.rs:2060-2350", "memberlist-proto/src/endpoint/mod.rs:4226-4592"]}
{"id": "C64", "title": "A message has the same effect however its bytes are cut", "statement": "An exchange that waits for a frame and is fed the bytes of one whole frame before its deadline ends in the same state, with the same results, for every way of cutting those bytes into nonempty chunks. (Bytes after the frame are treated differently by cutting: refuted with a witness.)", "quantifier": "every frame, every cutting into chunks, every chunk time before the deadline", "why_tests_cant": "exponentially many cuttings of arbitrary frames", "anchors": ["memberlist-proto/src/stream/mod.rs: handle_data_inner, try_decode_frame", "memberlist-proto/src/framing/mod.rs: probe_frame"]}
{"id": "C65", "title": "An exchange between two nodes delivers exactly what was sent", "statement": "When the bytes each side hands to the transport reach the other side in order before its deadline, in whatever chunks, then a push/pull delivers the sender's states, user data and join flag to the receiver and the receiver's response to the sender; a reliable ping is acknowledged with its own sequence number; a reliable user message is delivered once and unchanged; and all the streams involved end well.", "quantifier": "every message content, chunking and timing before the deadlines", "why_tests_cant": "all contents, chunkings and timings; composition of encoder, framing, decoder and both state machines", "anchors": ["memberlist-proto/src/stream/mod.rs", "memberlist-proto/src/endpoint/mod.rs: dial_succeeded, accept_stream, stream_load_response", "memberlist-proto/src/framing/mod.rs"]}
{"id": "C66", "title": "The application's vetoes are binding", "statement": "With an alive delegate installed before anyone joined, every other member in the table satisfies it at all times; a refused alive message has no effect at all; a push/pull exchange refused by the merge delegate has no effect, its stream is closed and no answer is given; and delegates stay in force until replaced.", "quantifier": "every delegate predicate, every sequence of operations", "why_tests_cant": "all predicates and histories, through all three paths that install members", "anchors": ["memberlist-proto/src/endpoint/mod.rs: handle_alive, handle_stream_event, set_alive_delegate, set_merge_delegate"]}
{"id": "C67", "title": "A metadata update takes effect at once and is announced", "statement": "An accepted update_meta puts the metadata into the node's own record at the next incarnation, tells the application, queues the announcement for the next gossip round and touches nobody else's record; it is refused exactly when the node does not run or the metadata is over the configured limit. (That accepted metadata is actually announced is refuted: with MTU 512 and the default limit the announcement never fits a datagram.)", "quantifier": "every reachable state and metadata", "why_tests_cant": "all states; interplay of two independently configured limits", "anchors": ["memberlist-proto/src/endpoint/mod.rs:2600-2647 update_meta"]}
{"id": "C68", "title": "The first accusation starts a suspicion with the longest timeout", "statement": "The first suspect message about an Alive member at its incarnation or a later one makes it Suspect from now at the accused incarnation, with the accuser recorded, a timer that ends after the longest configured time for the current number of members when confirmations are expected and after the shortest when none are, and the accusation queued for gossip.", "quantifier": "every reachable state, accuser, incarnation and time", "why_tests_cant": "all cluster sizes, configurations and histories", "anchors": ["memberlist-proto/src/endpoint/mod.rs: handle_suspect, suspicion_timeouts"]}
{"id": "C69", "title": "A driver that sleeps until poll_timeout never spins", "statement": "After the timer handler ran at time t, nothing but a suspicion timer is due at t or before, and after a second call at the same instant nothing is; each of the three schedules moves on exactly when it is due, by its interval from the time of the call. (One call is not always enough: refuted with a witness.)", "quantifier": "every reachable state and time", "why_tests_cant": "all combinations of outstanding probes, relays, dials, suspicions and schedules", "anchors": ["memberlist-proto/src/endpoint/mod.rs: handle_timeout, poll_timeout, fire_probe_scheduler, fire_gossip_scheduler, fire_pushpull_scheduler"]}
{"id": "C70", "title": "A gossip round reaches the configured number of eligible members", "statement": "A due gossip round picks, without repetition, as many as configured (or all) of the eligible members: others than the node itself that are Alive, Suspect, or Dead for no longer than the dead window. Each of them gets the same messages in one datagram of its own; anything else sent by that call of the timer handler precedes it and is traffic of probing.", "quantifier": "every reachable state, time and random choice", "why_tests_cant": "all memberships and all random choices", "anchors": ["memberlist-proto/src/endpoint/mod.rs: fire_gossip_scheduler, pick_random"]}
{"id": "C71", "title": "Push/pull tells peers the whole table", "statement": "A due push/pull tick with any live member asks for a dial to one of them, and what will be sent is the listing of the whole membership table as it is then, with the application's snapshot; and right after the timer handler the answer kept ready for peers that ask lists the whole current table, up to order, with the latest snapshot. (Between two calls of the handler the kept answer may be out of date: refuted with a witness.)", "quantifier": "every reachable state, time and random choice (version counter not wrapped all the way round)", "why_tests_cant": "all histories of changes against a cache with version-based invalidation", "anchors": ["memberlist-proto/src/endpoint/mod.rs: fire_pushpull_scheduler, start_push_pull_direct, refresh_pushpull_response_cache"]}
{"id": "C72", "title": "Queued user broadcasts go out", "statement": "queue_user_broadcast accepts exactly what fits a datagram, and then it is queued. As long as user data is queued, a due gossip round with any eligible member sends something; and when what it sends is user data only, everything queued is in it except what would no longer have fitted the MTU beside the rest.", "quantifier": "every reachable state, queue content and payload", "why_tests_cant": "all queue contents; boundary arithmetic of several overheads", "anchors": ["memberlist-proto/src/endpoint/mod.rs: queue_user_broadcast, check_user_broadcast, drain_user_broadcasts, fire_gossip_scheduler"]}
{"id": "C73", "title": "A probe asks a live member, and records whom", "statement": "Whenever some other member is neither dead nor gone, starting a probe hands the driver a ping for one such member under a number in use nowhere, together with the suspicion when the member is suspected (one datagram if both fit). The probe records address, incarnation and instance of whom it asked, the time, and waits for the probe interval times one plus the node's bad-health score. It counts as sent exactly if the ping was handed out.", "quantifier": "every reachable state, configuration, instant and probe cursor position", "why_tests_cant": "all table contents, cursor positions, health scores and sizes at once", "anchors": ["memberlist-proto/src/endpoint/mod.rs: start_probe, next_probe_target, allocate_sequence_number"]}
{"id": "C74", "title": "An unanswered direct probe asks for help", "statement": "The timer call that finds a detection probe past its direct deadline but before its end asks distinct Alive helpers other than this node and the target - as many as configured, or everyone there is - each with a request naming the target, and dials the target unless it is known not to take reliable connections. Afterwards the probe waits for exactly those helpers; it is given up only if nobody could be asked.", "quantifier": "every reachable state with such a probe, every instant in the window", "why_tests_cant": "random choice of helpers over all tables, with other probes firing in the same call", "anchors": ["memberlist-proto/src/endpoint/mod.rs: advance_probe_fsm, start_indirect_probes, handle_timeout"]}
{"id": "C75", "title": "Silence is noticed", "statement": "If a probe of a member was sent and nobody entitled to answer does so in time, then whatever else happens (except that this node leaves) the first timer call at or after the probe's end leaves the member Suspect at the probed incarnation, or known at a higher one, or its departure has been reported.", "quantifier": "every reachable state, probe and subsequent history without an answer or a local leave", "why_tests_cant": "arbitrary interleavings of refutations, departures, restarts, other probes and late answers", "anchors": ["memberlist-proto/src/endpoint/mod.rs: start_probe, handle_ack, probe_terminate_failure, advance_probe_fsm, suspect_node"]}
{"id": "C76", "title": "Suspicion ends", "statement": "A suspected member is judged at the latest by the first timer call after the longest its suspicion may run: it is then known at a higher incarnation, or its departure has been reported. No confirmation, merge or repeated accusation in between can put that off.", "quantifier": "every reachable state with a suspicion, every subsequent history whose clocks do not run ahead of that call, without a local leave", "why_tests_cant": "arbitrary interleavings of confirmations and refutations over unbounded histories", "anchors": ["memberlist-proto/src/endpoint/mod.rs: suspect_node, fire_expired_suspicions, dead_node", "memberlist-proto/src/suspicion/mod.rs: confirm"]}
{"id": "C77", "title": "User data is delivered exactly once and in order", "statement": "User datagrams, user stream messages and the application part of accepted push/pull exchanges are delivered by poll_event exactly once each, unaltered and in the order in which they arrived; no membership traffic, timer, leave or other call loses, duplicates or reorders them, and a node that has left accepts no more.", "quantifier": "every reachable state and every sequence of calls", "why_tests_cant": "the event queue is shared with membership and dial events, filtered on leave, and fed by every entry point; only an argument over all interleavings covers it", "anchors": ["memberlist-proto/src/endpoint/mod.rs: handle_packet, handle_stream_event, poll_event, requeue_event, leave_with"]}
{"id": "C78", "title": "A relay request is carried out exactly once", "statement": "A request to probe a third node pings that node once, in the relay's own name, under a number in use nowhere, and remembers whom to answer and until when; or tells the requester at once if the ping does not fit; it is ignored altogether if its source address is not the one it came from, the relay limit is reached or the same request is already pending. Membership is untouched.", "quantifier": "every reachable state, source, target, number and time", "why_tests_cant": "depends on every combination of pending relays, probes and pings sharing one number space", "anchors": ["memberlist-proto/src/endpoint/mod.rs: handle_indirect_ping, alloc_seq"]}
{"id": "C79", "title": "Every application ping has exactly one outcome", "statement": "An accepted ping call sends one ping and is later reported exactly once: completed, with the measured time and payload, at the first ack under its number from the address pinged (or over the reliable path) before the deadline; failed, at the first call at or after the deadline that concerns it, at the latest the next timer call. This holds while the node is running; a ping pending when the node leaves is never reported (proved as a finding).", "quantifier": "every reachable state, target, time and subsequent history", "why_tests_cant": "all interleavings of answers, impostors, nacks, other probes under other numbers, polls and timers", "anchors": ["memberlist-proto/src/endpoint/mod.rs: ping, handle_ack, complete_probe_success, probe_terminate_failure, advance_probe_fsm, leave_with"]}
{"id": "C80", "title": "Periodic work starts within one interval", "statement": "Starting the schedules gives probing, gossip and push/pull, as far as they are switched on, a first deadline at least now and less than one interval later; those switched off stay as they are.", "quantifier": "every running state, time, configuration and random stream", "why_tests_cant": "the first deadline is random; the claim is for every draw and every interval", "anchors": ["memberlist-proto/src/endpoint/mod.rs: start_scheduling, random_stagger"]}
{"id": "C81", "title": "Payload limits are enforced when the payload is set", "statement": "An ack payload is accepted exactly if the largest ack carrying it fits the gossip MTU, and from then on every answer of this node to a ping fits; a snapshot is accepted exactly if it leaves the reserve free in a frame. Acks passed on for others are not checked (proved as a finding).", "quantifier": "every reachable state, payload, ping and sequence number", "why_tests_cant": "sizes depend on varint lengths of every number and payload; the relay path needs a particular three-party history", "anchors": ["memberlist-proto/src/endpoint/mod.rs: set_ack_payload, handle_ping, handle_ack, set_local_state_snapshot, local_state_snapshot_overage"]}
{"id": "C82", "title": "Ids and addresses survive their encoding", "statement": "For every built-in id or address type (strings, byte strings, fixed arrays, integers of every width, bool, char, floats, IP and socket addresses, and pairs of these nested to any depth): a value encodes into exactly the announced number of bytes, fails on any smaller buffer, and decodes back to itself; distinct values have distinct encodings; any accepted byte string denotes a legal value that re-encodes and decodes back to itself; bytes after a self-delimiting value are rejected; an IPv6 socket address with flow info or scope id is refused rather than silently altered. Hence messages built over any such id and address types are faithful.", "quantifier": "every type of the family (by induction over types), every value, every input byte string, every buffer size", "why_tests_cant": "the type family is infinite (nested pairs) and so are the values; injectivity compares all pairs of values", "anchors": ["memberlist-proto/src/data/mod.rs: Data, DataRef, length-delimited helpers", "memberlist-proto/src/data/primitives.rs", "memberlist-proto/src/data/tuple.rs", "memberlist-proto/src/bridge/mod.rs:46-72"]}
{"id": "C83", "title": "Pairs decode in any field order and fail safely", "statement": "The two fields of a pair may come in either order with any number of well-formed unknown fields before, between and after; every strict prefix of an encoding is rejected; a repeated field is rejected; and a value ending before the declared length of its field is rejected, so the leftover bytes are never taken for another field.", "quantifier": "every pair of types, every values, every list of unknown fields, every cut position and every surplus", "why_tests_cant": "needs arbitrary interleavings of unknown fields of every wire type, and every truncation point of every value", "anchors": ["memberlist-proto/src/data/tuple.rs: Data for (A, B), DataRef for (A, B)", "memberlist-proto/src/data/mod.rs: skip, decode_length_delimited", "memberlist-proto/src/wire_type.rs"]}
{"id": "C84", "title": "Every member is probed, so every crash is noticed", "statement": "However the table is reshuffled and whoever joins, leaves or dies meanwhile, a member that stays in the table and is not dead or gone is asked by a direct probe before the probe timer has fired 2M-1 times, M bounding the table size. If nobody answers that probe in time, the first timer call after the longest a probe may take leaves the member suspected at the incarnation it was known by, known at a higher one, or reported gone.", "quantifier": "all configurations, reachable running states, members, and call histories in which this node neither leaves nor is asked to reshuffle by hand; all random choices", "why_tests_cant": "A test runs one schedule with one shuffle; the claim is over every interleaving of joins (inserted at random offsets behind or ahead of the cursor), deaths, pruning and reshuffles, and gives a bound on the number of periods that depends only on the table size.", "anchors": ["memberlist-proto/src/endpoint/mod.rs:2830-2990", "memberlist-proto/src/endpoint/mod.rs:4368-4387", "memberlist-proto/src/endpoint/mod.rs:4654-4704"]}
{"id": "C85", "title": "Nothing a peer says on a reliable stream is acted on before its stream ends", "statement": "Through any calls of a driver, a request, reply, ack or message received on a reliable stream reaches the membership core only for a connection on which the driver has reported the end of the peer's stream. Until then a complete request changes nothing and draws no answer.", "quantifier": "all configurations, new nodes, and finite histories of driver calls, in any order and with any arguments, chunking of bytes and random nonces", "why_tests_cant": "A test feeds one chunking. The claim covers every split of the bytes, every interleaving with other connections, timers, key changes and leaving.", "anchors": ["memberlist-proto/src/streams/bridge.rs", "memberlist-proto/src/streams/mod.rs:1665-1980", "memberlist-proto/src/streams/mod.rs:2324-2360"]}
{"id": "C86", "title": "One pump takes all a stream has to send", "statement": "After one poll of a stream's outgoing bytes a second poll at the same time gives nothing and changes nothing, so a bridge never has to be pumped twice in one turn.", "quantifier": "all stream states and times", "why_tests_cant": "A test checks the states it reaches; the claim is over every phase, buffer and deadline.", "anchors": ["memberlist-proto/src/stream/mod.rs", "memberlist-proto/src/streams/bridge.rs"]}
{"id": "C87", "title": "No reliable exchange outlives its deadline", "statement": "After a timer call at time t every connection still held has a deadline later than t and is not finished, and the time the coordinator asks to be woken at is no later than the deadline of any connection it holds.", "quantifier": "all configurations, new nodes, finite call histories and times", "why_tests_cant": "Stuck exchanges arise from particular interleavings of handshakes, half-closes, key changes and timers; tests time out one of them.", "anchors": ["memberlist-proto/src/streams/mod.rs:1574-1660", "memberlist-proto/src/streams/mod.rs:2207-2320", "memberlist-proto/src/streams/mod.rs:2477-2530"]}
{"id": "C88", "title": "Connection instructions come in order and bytes precede them", "statement": "For each connection the driver is told to connect at most once; its teardown instructions, in the order polled, are a prefix of: an optional shutdown of the write half followed by one close, or by one abort, or by two aborts. After any teardown instruction for a connection the driver is given neither bytes nor a connect for it.", "quantifier": "all configurations, new nodes, finite call histories and connections; connection ids are never reused", "why_tests_cant": "Actions and bytes are polled from separate queues at the driver's pace; a test fixes one polling order.", "anchors": ["memberlist-proto/src/streams/mod.rs:652-760", "memberlist-proto/src/streams/mod.rs:1665-1980", "memberlist-proto/src/streams/mod.rs:1262-1376"]}
{"id": "C89", "title": "Reports on reliable exchanges: at most one, earned, and not forgotten", "statement": "The driver sees at most one completion per exchange, apart from those it puts back itself. A completion reporting success of a push/pull or a reliable ping comes only after a reply or ack was received on that very connection, its stream ended, and was handed to the core. An exchange begun by this node that is over, while the node did not leave meanwhile, has been reported with its own peer and kind by the time the event queue is empty.", "quantifier": "all configurations, new nodes, finite call histories and exchanges", "why_tests_cant": "Missing, double or unearned completions need particular races of dial failure, loss, timeout, key change and end of stream.", "anchors": ["memberlist-proto/src/event/mod.rs:115-180", "memberlist-proto/src/streams/mod.rs:995-1060", "memberlist-proto/src/streams/mod.rs:1665-1980"]}
{"id": "C90", "title": "A node that leaves opens no connection and drops what it had begun", "statement": "After a call of leave no poll ever gives an instruction to connect, whatever is called afterwards; and no byte is given out for an outbound exchange that was live when the node left.", "quantifier": "all configurations, new nodes, call histories before and after leaving, and farewells", "why_tests_cant": "The claim ranges over everything the driver may do afterwards, including starting new exchanges and late data.", "anchors": ["memberlist-proto/src/streams/mod.rs:1512-1572", "memberlist-proto/src/streams/mod.rs:2047-2175"]}
{"id": "C91", "title": "Changing the encryption options cuts off everything older", "statement": "When the encryption options change, bytes are given out afterwards only for connections opened after the change: none encoded under the old options ever leaves. At the change datagrams received but not yet taken are dropped, queued bytes are dropped, and every live connection is failed.", "quantifier": "all configurations, new nodes, call histories before and after, old and new options", "why_tests_cant": "Old-key bytes may hide in any of four queues at the time of the change; a test inspects one.", "anchors": ["memberlist-proto/src/streams/mod.rs:1262-1376"]}
{"id": "C92", "title": "Inbound connections and waiting datagrams are bounded", "statement": "However many connections are accepted the number of inbound exchanges held never exceeds the configured limit, and the number of received datagrams held never exceeds 8192.", "quantifier": "all configurations with a limit, and all call histories", "why_tests_cant": "The limit must survive every way in which entries leave the table.", "anchors": ["memberlist-proto/src/streams/mod.rs:1981-2040", "memberlist-proto/src/streams/mod.rs:109"]}
{"id": "C93", "title": "The coordinator drives its core only through the core's own operations", "statement": "At every moment the membership core inside a stream coordinator is what the sequence of core operations it performed leads to from a new core, so every theorem on endpoints holds of it. Requests to dial never surface from its event queue, and the states its code declares impossible are not reached.", "quantifier": "all configurations, new nodes and call histories", "why_tests_cant": "A refinement between two state machines over all histories; unreachable! arms cannot be tested at all.", "anchors": ["memberlist-proto/src/streams/mod.rs:995-1060", "memberlist-proto/src/streams/mod.rs:2047-2175"]}
{"id": "C94", "title": "A lost connection or failed dial ends its exchange at once", "statement": "When the driver reports that a live connection is lost or could not be opened, the connection and its exchange are gone when the call returns and no byte is ever given out for it again.", "quantifier": "all configurations, new nodes, histories before and after, and live connections", "why_tests_cant": "Bytes already queued for the connection, and everything called later, must be considered.", "anchors": ["memberlist-proto/src/streams/mod.rs:2365-2395"]}
{"id": "C95", "title": "What a completion does not promise", "statement": "Three promises a reader may take from the documentation fail. A user message can be reported as succeeded although not one byte of it is ever given to the driver, because the peer ended its side first and the encryption options changed before the bytes were polled. A push/pull asked for after leaving gets an id, for which no connection is ever opened, and its bookkeeping entry stays. A node that has left can still give out the bytes of a message that was completed before.", "quantifier": "existence of concrete histories; the first and second for every continuation of the history", "why_tests_cant": "The fault shows only under one order of half-close, poll and key change.", "anchors": ["memberlist-proto/src/event/mod.rs:139-146", "memberlist-proto/src/streams/mod.rs:1665-1980", "memberlist-proto/src/streams/mod.rs:2407-2417"]}
{"id": "C96", "title": "With encryption on, only sealed bytes leave", "statement": "Whatever was called before, once the driver has set encryption options and not changed them since, every chunk of stream bytes the coordinator gives out is a sequence of label headers (carrying the configured label) and length-prefixed payloads sealed under the primary key of the options in force at that moment. Nothing built under earlier options, or in the clear, is given out.", "quantifier": "all configurations, starting options, histories of coordinator calls and random nonces", "why_tests_cant": "A test changes keys at one or two points of one history; the claim is over every interleaving of key changes with dials, accepts, partial reads and writes.", "anchors": ["memberlist-proto/src/streams/mod.rs:1665-1980", "memberlist-proto/src/streams/mod.rs:2407-2417", "memberlist-proto/src/streams/bridge.rs"]}
{"id": "C97", "title": "Events tell the address and metadata of every live member", "statement": "An application that only follows the events knows the cluster: for every member the table holds Alive or Suspect, the last membership event about it is a join or an update and carries the address and metadata held in the table; for every other id there is none or the last says it left. A departed name taken over from another address is announced as a join. A change of the protocol or delegate version alone is not announced, although the documentation of NodeUpdated says it is.", "quantifier": "all configurations and histories in which the driver hands back no membership event", "why_tests_cant": "Relates the whole sequence of events with the table after any history; tests compare single events.", "anchors": ["memberlist-proto/src/event/mod.rs:732-744", "memberlist-proto/src/endpoint/mod.rs:3865-4059"]}
{"id": "C98", "title": "A user message sent over a connection arrives", "statement": "A user message whose bytes (label header and transformed unit) all come in over an accepted connection, followed by the end of the stream, before the accept deadline and the stream timeout run out, is handed to the application with its sender and its exact content, exactly once, and the connection is done with. The pieces the bytes come in, and anything else the driver does meanwhile with other connections, timers, probes and polls, make no difference, unless the node leaves, changes its keys or reports the connection broken.", "quantifier": "all configurations, prior histories, messages, compression and encryption options the receiver's ring can open, cuttings of the bytes into pieces, interleaved calls and times before the deadlines", "why_tests_cant": "A test feeds a message in a few chosen pieces with nothing else going on; the claim is over every cutting and every interleaving with the rest of the coordinator.", "anchors": ["memberlist-proto/src/streams/mod.rs:1602-2363", "memberlist-proto/src/streams/bridge.rs", "memberlist-proto/src/stream/mod.rs:464-514", "memberlist-proto/src/streams/label.rs", "memberlist-proto/src/label/mod.rs"]}
{"id": "C99", "title": "A message asked to be sent over a connection is sent whole", "statement": "When a running node is asked to send a user message to a peer, or to start a push/pull or a reliable ping, then without any further input a driver that takes the pending connects, bytes and teardowns is asked for exactly one connection to that peer, under the stream id the call returned, is handed the label header and the transformed bytes of the complete message for it, and is then told to close the sending side of that connection. The push/pull carries the node's members and user data. If those bytes reach a node with the same label and keys that open them, in any pieces and before its deadlines, that node's application hears the message with its exact content.", "quantifier": "all configurations, prior histories of both nodes (in which the driver puts back no dial request), peers, messages, compression and encryption options, and all cuttings and interleavings at the receiver before its deadlines", "why_tests_cant": "A test sends from a fresh node and looks at a few bytes; the claim is over every state a node can be in, including other exchanges in any stage, and over every message.", "anchors": ["memberlist-proto/src/streams/mod.rs:1560-2467", "memberlist-proto/src/streams/bridge.rs", "memberlist-proto/src/stream/mod.rs", "memberlist-proto/src/endpoint/mod.rs", "memberlist-proto/src/streams/label.rs"]}
{"id": "C100", "title": "A push/pull takes the members of one node to the other", "statement": "When a running node starts a push/pull with a peer, the bytes it hands the driver carry exactly the members and the user data it has at that moment. If those bytes reach a node with the same label and with keys that open them, in any pieces and before its deadlines, among any other calls that leave this connection alone, then the endpoint of that node takes in one push/pull request, from that address, with exactly those members, that user data and that join flag, as one step of its own history; nothing else about this connection but its closing is told to it, and the connection is gone afterwards.", "quantifier": "all configurations, prior histories of both nodes (in which the driver of the sender puts back no dial request), peers, member tables and user data that fit the codec and the frame limit, compression and encryption options, and all cuttings and interleavings at the receiver before its deadlines", "why_tests_cant": "A test exchanges a few members between two fresh nodes; the claim is over every table, every state of both nodes, every cutting of the bytes and every interleaving with other exchanges.", "anchors": ["memberlist-proto/src/streams/mod.rs:1560-2467", "memberlist-proto/src/streams/bridge.rs", "memberlist-proto/src/stream/mod.rs", "memberlist-proto/src/endpoint/mod.rs", "memberlist-proto/src/streams/label.rs"]}
{"id": "C101", "title": "After a push/pull the other node knows the members of the first", "statement": "When a running node merges a list of members in which each appears once, then for every entry that is listed as alive, is not the node itself, is admitted by the application and is not known at another address, and with room in the table for the list, the node has a record of that member afterwards, at the listed address and at no lower incarnation; unless it knew the member at the listed or a higher incarnation before, in which case nothing changes, the record is alive with exactly the listed incarnation, metadata and versions, and without suspicion, whatever else is in the list. The same holds for the endpoint that takes in a push/pull request or reply its merge delegate admits, and so, for a push/pull whose bytes arrive in time, from every member alive in the table of the sender to the table of the receiver.", "quantifier": "all configurations, histories, lists in any order with other entries in any state, members, and for the whole way all histories of both nodes, options, cuttings and interleavings", "why_tests_cant": "A test merges a few lists into a few tables; other entries of the list may change the table, the life cycle, the cap or the node itself before and after the entry in question, and only a proof covers all of them.", "anchors": ["memberlist-proto/src/endpoint/mod.rs:4070-4106", "memberlist-proto/src/endpoint/mod.rs:3828-4059", "memberlist-proto/src/endpoint/mod.rs:4724-4837"]}
{"id": "C102", "title": "A push/pull tells of suspicions and departures, and nothing of the unlisted", "statement": "When a running node merges a list of members in which each appears once, then a member it has as alive that the list has as suspect or dead, at the incarnation the node knows or a newer one, is suspect afterwards at the listed incarnation, with a suspicion timer running and its address and metadata as before; a member it has as alive or suspect that the list has as having left, at such an incarnation, is dead afterwards, without a timer; and no record of a member that is not in the list changes, apart from that of the node itself. All this whatever else is in the list, and in whatever order.", "quantifier": "all configurations, histories, lists in any order with any other entries, members and incarnations", "why_tests_cant": "A test merges a few lists into a few tables; the claim is for every list, every table and every position of an entry in the list.", "anchors": ["memberlist-proto/src/endpoint/mod.rs:4070-4106", "memberlist-proto/src/endpoint/mod.rs:1677-1881"]}
{"id": "C103", "title": "The same push/pull again changes nothing", "statement": "When a running node merges the same list of members, each appearing once, a second time, no record of any member but its own changes: no incarnation, state, address, metadata or suspicion timer, and nobody is added. This holds for the second merge at any time when names of dead members are never taken over after a while (dead-node reclaim time zero), and otherwise for a second merge at the same moment.", "quantifier": "all configurations, histories, lists with entries in any state and order, members and times", "why_tests_cant": "A test repeats a few lists; a repeated entry may count as a second confirmation of a suspicion, as a fresh join, a takeover or a death depending on the record the first one left, and only a proof covers all combinations.", "anchors": ["memberlist-proto/src/endpoint/mod.rs:4070-4106", "memberlist-proto/src/endpoint/mod.rs:1677-1881", "memberlist-proto/src/endpoint/mod.rs:3828-4059", "memberlist-proto/src/suspicion/mod.rs:133-146"]}
