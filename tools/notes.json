{
 "C15": {
  "note": "Finding: keys are named by bytes only, so a secondary sharing its 32 bytes with a primary of the other cipher can be neither promoted nor removed (C15_named_key_promoted_refuted)."
 },
 "C59": {
  "note": "Finding: an unlabelled endpoint accepts labelled streams and surfaces the header bytes (C59_unlabelled_stream_isolation_refuted); the other three cases of the label matrix are proved."
 },
 "C60": {
  "note": "Finding: the sender budgets the frame without its label header, the receiver counts both against the same MTU (C60_frame_within_mtu_delivered_refuted). Proved for unlabelled nodes, and for labelled nodes when header and frame together fit (C13_gossip_roundtrip)."
 },
 "C16": {
  "note": "Finding: networks are compared with their host bits, so removing 10.0.0.0/8 does not remove an entry listed as 10.1.2.3/8 (C16_removed_network_blocked_refuted)."
 },
 "C17": {
  "note": "Finding: at the overflow edge a sicker node gets the unscaled timeout, so scaling is not monotone in the score there (C17_scale_monotone_refuted)."
 },
 "C18": {
  "note": "The floating-point formula is an oracle constrained by lg_ok, which is proved of the exact real formula (C19_meets_timer_assumptions). Findings: an accusation processed after the deadline passed moves it later (C18_only_shortens_refuted); a min with a sub-millisecond part is undercut (C18_submillisecond_min_refuted)."
 },
 "C19": {
  "note": "About the exact real formula; f64 rounding is not modelled. Uses the axioms of Coq's Reals library."
 },
 "C27": {
  "note": "Finding: an accusation at u32::MAX makes the node's own incarnation wrap to 0 (C27_local_incarnation_monotone_refuted). Histories are bounded by 2^64 operations (generation counter)."
 },
 "C30": {
  "note": "Finding: at u32::MAX the refutation wraps to incarnation 0 and is stale for every peer (C30_refutes_any_accusation_refuted). Histories are bounded by 2^64 operations (broadcast ids)."
 },
 "C58": {
  "note": "The version is a wrapping u64: two observations less than 2^64 elementary changes apart. Last-change times are not part of the view (age_member changes them without a new version)."
 },
 "C37": {
  "note": "A late ack from an admissible source is not ignored: it fails the probe at once (C37_late_ack_fails); the statement says so."
 },
 "C39": {
  "note": "C39_newly_suspect gives the causes of a new suspicion for every driver call; C39_probe_history traces the probe back to the operation that started it and to the ping, indirect ping or dial that was queued for it."
 },
 "C44": {
  "note": "For every encoder meeting `sizes` (user data adds at most 8 bytes, the farewell is no longer than the largest ping). Acks and nacks are not bounded by the MTU in the code when they carry a relayed payload; they are exempt here. C44_datagrams_fit_on_the_wire instantiates the size assumptions with the real encoder."
 },
 "C45": {
  "note": "C45_farewell_carried is the claim for the real message encoder, for every payload within the capacity that is at most 16380 bytes or two bytes below the capacity. C45_farewell_capacity_refuted: for longer payloads the advertised capacity is up to two bytes too large (the 11-byte overhead constant assumes two-byte length prefixes); the farewell is then silently dropped. C45_farewell_carried_if_small_overhead is the same for any encoder."
 },
 "C48": {
  "note": "For an unchanged table. Finding: exactly once between two reshuffles is false (C48_exactly_once_refuted)."
 },
 "C55": {
  "note": "Finding: on overflow the scale falls back to the unscaled interval (C55_monotone_refuted). log2 is exact here, f64 in the code."
 },
 "C06": {
  "note": "The buffa-generated protobuf code is modelled from the protobuf specification and messages.proto (trusted base). Generic in the id and address codecs, which must read back what they write (wf_codec; proved for the crate's Data implementations in PropsData when present)."
 },
 "C51": {
  "note": "All calls of the stream in any order; exactly-once reporting assumes the driver does not call discard_pending_events. A closed exchange can still turn failed (data after the end), so Closed can be followed by one Failed."
 },
 "C52": {
  "note": "Buffer bound for every run; plus a bound of twice the maximum on everything a non-failed exchange ever took in."
 },
 "C53": {
  "note": "The driver contract used: a response is loaded at most once and only after a push/pull request of this stream was polled (handle_stream_event returns the send command for that event only)."
 },
 "C54": {
  "note": "An event decoded before the deadline and not yet polled can still be polled after it as long as no call noticed the deadline."
 },
 "C64": {
  "note": "Proved for one whole frame; for bytes following the frame the cutting matters: C64_trailing_bytes_refuted is a witness (finding)."
 },
 "C65": {
  "note": "Composes the message round trip (C06), the probe (C03) and both stream machines; ids and addresses through any wf_codec."
 },
 "C50": {
  "note": "Findings: a suspicion raises the recorded incarnation without the metadata that goes with it, after which the announcement carrying that metadata is ignored as old (C50_suspect_metadata_refuted; healed only by the next refutation); the u32 wrap puts a node below what others know of it (C50_wrap_refuted). The network holds messages, not bytes (C06 and C65 relate the two); nodes are not restarted."
 },
 "C67": {
  "note": "Finding: C67_metadata_is_announced_refuted. The gossip MTU may be as low as 512 while meta_max_size defaults to 512: accepted metadata near the limit is never announced; it spreads only by push/pull."
 },
 "C69": {
  "note": "Finding: C69_once_is_enough_refuted: suspicions are looked at before failed probes confirm them, so one call may leave a suspicion due."
 },
 "C71": {
  "note": "Finding: C71_answer_always_fresh_refuted: the answer to a push/pull request is the one cached at the last timer call, so a member that joined since is left out."
 },
 "C68": {
  "note": "The shortest and longest timeouts are an oracle argument (c_sto); their computation is modelled and bounded in C17-C19."
 },
 "C72": {
  "note": "Sizes of identifiers and addresses are assumed encodable (sizes C), as in C44."
 },
 "C76": {
  "note": "The bound on confirmed deadlines (c_lg n k min max <= max in ms, min <= max) is a hypothesis on the configured formula; C18/C19 relate it to the code's."
 },
 "C75": {
  "note": "Departure reports are counted over events delivered to the application and still pending; events handed back by the driver (ERequeue) are discounted."
 },
 "C77": {
  "note": "Events put back by the application with requeue_event count as arriving again."
 },
 "C78": {
  "note": "Encoding failures are not modelled. What happens to the relay afterwards is C41."
 },
 "C79": {
  "note": "C79_outcome_after_leave_refuted / C79_forgotten_on_leave: a ping pending when leave is called never gets an outcome (leave_with keeps the probe table but every path that ends a probe is gated on running). Numbers are reused only after the 32-bit counter wraps and never while in flight."
 },
 "C80": {
  "note": "Intervals of at most 2^64-1 nanoseconds (the code truncates longer ones)."
 },
 "C81": {
  "note": "C81_relayed_acks_refuted: handle_ack relays a payload of any size, so the datagram can exceed the MTU. The snapshot part states the accept condition exactly; the member states that share the frame are not bounded by it."
 },
 "C95": {
  "note": "Finding: three refutations with witnesses (C95_*_refuted); the first two hold for every continuation of the history."
 },
 "C88": {
  "note": "Finding: two aborts for one connection are possible (C91_case exhibits it); the theorem lists every order that can occur."
 },
 "C97": {
  "note": "Finding: event/mod.rs:739 says a version change is announced; it is not (C97_version_change_is_told_refuted). event/mod.rs:741-743 says a takeover emits NodeUpdated; it emits NodeJoined (C97_takeover_is_a_join)."
 },
 "C28": {
  "note": "The pruning exception is real: C28_pruning_forgets shows a member dead at incarnation 9 readmitted at 3."
 }
}