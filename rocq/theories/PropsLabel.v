(** Properties C08-C10, C59: cluster labels. *)
From Verif Require Import Base BaseFacts CodecModel CodecFacts LabelModel LabelSpec LabelFacts.
Local Open Scope N_scope.

(** C08: which datagrams a node accepts, for every configured label: with
    label [l], exactly the non-empty payloads behind the header of [l]; with
    none, exactly the non-empty datagrams that do not start with a label
    header. *)
Theorem C08_datagram_accepted_iff : forall raw label inner,
  match effective_label label with Some l => valid_label l | None => True end ->
  decode_incoming raw label = Ok inner <->
  (inner <> [] /\ match effective_label label with
                  | Some l => raw = header l ++ inner
                  | None => raw = inner /\ hd 0 raw <> 12
                  end).
Proof. exact decode_incoming_iff. Qed.
Print Assumptions C08_datagram_accepted_iff.
Example C08_datagram_accepted_iff_ex :
  valid_label [97; 98] /\ decode_incoming [12; 2; 97; 98; 6; 0] (Some [97; 98]) = Ok [6; 0] /\
  decode_incoming [12; 2; 97; 98; 6; 0] None = Err (CLabel LDoubleLabel) /\
  decode_incoming [12; 2; 97; 98; 6; 0] (Some [97]) = Err (CLabel LMismatch) /\
  decode_incoming [6; 0] (Some [97]) = Err (CLabel LMismatch).
Proof.
  split; [|repeat split]. repeat split; try discriminate; try (vm_compute; congruence).
  repeat constructor.
Qed.

(** C08: sender against receiver, for every pair of configurations (absent,
    empty, equal, different, prefix-related): the payload arrives unchanged
    exactly when the effective labels are equal. *)
Theorem C08_datagram_label_matrix : forall sender receiver inner raw,
  wf_bytes (match sender with Some l => l | None => [] end) ->
  wrap_label inner sender = Ok raw -> inner <> [] -> hd 0 inner <> 12 ->
  decode_incoming raw receiver =
    if match effective_label sender, effective_label receiver with
       | None, None => true
       | Some a, Some b => bytes_eqb b a
       | _, _ => false
       end
    then Ok inner
    else match effective_label sender, effective_label receiver with
         | Some _, None => Err (CLabel LDoubleLabel)
         | _, _ => Err (CLabel LMismatch)
         end.
Proof. exact datagram_label_matrix. Qed.
Print Assumptions C08_datagram_label_matrix.
Example C08_datagram_label_matrix_ex :
  wrap_label [6; 0] (Some [97; 98]) = Ok [12; 2; 97; 98; 6; 0] /\ hd 0 [6; 0] <> 12 /\
  effective_label (Some []) = None /\ bytes_eqb [97] [97; 98] = false.
Proof. repeat split. discriminate. Qed.

(** C08: the frames nodes exchange never look like a label header, so the
    side condition above holds for all real traffic. *)
Theorem C08_frames_are_not_labels : forall t body f,
  encode_plain_frame t body = Ok f -> f <> [] /\ hd 0 f <> 12.
Proof. exact plain_frame_not_label. Qed.
Print Assumptions C08_frames_are_not_labels.
Example C08_frames_are_not_labels_ex : encode_plain_frame TPushPull [1] = Ok [8; 1; 1].
Proof. reflexivity. Qed.
Theorem C08_compounds_are_not_labels : forall parts f,
  encode_compound parts = Ok f -> f <> [] /\ hd 0 f <> 12.
Proof. exact compound_not_label. Qed.
Print Assumptions C08_compounds_are_not_labels.
Example C08_compounds_are_not_labels_ex : encode_compound [[8; 0]; [9; 0]] = Ok [1; 2; 2; 8; 0; 2; 9; 0].
Proof. reflexivity. Qed.

(** C59: a labelled endpoint of a stream delivers application bytes only if
    the stream began with exactly its label (and then exactly the bytes after
    the header), or, with the check skipped, if it began with no label. *)
Theorem C59_stream_delivery_implies_label : forall mk l skip ops,
  valid_label l -> mk = rl_dialer \/ mk = rl_acceptor ->
  let st := rl_run (rl_start (mk (Some l) skip)) ops in
  delivered st <> [] ->
  rs_failed st = false /\
  (fed ops = header l ++ delivered st \/
   (skip = true /\ fed ops = delivered st /\ hd 0 (fed ops) <> 12)).
Proof. exact stream_delivers_labelled. Qed.
Print Assumptions C59_stream_delivery_implies_label.
Example C59_stream_delivery_implies_label_ex :
  delivered (rl_run (rl_start (rl_acceptor (Some [97]) false)) [OFeed [12]; OFeed [1; 97; 5]; OFeed [6]]) = [5; 6].
Proof. reflexivity. Qed.

(** C59: a matching stream is accepted and its payload delivered. *)
Theorem C59_stream_matching_accepted : forall mk l skip ops payload,
  valid_label l -> mk = rl_dialer \/ mk = rl_acceptor -> fed ops = header l ++ payload ->
  let st := rl_run (rl_start (mk (Some l) skip)) ops in
  rs_failed st = false /\ delivered st = payload.
Proof. exact stream_accepts_matching. Qed.
Print Assumptions C59_stream_matching_accepted.
Example C59_stream_matching_accepted_ex : fed [OFeed [12]; ORead; OFeed [1; 97; 5]] = header [97] ++ [5].
Proof. reflexivity. Qed.

(** C59: a stream labelled for another cluster fails, whatever the skip flag. *)
Theorem C59_stream_other_label_rejected : forall mk l l' skip ops payload,
  valid_label l -> valid_label l' -> l <> l' -> mk = rl_dialer \/ mk = rl_acceptor ->
  fed ops = header l' ++ payload ->
  let st := rl_run (rl_start (mk (Some l) skip)) ops in
  rs_failed st = true /\ delivered st = [].
Proof. exact stream_rejects_other. Qed.
Print Assumptions C59_stream_other_label_rejected.
Example C59_stream_other_label_rejected_ex :
  valid_label [97; 98] /\ valid_label [97] /\ [97; 98] <> [97].
Proof. repeat split; try discriminate; try (vm_compute; congruence); repeat constructor. Qed.

(** C59: without the skip flag an unlabelled stream fails at a labelled node. *)
Theorem C59_stream_unlabelled_rejected : forall mk l ops,
  valid_label l -> mk = rl_dialer \/ mk = rl_acceptor -> fed ops <> [] -> hd 0 (fed ops) <> 12 ->
  let st := rl_run (rl_start (mk (Some l) false)) ops in
  rs_failed st = true /\ delivered st = [].
Proof. exact stream_rejects_unlabelled. Qed.
Print Assumptions C59_stream_unlabelled_rejected.
Example C59_stream_unlabelled_rejected_ex : fed [OFeed [5]; OFeed [12]] <> [] /\ hd 0 (fed [OFeed [5]; OFeed [12]]) <> 12.
Proof. split; discriminate. Qed.

(** C59, finding: the claim "an unlabelled node never accepts labelled
    traffic" is false on streams.  An unlabelled endpoint surfaces every byte
    of a labelled stream, header included, and never fails it
    (streams/label.rs:258-275 says so deliberately). *)
Theorem C59_unlabelled_stream_isolation_refuted :
  exists l payload, valid_label l /\ payload <> [] /\
    (let st := rl_run (rl_start (rl_acceptor None false)) [OFeed (header l ++ payload)] in
     rs_failed st = false /\ delivered st = header l ++ payload).
Proof. exact unlabelled_stream_accepts_witness. Qed.
Print Assumptions C59_unlabelled_stream_isolation_refuted.
(** C59: what holds instead: an unlabelled endpoint is a transparent pipe. *)
Theorem C59_unlabelled_stream_transparent : forall mk skip ops,
  mk = rl_dialer \/ mk = rl_acceptor ->
  let st := rl_run (rl_start (mk None skip)) ops in
  rs_failed st = false /\ delivered st = fed ops.
Proof. exact stream_unlabelled_passthrough. Qed.
Print Assumptions C59_unlabelled_stream_transparent.
Example C59_unlabelled_stream_transparent_ex :
  delivered (rl_run (rl_start (rl_dialer None true)) [OFeed [12; 0]; ORead; OFeed [9]]) = [12; 0; 9].
Proof. reflexivity. Qed.

(** C09: the outcome depends only on the bytes fed, not on how they are cut
    nor on what reads, writes and transmits are interleaved. *)
Theorem C09_chunking_independent : forall mk label skip ops1 ops2,
  mk = rl_dialer \/ mk = rl_acceptor -> fed ops1 = fed ops2 ->
  let st1 := rl_run (rl_start (mk label skip)) ops1 in
  let st2 := rl_run (rl_start (mk label skip)) ops2 in
  rs_failed st1 = rs_failed st2 /\ delivered st1 = delivered st2.
Proof. exact chunking_independent. Qed.
Print Assumptions C09_chunking_independent.
Example C09_chunking_independent_ex :
  fed [OFeed [12; 1; 97; 5; 6]] = fed [OFeed [12]; ORead; OFeed [1]; OFeed []; OWrite [3]; OFeed [97; 5]; OTransmit; OFeed [6]].
Proof. reflexivity. Qed.

(** C09: at most 254 bytes are ever held back while a stream is undecided or
    accepted (one less than a maximal header). *)
Theorem C09_buffer_bounded : forall mk label skip ops,
  mk = rl_dialer \/ mk = rl_acceptor ->
  let st := rl_run (rl_start (mk label skip)) ops in
  rs_failed st = false -> blen (held_back st) <= 254.
Proof. exact stream_buffer_bounded. Qed.
Print Assumptions C09_buffer_bounded.
Example C09_buffer_bounded_ex :
  let st := rl_run (rl_start (rl_acceptor (Some [97]) false)) [OFeed [12; 1]] in
  rs_failed st = false /\ held_back st = [12; 1].
Proof. split; reflexivity. Qed.

(** C10: a dialer's label precedes everything it writes, exactly once. *)
Theorem C10_dialer_label_first : forall l skip ops, valid_label l -> no_clear ops ->
  sent (rl_run (rl_start (rl_dialer (Some l) skip)) ops) = header l ++ written ops.
Proof. exact dialer_label_first. Qed.
Print Assumptions C10_dialer_label_first.
Example C10_dialer_label_first_ex :
  sent (rl_run (rl_start (rl_dialer (Some [97]) false)) [OTransmit; OWrite [5]; OFeed [12; 1; 97]; OWrite [6]]) = [12; 1; 97; 5; 6].
Proof. reflexivity. Qed.

(** C10: until the peer's label is accepted, an acceptor sends nothing of its
    own label: only what its user wrote. *)
Theorem C10_acceptor_silent_until_validated : forall l skip ops, valid_label l -> no_clear ops ->
  (forall n, classify_header (fed ops) (Some l) skip <> VAccepted n) ->
  sent (rl_run (rl_start (rl_acceptor (Some l) skip)) ops) = written ops.
Proof. exact acceptor_silent. Qed.
Print Assumptions C10_acceptor_silent_until_validated.
Example C10_acceptor_silent_until_validated_ex :
  forall n, classify_header (fed [OFeed [12; 1]]) (Some [97]) false <> VAccepted n.
Proof. intros n. vm_compute. discriminate. Qed.

(** C10: once it is accepted, the label is sent exactly once. *)
Theorem C10_acceptor_label_once : forall l skip ops, valid_label l -> no_clear ops ->
  (exists n, classify_header (fed ops) (Some l) skip = VAccepted n) ->
  exists w1 w2, written ops = w1 ++ w2 /\
    sent (rl_run (rl_start (rl_acceptor (Some l) skip)) ops) = w1 ++ header l ++ w2.
Proof. exact acceptor_once. Qed.
Print Assumptions C10_acceptor_label_once.
Example C10_acceptor_label_once_ex :
  exists n, classify_header (fed [OFeed [12; 1]; OFeed [97; 3]]) (Some [97]) false = VAccepted n.
Proof. exists 3. reflexivity. Qed.

(** C10: if its user waits for the handshake to end before writing, as the
    bridge does, an acceptor sends nothing at all before validation and its
    label first after it. *)
Theorem C10_acceptor_handshake : forall l skip ops, valid_label l -> no_clear ops ->
  disciplined (rl_start (rl_acceptor (Some l) skip)) ops ->
  let st := rl_run (rl_start (rl_acceptor (Some l) skip)) ops in
  sent st = if rl_is_handshaking (rs_layer st) then [] else header l ++ written ops.
Proof. exact acceptor_disciplined. Qed.
Print Assumptions C10_acceptor_handshake.
Example C10_acceptor_handshake_ex :
  disciplined (rl_start (rl_acceptor (Some [97]) false)) [OFeed [12; 1]; OTransmit; OFeed [97; 3]; OWrite [7]].
Proof. cbn. auto 10. Qed.

(** C10: after a failed exchange is retired ([OClear]) nothing pending, label
    included, reaches the wire. *)
Theorem C10_failed_exchange_reveals_nothing : forall ops st, rs_failed st = true ->
  sent (rl_run (rl_step st OClear) ops) = rs_wire st ++ written ops \/ In OClear ops.
Proof. exact cleared_failed_reveals_nothing. Qed.
Print Assumptions C10_failed_exchange_reveals_nothing.
Example C10_failed_exchange_reveals_nothing_ex :
  rs_failed (rl_run (rl_start (rl_dialer (Some [97]) false)) [OFeed [12; 1; 98]]) = true /\
  sent (rl_step (rl_run (rl_start (rl_dialer (Some [97]) false)) [OFeed [12; 1; 98]]) OClear) = [].
Proof. split; reflexivity. Qed.
