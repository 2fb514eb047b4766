(** Properties C11-C14, C60: transform wrappers, reliable units, gossip
    datagrams.  The external hash, compression and cipher functions are the
    argument [B]; assumptions on them are explicit hypotheses ([wf_backends],
    [lossless], [aead_correct]); [toy] is a concrete instance meeting all. *)
From Verif Require Import Base BaseFacts CodecModel CodecSpec CodecFacts LabelModel LabelSpec KeyringModel TransformModel
  TransformSpec TransformFacts TransformToy.
Local Open Scope N_scope.

Definition tk_a := Aes128 (repeat 1 16).
Definition tk_b := ChaChaKey (repeat 2 32).
Definition tk_c := Aes256 (repeat 3 32).
(** Sender writes with [tk_b]; receiver's primary is [tk_a] and it still
    accepts [tk_b]. *)
Definition tr_s := mkRing tk_b [tk_a].
Definition tr_r := mkRing tk_a [tk_c; tk_b].
Definition tnonce : bytes := repeat 9 12.
Definition tframe : bytes := [6] ++ repeat 0 20 ++ [5].
Definition zframe : bytes := repeat 0 20 ++ [5].

(** C11: exactly the canonical nesting is accepted, with the plaintext it
    holds. *)
Theorem C11_only_canonical : forall B max buf pt, wf_backends B -> wf_bytes buf -> max <= u32_max ->
  unwrap_transforms B max buf = Ok pt <-> canonical B max buf pt.
Proof. exact unwrap_iff. Qed.
Print Assumptions C11_only_canonical.
Example C11_only_canonical_ex :
  unwrap_transforms toy 100 [15; 1; 0; 0; 0; 1; 14; 23; 2; 9; 7] = Err TxSumMismatch /\
  unwrap_transforms toy 100 [15; 1; 0; 0; 0; 47; 14; 23; 2; 0; 6; 2] = Ok [6; 2] /\
  unwrap_transforms toy 1 [15; 1; 0; 0; 0; 47; 14; 23; 2; 0; 6; 2] = Err (TxCompOversize 2 1) /\
  unwrap_transforms toy 100 [14; 23; 7; 0; 15; 1; 0; 0; 0; 6; 6] = Err TxNonCanonical.
Proof. repeat split. Qed.

(** C11: with the keyring-aware entry point and no ring configured, the same;
    with a ring, the canonical nesting sits inside one encrypted frame. *)
Theorem C11_encrypted_only_canonical : forall B kr max buf pt,
  wf_backends B -> max <= u32_max ->
  unwrap_with_encryption B (Some kr) max buf = Ok pt ->
  exists dec, authenticated B kr buf dec /\ canonical B max dec pt.
Proof.
  intros B kr max buf pt HB Hm U. apply unwrap_enc_some in U as (dec & A & U & _).
  exists dec. split; [exact A|]. apply unwrap_iff in U; try assumption.
  destruct A as (k & nonce & ct & _ & _ & _ & O). destruct HB as (_ & _ & _ & HO). eapply HO, O.
Qed.
Print Assumptions C11_encrypted_only_canonical.
Example C11_encrypted_only_canonical_ex :
  exists buf, encrypt_payload toy (Some tr_s) (Some tnonce) [14; 23; 2; 0; 6; 2] = Ok buf /\
    unwrap_with_encryption toy (Some tr_r) 2 buf = Ok [6; 2].
Proof. eexists. split; reflexivity. Qed.

(** C11: the unwrap loop always terminates: its model never runs out of fuel. *)
Theorem C11_terminates : forall B max buf, unwrap_transforms B max buf <> Err TxFuel.
Proof. exact unwrap_no_fuel. Qed.
Print Assumptions C11_terminates.
Example C11_terminates_ex : unwrap_transforms toy 100 [15; 1; 0; 0; 0; 46; 15; 1; 0; 0; 0; 15; 13; 2] = Err TxNonCanonical.
Proof. reflexivity. Qed.

(** C11: the output is never a wrapper and never longer than the ceiling,
    whatever the backends do and whatever the ring. *)
Theorem C11_output_bounded : forall B kr max buf pt,
  unwrap_with_encryption B kr max buf = Ok pt -> plain_bytes pt /\ blen pt <= max.
Proof. exact unwrap_enc_out. Qed.
Print Assumptions C11_output_bounded.
Example C11_output_bounded_ex :
  unwrap_with_encryption toy None 3 [6; 1; 1] = Ok [6; 1; 1] /\
  unwrap_with_encryption toy None 2 [6; 1; 1] = Err (TxOversizePlaintext 3).
Proof. split; reflexivity. Qed.

(** C12: with a ring configured, plaintext comes out of a datagram only if an
    encrypted frame opened under a ring key of the algorithm on the wire. *)
Theorem C12_datagram_authenticated : forall B kr max buf pt,
  unwrap_with_encryption B (Some kr) max buf = Ok pt ->
  exists dec, authenticated B kr buf dec /\ unwrap_transforms B max dec = Ok pt /\ blen buf <= max + 40.
Proof. exact unwrap_enc_some. Qed.
Print Assumptions C12_datagram_authenticated.
Example C12_datagram_authenticated_ex :
  exists buf, encrypt_payload toy (Some tr_s) (Some tnonce) tframe = Ok buf /\
    unwrap_with_encryption toy (Some tr_r) 50 buf = Ok tframe /\
    unwrap_with_encryption toy (Some (mkRing tk_a [tk_c])) 50 buf = Err TxNoMatchingKey /\
    unwrap_with_encryption toy (Some tr_r) 50 tframe = Err TxEncryptionRequired.
Proof. eexists. repeat split. Qed.

(** C12: the same for a reliable unit taken off a stream. *)
Theorem C12_unit_authenticated : forall B kr max buf pt n, wf_bytes buf ->
  take_reliable_unit B (Some kr) max buf = Ok (Some (pt, n)) ->
  exists len body rest dec, buf = len ++ body ++ rest /\ n = blen len + blen body /\
    authenticated B kr body dec /\ unwrap_transforms B max dec = Ok pt.
Proof. exact unit_authenticated. Qed.
Print Assumptions C12_unit_authenticated.
Example C12_unit_authenticated_ex :
  exists u, encode_reliable_unit toy (mkComp (Some 23) 0) (Some tr_s) (Some tnonce) tframe = Ok u /\
    take_reliable_unit toy (Some tr_r) 50 (u ++ [7]) = Ok (Some (tframe, blen u)) /\
    take_reliable_unit toy (Some tr_r) 50 ([22] ++ tframe) = Err TxEncryptionRequired.
Proof. eexists. repeat split. Qed.

(** C12: end to end, whatever arrives on the gossip socket of an encrypted,
    labelled node: what it parses was sealed by a ring key and carries the
    label inside the sealed part. *)
Theorem C12_gossip_authenticated : forall B c kr raw inner, t_ring c = Some kr ->
  transform_ingress B c raw = Some inner ->
  exists dec plain, authenticated B kr raw dec /\ unwrap_transforms B (t_mtu c) dec = Ok plain /\
    match effective_label (t_label c) with
    | Some l => plain = header l ++ inner
    | None => plain = inner /\ hd 0 plain <> 12
    end.
Proof.
  intros B c kr raw inner Hk I. apply ingress_sound in I as (_ & _ & plain & U & L). rewrite Hk in U.
  apply unwrap_enc_some in U as (dec & A & U & _). exists dec, plain. auto.
Qed.
Print Assumptions C12_gossip_authenticated.
Example C12_gossip_authenticated_ex :
  let c := mkTctx (mkComp None 0) None (Some tr_r) 100 (Some [97]) in
  exists raw, encrypt_payload toy (Some tr_s) (Some tnonce) ([12; 1; 97] ++ tframe) = Ok raw /\
    transform_ingress toy c raw = Some tframe /\
    transform_ingress toy c ([12; 1; 97] ++ tframe) = None.
Proof. eexists. repeat split. Qed.

(** C13: a reliable unit comes back as the payload, for every compression and
    encryption setting, when the receiver's ring holds the sender's primary. *)
Theorem C13_unit_roundtrip : forall B o ks kr nonce max x u rest,
  wf_backends B -> lossless B -> aead_correct B ->
  ring_compatible B ks kr nonce (compress_payload B o x) ->
  match nonce with Some n => wf_bytes n | None => True end ->
  plain_bytes x -> wf_bytes x -> wf_bytes rest -> blen x <= max -> max + 30 <= u32_max ->
  encode_reliable_unit B o ks nonce x = Ok u ->
  take_reliable_unit B kr max (u ++ rest) = Ok (Some (x, blen u)).
Proof. exact take_unit_roundtrip. Qed.
Print Assumptions C13_unit_roundtrip.
Example C13_unit_roundtrip_ex :
  wf_backends toy /\ lossless toy /\ aead_correct toy /\
  ring_compatible toy (Some tr_s) (Some tr_r) (Some tnonce) (compress_payload toy (mkComp (Some 24) 4) tframe) /\
  plain_bytes tframe /\ compress_payload toy (mkComp (Some 24) 4) zframe = [14; 24; 21; 1] ++ repeat 0 12 ++ [5] /\
  exists u, encode_reliable_unit toy (mkComp (Some 24) 4) (Some tr_s) (Some tnonce) tframe = Ok u /\ blen u = 53.
Proof.
  split; [apply toy_wf|]. split; [apply toy_lossless|]. split; [apply toy_aead|].
  split; [apply toy_rings; [vm_compute; auto|reflexivity]|].
  split; [repeat split; discriminate|]. split; [reflexivity|]. eexists. split; reflexivity.
Qed.

(** C13: compression never makes a unit larger than it would be plain. *)
Theorem C13_compression_never_grows : forall B o x, blen (compress_payload B o x) <= blen x.
Proof. exact compress_payload_le. Qed.
Print Assumptions C13_compression_never_grows.
Theorem C13_unit_never_grows : forall B o x u, blen x <= u32_max ->
  encode_reliable_unit B o None None x = Ok u ->
  exists v, encode_reliable_unit B (mkComp None 0) None None x = Ok v /\ blen u <= blen v.
Proof. exact unit_never_grows. Qed.
Print Assumptions C13_unit_never_grows.
Example C13_unit_never_grows_ex :
  encode_reliable_unit toy (mkComp (Some 24) 4) None None zframe = Ok ([17; 14; 24; 21; 1] ++ repeat 0 12 ++ [5]) /\
  encode_reliable_unit toy (mkComp (Some 24) 4) None None tframe = Ok ([22] ++ tframe).
Proof. split; reflexivity. Qed.

(** C13: a gossip datagram comes back as the frame, for every combination of
    label, compression, checksum and encryption, when label header and frame
    together are within the receiver's MTU; its size on the wire is bounded by
    that plus the fixed overheads. *)
Theorem C13_gossip_roundtrip : forall B cs cr nonce frame raw,
  wf_backends B -> lossless B -> aead_correct B ->
  (forall w, ring_compatible B (t_ring cs) (t_ring cr) nonce w) ->
  effective_label (t_label cs) = effective_label (t_label cr) ->
  wf_bytes (match t_label cs with Some l => l | None => [] end) ->
  plain_bytes frame -> hd 0 frame <> 12 ->
  match effective_label (t_label cs) with Some l => 2 + blen l | None => 0 end + blen frame <= t_mtu cr ->
  t_mtu cr <= u32_max ->
  transform_egress B cs nonce frame = Some raw ->
  transform_ingress B cr raw = Some frame /\
  blen raw <= match effective_label (t_label cs) with Some l => 2 + blen l | None => 0 end + blen frame
              + match t_sum cs with Some _ => 10 | None => 0 end
              + match t_ring cs with Some _ => 30 | None => 0 end.
Proof. exact gossip_roundtrip. Qed.
Print Assumptions C13_gossip_roundtrip.
Example C13_gossip_roundtrip_ex :
  let cs := mkTctx (mkComp (Some 23) 0) (Some 4) (Some tr_s) 100 (Some [97]) in
  let cr := mkTctx (mkComp None 9) None (Some tr_r) 25 (Some [97]) in
  (forall w, ring_compatible toy (t_ring cs) (t_ring cr) (Some tnonce) w) /\
  exists raw, transform_egress toy cs (Some tnonce) tframe = Some raw /\ blen raw = 65 /\
    transform_ingress toy cr raw = Some tframe.
Proof.
  split; [apply toy_rings; [vm_compute; auto|reflexivity]|]. eexists. repeat split.
Qed.

(** C60, finding: the sender budgets a gossip frame against the MTU without
    the label header, while the receiver checks label header and frame
    together against the same MTU.  A frame within the MTU can be dropped by
    a receiver with the very same configuration. *)
Theorem C60_frame_within_mtu_delivered_refuted : exists c frame raw,
  t_comp c = mkComp None 0 /\ t_ring c = None /\ t_sum c = None /\ 512 <= t_mtu c /\
  (exists body, encode_plain_frame TUserData body = Ok frame) /\ blen frame <= t_mtu c /\
  (forall B, transform_egress B c None frame = Some raw) /\
  (forall B, transform_ingress B c raw = None).
Proof. exact label_mtu_witness. Qed.
Print Assumptions C60_frame_within_mtu_delivered_refuted.
(** C60: what holds instead: unlabelled nodes deliver every frame within the
    MTU. *)
Theorem C60_unlabelled_within_mtu_delivered : forall B cs cr nonce frame raw,
  wf_backends B -> lossless B -> aead_correct B ->
  (forall w, ring_compatible B (t_ring cs) (t_ring cr) nonce w) ->
  effective_label (t_label cs) = None -> effective_label (t_label cr) = None ->
  wf_bytes (match t_label cs with Some l => l | None => [] end) ->
  plain_bytes frame -> hd 0 frame <> 12 -> blen frame <= t_mtu cr -> t_mtu cr <= u32_max ->
  transform_egress B cs nonce frame = Some raw ->
  transform_ingress B cr raw = Some frame.
Proof.
  intros B cs cr nonce frame raw HB HL HA HR Hs Hr Hw P H12 Hm Hu E.
  refine (proj1 (gossip_roundtrip B cs cr nonce frame raw HB HL HA HR _ Hw P H12 _ Hu E)); [congruence|].
  rewrite Hs. lia.
Qed.
Print Assumptions C60_unlabelled_within_mtu_delivered.
Example C60_unlabelled_within_mtu_delivered_ex :
  let c := mkTctx (mkComp (Some 24) 0) (Some 1) None 21 (Some []) in
  exists raw, transform_egress toy c None zframe = Some raw /\ transform_ingress toy c raw = Some zframe.
Proof. eexists. split; reflexivity. Qed.

(** C14: units written back to back are recovered in order from any cutting of
    the byte stream into chunks, and nothing is left over. *)
Theorem C14_units_from_any_fragmentation : forall B o ks kr max items units chunks,
  wf_backends B -> lossless B -> aead_correct B -> max + 30 <= u32_max ->
  Forall2 (fun (it : option bytes * bytes) u =>
     encode_reliable_unit B o ks (fst it) (snd it) = Ok u /\
     ring_compatible B ks kr (fst it) (compress_payload B o (snd it)) /\
     match fst it with Some n => wf_bytes n | None => True end /\
     plain_bytes (snd it) /\ wf_bytes (snd it) /\ blen (snd it) <= max) items units ->
  concat chunks = concat units ->
  drain_run B kr max chunks = mkDrain (map snd items) [] false.
Proof. exact drain_units_fragmented. Qed.
Print Assumptions C14_units_from_any_fragmentation.
Example C14_units_from_any_fragmentation_ex :
  Forall2 (fun (it : option bytes * bytes) u =>
     encode_reliable_unit toy (mkComp (Some 23) 0) None (fst it) (snd it) = Ok u /\
     ring_compatible toy None None (fst it) (compress_payload toy (mkComp (Some 23) 0) (snd it)) /\
     match fst it with Some n => wf_bytes n | None => True end /\
     plain_bytes (snd it) /\ wf_bytes (snd it) /\ blen (snd it) <= 40)
    [(None, [6; 1]); (None, zframe)] [[2; 6; 1]; [17; 14; 23; 21; 1] ++ repeat 0 12 ++ [5]] /\
  drain_run toy None 40 [[2]; []; [6; 1; 17; 14]; [23; 21; 1] ++ repeat 0 12; [5]] = mkDrain [[6; 1]; zframe] [] false.
Proof.
  split; [|reflexivity].
  repeat constructor; try discriminate; try reflexivity; vm_compute; congruence.
Qed.

(** C14: whatever bytes arrive, honest or not, the units taken and the verdict
    depend only on the bytes, not on how they are cut. *)
Theorem C14_fragmentation_irrelevant : forall B kr max chunks, Forall wf_bytes chunks ->
  let r := drain_run B kr max chunks in
  let w := drain_run B kr max [concat chunks] in
  d_units r = d_units w /\ d_failed r = d_failed w /\ (d_failed r = false -> d_buf r = d_buf w).
Proof. exact drain_fragmentation. Qed.
Print Assumptions C14_fragmentation_irrelevant.
Example C14_fragmentation_irrelevant_ex :
  Forall wf_bytes [[2]; [6; 1; 200]; [1; 3]] /\
  drain_run toy None 40 [[2]; [6; 1; 200]; [1; 3]] = mkDrain [[6; 1]] [200; 1; 3] true.
Proof. split; [repeat constructor|reflexivity]. Qed.

(** C14: a declared length above the ceiling is rejected as soon as the length
    is complete, whatever part of the body has arrived; and while a unit is
    incomplete no more than a maximal unit is buffered. *)
Theorem C14_overlong_rejected_early : forall B kr max len rest,
  wf_bytes len -> wf_bytes rest -> leb_complete len -> blen len <= 5 -> leb128 len <= u32_max ->
  max + match kr with Some _ => 30 | None => 0 end < leb128 len ->
  exists e, take_reliable_unit B kr max (len ++ rest) = Err e.
Proof. exact overlong_rejected. Qed.
Print Assumptions C14_overlong_rejected_early.
Example C14_overlong_rejected_early_ex :
  leb_complete [200; 1] /\ leb128 [200; 1] = 200 /\ take_reliable_unit toy None 199 [200; 1] = Err (TxUnitLen 200 199).
Proof. split; [|split; reflexivity]. exists [200], 1. repeat constructor; vm_compute; congruence. Qed.
Theorem C14_buffer_bounded : forall B kr max chunks, Forall wf_bytes chunks ->
  let r := drain_run B kr max chunks in
  d_failed r = false ->
  blen (d_buf r) < 5 + max + match kr with Some _ => 30 | None => 0 end.
Proof. exact drain_buffer_bounded. Qed.
Print Assumptions C14_buffer_bounded.
Example C14_buffer_bounded_ex :
  drain_run toy None 40 [[2; 6; 1; 30; 0; 0]; [0]] = mkDrain [[6; 1]] [30; 0; 0; 0] false.
Proof. reflexivity. Qed.
