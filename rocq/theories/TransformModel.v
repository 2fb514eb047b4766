(** Transform wrappers: checksum, compression, encryption; reliable units; the
    gossip egress and ingress pipelines.
    Models memberlist-proto/src/{checksum,compression,encryption,framing}/mod.rs,
    streams/mod.rs, streams/bridge.rs and memberlist-reactor/src/driver/stream/mod.rs,
    for a build with every backend feature enabled. *)
From Verif Require Import Base CodecModel LabelModel KeyringModel.
Local Open Scope N_scope.

(** The external algorithms, as arbitrary functions (crates crc32fast,
    xxhash-rust, hash32, lz4_flex, snap, zstd, brotli, aes-gcm,
    chacha20poly1305; none is in /repo).
    - [b_hash a p]: the integer the hash named by tag [a] returns for [p];
    - [b_compress a x], [b_decompress a x n]: [None] is a backend error; [n] is
      the size of the output buffer;
    - [b_seal k nonce pt aad], [b_open k nonce ct aad]: AEAD; [None] is the
      cipher's error.
    Called from checksum/mod.rs:294-331, compression/mod.rs:402-497, encryption/mod.rs:477-579 *)
Record backends := mkBackends {
  b_hash : byte -> bytes -> N;
  b_compress : byte -> bytes -> option bytes;
  b_decompress : byte -> bytes -> N -> option bytes;
  b_seal : secret_key -> bytes -> bytes -> bytes -> option bytes;
  b_open : secret_key -> bytes -> bytes -> bytes -> option bytes
}.

(** framing/mod.rs:150-320 [FrameError] with the error enums it wraps:
    encryption/mod.rs:407-448, compression/mod.rs:316-348,
    checksum/mod.rs:222-236.  Error texts are dropped. *)
Inductive t_error :=
| TxEmpty
| TxNonCanonical
| TxOversizePlaintext (n : N)
| TxEncryptionRequired
| TxEncMalformed
| TxEncUnsupported (t : byte)
| TxEncOversize (len max : N)
| TxNoMatchingKey
| TxAuthFailed
| TxKeyMismatch
| TxEntropy
| TxCompMalformed
| TxCompUnsupported (t : byte)
| TxCompOversize (len max : N)
| TxCompBackend
| TxSumUnknown (t : byte)
| TxSumMismatch
| TxVarint
| TxUnitLen (len max : N)
| TxFuel.   (* not an error of the code: the model's loop ran out of fuel *)

(** * Checksum *)

(** checksum/mod.rs:378 *)
Definition CHECKSUMED_WRAPPER_OVERHEAD : N := 10.
(** checksum/mod.rs:92-106 [ChecksumAlgorithm::from_tag] and [digest_size]
    (lines 112-126): known tags are 1..5; crc32, xxhash32 and murmur3 have 4
    bytes, xxhash64 and xxhash3 have 8. *)
Definition sum_known (t : byte) : bool := (1 <=? t) && (t <=? 5).
(** checksum/mod.rs:92-106 [digest_size] *)
Definition digest_size (t : byte) : N :=
  if (t =? 3) || (t =? 4) then 8 else 4.
(** [u32::to_be_bytes] / [u64::to_be_bytes]: [n] big-endian bytes of [v].
    Used at checksum/mod.rs:566-581 *)
Fixpoint be_bytes (n : nat) (v : N) : bytes :=
  match n with
  | O => []
  | S m => be_bytes m (v / 256) ++ [v mod 256]
  end.
(** checksum/mod.rs:294-331 [digest] with [pack32]/[pack64] (566-581), for a
    known algorithm *)
Definition digest (B : backends) (t : byte) (p : bytes) : bytes :=
  be_bytes (N.to_nat (digest_size t)) (b_hash B t p).
(** checksum/mod.rs:389-402 [encode_checksummed_frame] *)
Definition encode_checksummed_frame (B : backends) (t : byte) (payload : bytes)
  : result t_error bytes :=
  if sum_known t then Ok (15 :: t :: digest B t payload ++ payload) else Err (TxSumUnknown t).
(** checksum/mod.rs:418-448 [decode_checksummed_frame] with [verify] (333-344) *)
Definition decode_checksummed_frame (B : backends) (frame : bytes) : result t_error bytes :=
  match frame with
  | tag :: t :: rest =>
    if negb (tag =? 15) then Err (TxSumUnknown tag)
    else if negb (sum_known t) then Err (TxSumUnknown t)
    else
      let digest_end := 2 + digest_size t in
      if blen frame <? digest_end then Err TxSumMismatch
      else
        let expected := btake (digest_size t) rest in
        let payload := bdrop (digest_size t) rest in
        if bytes_eqb (digest B t payload) expected then Ok payload else Err TxSumMismatch
  | tag :: [] => Err (TxSumUnknown tag)
  | [] => Err (TxSumUnknown 0)
  end.

(** * Compression *)

(** compression/mod.rs:215-228 [CompressAlgorithm::from_tag]: zstd levels are
    1..22, then lz4, snappy, brotli. *)
Definition comp_known (t : byte) : bool := (1 <=? t) && (t <=? 25).
(** compression/mod.rs:402-484 [decompress]: every backend's result is
    rejected unless it has exactly [orig_len] bytes. *)
Definition decompress (B : backends) (t : byte) (input : bytes) (orig_len : N)
  : result t_error bytes :=
  if negb (comp_known t) then Err (TxCompUnsupported t)
  else match b_decompress B t input orig_len with
       | Some out => if blen out =? orig_len then Ok out else Err TxCompBackend
       | None => Err TxCompBackend
       end.
(** compression/mod.rs:488-497 [CompressionOutput]; [None] is [Plain].
    compression/mod.rs:505-520 [apply_compression] and 625-630
    [CompressionOptions::apply]; the options are the algorithm (if any) and
    the threshold. *)
Record comp_opts := mkComp { c_algo : option byte; c_threshold : N }.
(** compression/mod.rs:505-519 [apply_compression], 625-630 [apply] *)
Definition comp_apply (B : backends) (o : comp_opts) (input : bytes)
  : result t_error (option (byte * bytes)) :=
  match c_algo o with
  | None => Ok None
  | Some t =>
    if blen input <? c_threshold o then Ok None
    else if negb (comp_known t) then Err (TxCompUnsupported t)
    else match b_compress B t input with
         | None => Err TxCompBackend
         | Some packed => if blen packed <? blen input then Ok (Some (t, packed)) else Ok None
         end
  end.
(** compression/mod.rs:718-730 [encode_compressed_frame]; [orig_len as u32]
    truncates. *)
Definition encode_compressed_frame (t : byte) (orig_len : N) (packed : bytes) : bytes :=
  14 :: t :: encode_varint_u32 (orig_len mod two32) ++ packed.
(** compression/mod.rs:740-764 [decode_compressed_frame] *)
Definition decode_compressed_frame (B : backends) (frame : bytes) (max : N)
  : result t_error bytes :=
  match frame with
  | tag :: t :: rest =>
    if negb (tag =? 14) then Err TxCompMalformed
    else if negb (comp_known t) then Err (TxCompUnsupported t)
    else match decode_varint_u32 rest with
         | Err _ => Err TxVarint
         | Ok (orig_len, vb) =>
           if max <? orig_len then Err (TxCompOversize orig_len max)
           else decompress B t (bdrop vb rest) orig_len
         end
  | _ => Err TxCompMalformed
  end.
(** compression/mod.rs:794-824 [compress_reliable_payload]; the same body is
    streams/mod.rs:403-423 [compress_gossip_datagram]. *)
Definition compress_payload (B : backends) (o : comp_opts) (framed : bytes) : bytes :=
  match comp_apply B o framed with
  | Ok (Some (t, packed)) =>
    let wrapped := encode_compressed_frame t (blen framed) packed in
    if blen wrapped <? blen framed then wrapped else framed
  | _ => framed
  end.

(** * Encryption *)

(** encryption/mod.rs:914-939 *)
Definition ENCRYPTED_TAG : N := 13.
(** encryption/mod.rs:918 *)
Definition NONCE_LEN : N := 12.
(** encryption/mod.rs:922 *)
Definition AUTH_TAG_LEN : N := 16.
(** encryption/mod.rs:927 *)
Definition WRAPPER_HEADER_LEN : N := 14.
(** encryption/mod.rs:939 *)
Definition ENCRYPTED_WRAPPER_OVERHEAD : N := 30.

(** encryption/mod.rs:456-468 [key_matches_algorithm] *)
Definition key_matches (a : enc_algorithm) (k : secret_key) : bool :=
  match a with
  | AesGcm => match k with ChaChaKey _ => false | _ => true end
  | ChaCha => match k with ChaChaKey _ => true | _ => false end
  | EncUnknown _ => true
  end.
(** encryption/mod.rs:477-499 [encrypt] and 519-579, 633-672 the backends *)
Definition encrypt (B : backends) (a : enc_algorithm) (k : secret_key) (nonce pt aad : bytes)
  : result t_error bytes :=
  if negb (key_matches a k) then Err TxKeyMismatch
  else match a with
       | EncUnknown t => Err (TxEncUnsupported t)
       | _ => match b_seal B k nonce pt aad with Some ct => Ok ct | None => Err TxAuthFailed end
       end.
(** encryption/mod.rs:503-527 [decrypt] *)
Definition decrypt (B : backends) (a : enc_algorithm) (k : secret_key) (nonce ct aad : bytes)
  : result t_error bytes :=
  if negb (key_matches a k) then Err TxKeyMismatch
  else match a with
       | EncUnknown t => Err (TxEncUnsupported t)
       | _ => match b_open B k nonce ct aad with Some pt => Ok pt | None => Err TxAuthFailed end
       end.
(** encryption/mod.rs:949-980 [encode_encrypted_frame].  The random nonce is
    the argument [nonce]; [None] is a failing entropy source. *)
Definition encode_encrypted_frame (B : backends) (a : enc_algorithm) (k : secret_key)
  (nonce : option bytes) (pt : bytes) : result t_error bytes :=
  match nonce with
  | None => Err TxEntropy
  | Some n =>
    match encrypt B a k n pt [ENCRYPTED_TAG; enc_tag a] with
    | Err e => Err e
    | Ok ct => Ok (ENCRYPTED_TAG :: enc_tag a :: n ++ ct)
    end
  end.
(** encryption/mod.rs:1069-1092: trying the keys of the ring in order; [tried]
    counts the keys of the wire algorithm. *)
Fixpoint try_keys (B : backends) (a : enc_algorithm) (nonce ct aad : bytes)
  (keys : list secret_key) (tried : N) : result t_error bytes :=
  match keys with
  | [] => if tried =? 1 then Err TxAuthFailed else Err TxNoMatchingKey
  | k :: r =>
    if enc_eqb (key_algorithm k) a then
      match decrypt B a k nonce ct aad with
      | Ok pt => Ok pt
      | Err TxAuthFailed => try_keys B a nonce ct aad r (tried + 1)
      | Err e => Err e
      end
    else try_keys B a nonce ct aad r tried
  end.
(** encryption/mod.rs:1028-1105 [decode_encrypted_frame] *)
Definition decode_encrypted_frame (B : backends) (kr : option keyring) (frame : bytes) (max : N)
  : result t_error bytes :=
  match frame with
  | tag :: t :: rest =>
    if negb (tag =? ENCRYPTED_TAG) then Err TxEncMalformed
    else match enc_from_tag t with
         | EncUnknown u => Err (TxEncUnsupported u)
         | a =>
           if blen frame <? WRAPPER_HEADER_LEN + AUTH_TAG_LEN then Err TxEncMalformed
           else
             let nonce := btake NONCE_LEN rest in
             let ct := bdrop NONCE_LEN rest in
             let plaintext_len := blen ct - AUTH_TAG_LEN in
             if max <? plaintext_len then Err (TxEncOversize plaintext_len max)
             else match kr with
                  | None => Err TxNoMatchingKey
                  | Some r => try_keys B a nonce ct [ENCRYPTED_TAG; enc_tag a]
                                (primary r :: secondaries r) 0
                  end
         end
  | _ => Err TxEncMalformed
  end.
(** encryption/mod.rs:986-999 [encrypt_reliable_payload]; the same body is
    streams/mod.rs:459-469 [encrypt_gossip_datagram]. *)
Definition encrypt_payload (B : backends) (kr : option keyring) (nonce : option bytes) (p : bytes)
  : result t_error bytes :=
  match kr with
  | None => Ok p
  | Some r => encode_encrypted_frame B (key_algorithm (primary r)) (primary r) nonce p
  end.

(** * Unwrapping *)

(** framing/mod.rs:670-741 [unwrap_transforms]: the [loop] with the stage
    counter.  Each pass that continues raises [stage], so three passes
    suffice; [TxFuel] is proved unreachable. *)
Fixpoint unwrap_loop (fuel : nat) (B : backends) (max : N) (stage : N) (cur : bytes)
  : result t_error bytes :=
  match fuel with
  | O => Err TxFuel
  | S f =>
    match cur with
    | [] => Err TxEmpty
    | lead :: _ =>
      if lead =? 13 then Err TxNonCanonical
      else if lead =? 15 then
        if 1 <? stage then Err TxNonCanonical
        else match decode_checksummed_frame B cur with
             | Err e => Err e
             | Ok inner => unwrap_loop f B max 2 inner
             end
      else if lead =? 14 then
        if 2 <? stage then Err TxNonCanonical
        else match decode_compressed_frame B cur max with
             | Err e => Err e
             | Ok inner => unwrap_loop f B max 3 inner
             end
      else if max <? blen cur then Err (TxOversizePlaintext (blen cur))
      else Ok cur
    end
  end.
(** framing/mod.rs:670-741 [unwrap_transforms] *)
Definition unwrap_transforms (B : backends) (max : N) (buf : bytes) : result t_error bytes :=
  unwrap_loop 3 B max 1 buf.
(** framing/mod.rs:611-653 [unwrap_transforms_with_encryption].  [usize] is 64
    bits: the [saturating_add] is a plain addition. *)
Definition unwrap_with_encryption (B : backends) (kr : option keyring) (max : N) (buf : bytes)
  : result t_error bytes :=
  match buf with
  | [] => match kr with Some _ => Err TxEmpty | None => unwrap_transforms B max buf end
  | lead :: _ =>
    match kr with
    | Some _ =>
      if negb (lead =? 13) then Err TxEncryptionRequired
      else match decode_encrypted_frame B kr buf (max + CHECKSUMED_WRAPPER_OVERHEAD) with
           | Err e => Err e
           | Ok dec => unwrap_transforms B max dec
           end
    | None =>
      if lead =? 13 then
        match decode_encrypted_frame B kr buf (max + CHECKSUMED_WRAPPER_OVERHEAD) with
        | Err e => Err e
        | Ok dec => unwrap_transforms B max dec
        end
      else unwrap_transforms B max buf
    end
  end.

(** * Reliable units *)

(** compression/mod.rs:879-927 [encode_reliable_unit_with_encryption]; with no
    keyring it is [encode_reliable_unit] (780-786).  The same bytes are
    produced as two chunks by streams/bridge.rs:256-288 [reliable_unit].
    [payload.len() as u32] truncates. *)
Definition encode_reliable_unit (B : backends) (o : comp_opts) (kr : option keyring)
  (nonce : option bytes) (framed : bytes) : result t_error bytes :=
  match encrypt_payload B kr nonce (compress_payload B o framed) with
  | Err e => Err e
  | Ok p => Ok (encode_varint_u32 (blen p mod two32) ++ p)
  end.
(** compression/mod.rs:940-981 [take_reliable_unit_with_encryption]; with no
    keyring it is [take_reliable_unit] (831-855).  The code
    streams/bridge.rs:293-336 [take_reliable_unit] differs only in the error
    it reports for an over-long unit.  [Ok None] asks for more bytes. *)
Definition take_reliable_unit (B : backends) (kr : option keyring) (max : N) (buf : bytes)
  : result t_error (option (bytes * N)) :=
  match decode_varint_u32 buf with
  | Err (EIncomplete _ _) | Err EEmpty => Ok None
  | Err _ => Err TxVarint
  | Ok (unit_len, vb) =>
    let unit_max := match kr with Some _ => max + ENCRYPTED_WRAPPER_OVERHEAD | None => max end in
    if unit_max <? unit_len then Err (TxUnitLen unit_len unit_max)
    else
      let total := vb + unit_len in
      if blen buf <? total then Ok None
      else match unwrap_with_encryption B kr max (btake unit_len (bdrop vb buf)) with
           | Err e => Err e
           | Ok pt => Ok (Some (pt, total))
           end
  end.

(** streams/bridge.rs:1137-1165 (the receive loop): bytes are
    appended to [recv_accum]; complete units are taken off its front until
    more bytes are needed or a unit is rejected.  Simplified: the loop runs
    with fuel [length buf + 1] (every unit consumes at least one byte), and
    what the stream machine does with each unit is not part of this
    function.  [d_failed] records a rejected unit; a failed receiver takes
    nothing more. *)
Record drain_state := mkDrain { d_units : list bytes; d_buf : bytes; d_failed : bool }.
(** streams/bridge.rs:1137-1165: taking units until more bytes are needed *)
Fixpoint drain_loop (fuel : nat) (B : backends) (kr : option keyring) (max : N) (buf : bytes)
  : drain_state :=
  match fuel with
  | O => mkDrain [] buf false
  | S f =>
    match take_reliable_unit B kr max buf with
    | Err _ => mkDrain [] buf true
    | Ok None => mkDrain [] buf false
    | Ok (Some (pt, n)) =>
      let r := drain_loop f B kr max (bdrop n buf) in
      mkDrain (pt :: d_units r) (d_buf r) (d_failed r)
    end
  end.
(** streams/bridge.rs:1137-1165: one chunk *)
Definition drain_feed (B : backends) (kr : option keyring) (max : N) (s : drain_state) (chunk : bytes)
  : drain_state :=
  if d_failed s then s
  else
    let buf := d_buf s ++ chunk in
    let r := drain_loop (S (length buf)) B kr max buf in
    mkDrain (d_units s ++ d_units r) (d_buf r) (d_failed r).
(** streams/bridge.rs:1137-1165, for a list of chunks (model only) *)
Definition drain_run (B : backends) (kr : option keyring) (max : N) (chunks : list bytes) : drain_state :=
  fold_left (drain_feed B kr max) chunks (mkDrain [] [] false).

(** * Gossip datagrams end to end *)

(** memberlist-reactor/src/driver/stream/mod.rs:276-285 [TransformCtx] *)
Record tctx := mkTctx {
  t_comp : comp_opts;
  t_sum : option byte;
  t_ring : option keyring;
  t_mtu : N;
  t_label : option bytes
}.
(** memberlist-reactor/src/driver/stream/mod.rs:329-370 [transform_egress], from
    the encoded (plain or compound) frame on; with streams/mod.rs:441-449
    [checksum_gossip_datagram].  [None]: the datagram is dropped. *)
Definition transform_egress (B : backends) (c : tctx) (nonce : option bytes) (frame : bytes)
  : option bytes :=
  match wrap_label frame (t_label c) with
  | Err _ => None
  | Ok plain =>
    let w := compress_payload B (t_comp c) plain in
    match (match t_sum c with
           | None => Ok w
           | Some t => encode_checksummed_frame B t w
           end) with
    | Err _ => None
    | Ok w2 =>
      match encrypt_payload B (t_ring c) nonce w2 with
      | Err _ => None
      | Ok w3 => Some w3
      end
    end
  end.
(** memberlist-reactor/src/driver/stream/mod.rs:291-323 [transform_ingress], up
    to the label-stripped frame; [None]: the datagram is dropped. *)
Definition transform_ingress (B : backends) (c : tctx) (raw : bytes) : option bytes :=
  match unwrap_with_encryption B (t_ring c) (t_mtu c) raw with
  | Err _ => None
  | Ok plain =>
    match decode_incoming plain (t_label c) with
    | Err _ => None
    | Ok inner => Some inner
    end
  end.
