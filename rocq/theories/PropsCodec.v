(** Properties C01-C05, C07: the framing layer. *)
From Verif Require Import Base BaseFacts CodecModel CodecSpec CodecFacts.
Local Open Scope N_scope.

(** C01: every [u32] written is read back, using exactly the bytes written,
    whatever follows. *)
Theorem C01_varint_roundtrip : forall v rest,
  v <= u32_max -> wf_bytes rest ->
  decode_varint_u32 (encode_varint_u32 v ++ rest) = Ok (v, blen (encode_varint_u32 v)) /\
  1 <= blen (encode_varint_u32 v) <= 5.
Proof. exact (fun v rest H W => conj (varint_roundtrip v rest H W) (encode_varint_len_bounds v H)). Qed.
Print Assumptions C01_varint_roundtrip.
Example C01_varint_roundtrip_ex :
  300 <= u32_max /\ wf_bytes [255; 0] /\
  encode_varint_u32 300 = [172; 2] /\ decode_varint_u32 ([172; 2] ++ [255; 0]) = Ok (300, 2).
Proof. repeat split; try (vm_compute; congruence). repeat constructor. Qed.

(** C01: the encoded size is the minimal LEB128 size of the value. *)
Theorem C01_varint_exact_size : forall v, v <= u32_max ->
  blen (encode_varint_u32 v) = varint_len v.
Proof. exact encode_varint_len. Qed.
Print Assumptions C01_varint_exact_size.
Example C01_varint_exact_size_ex : 16384 <= u32_max /\ varint_len 16383 = 2 /\ varint_len 16384 = 3.
Proof. repeat split. vm_compute. congruence. Qed.

(** C01: on any bytes the reader returns at most [u32::MAX], consumes between
    1 and 5 bytes that are present, and the value is the LEB128 meaning of
    exactly the consumed bytes. *)
Theorem C01_varint_reader_bounded : forall buf v n,
  wf_bytes buf -> decode_varint_u32 buf = Ok (v, n) ->
  v <= u32_max /\ 1 <= n <= 5 /\ n <= blen buf /\
  leb_complete (btake n buf) /\ leb128 (btake n buf) = v.
Proof. exact decode_varint_ok. Qed.
Print Assumptions C01_varint_reader_bounded.
Example C01_varint_reader_bounded_ex :
  decode_varint_u32 [255; 255; 255; 255; 15; 9] = Ok (u32_max, 5) /\
  decode_varint_u32 [255; 255; 255; 255; 16] = Err EVarintOverflow /\
  decode_varint_u32 [128; 0] = Ok (0, 2).
Proof. repeat split. Qed.

(** C01: a failing read is either an overflow visible in the first five bytes
    or a request for more bytes after fewer than five continuation bytes. *)
Theorem C01_varint_reader_errors : forall buf e,
  wf_bytes buf -> decode_varint_u32 buf = Err e ->
  (e = EVarintOverflow /\ 5 <= blen buf) \/
  (e = EIncomplete (blen buf) (blen buf + 1) /\ blen buf < 5 /\ Forall (fun b => 128 <= b) buf).
Proof. exact decode_varint_err. Qed.
Print Assumptions C01_varint_reader_errors.
Example C01_varint_reader_errors_ex : decode_varint_u32 [200; 201] = Err (EIncomplete 2 3).
Proof. reflexivity. Qed.

(** C02: an encoded frame followed by anything decodes to the same tag and
    body and reports its own length. *)
Theorem C02_frame_roundtrip : forall t body f rest,
  wf_bytes body -> wf_bytes rest -> encode_plain_frame t body = Ok f ->
  decode_plain_frame (f ++ rest) = Ok (t, body, blen f).
Proof. exact plain_roundtrip. Qed.
Print Assumptions C02_frame_roundtrip.
Example C02_frame_roundtrip_ex : encode_plain_frame TAlive [7; 8; 9] = Ok [6; 3; 7; 8; 9].
Proof. reflexivity. Qed.

(** C02: encoding fails only above the [u32] length limit. *)
Theorem C02_frame_encodable : forall t body,
  (exists f, encode_plain_frame t body = Ok f) <-> blen body <= u32_max.
Proof.
  exact (fun t body => conj
    (fun '(ex_intro _ f E) => proj1 (encode_plain_ok t body f E))
    (fun H => ex_intro _ _ (encode_plain_fits t body H))).
Qed.
Print Assumptions C02_frame_encodable.
Example C02_frame_encodable_ex : blen [1; 2] <= u32_max.
Proof. vm_compute. congruence. Qed.

(** C02: every strict prefix is reported incomplete (or empty), asking for no
    more than the whole frame: never another frame, never corrupt. *)
Theorem C02_prefix_incomplete : forall t body f k,
  wf_bytes body -> encode_plain_frame t body = Ok f -> k < blen f ->
  (k = 0 /\ decode_plain_frame (btake k f) = Err EEmpty) \/
  (0 < k /\ exists need, decode_plain_frame (btake k f) = Err (EIncomplete k need) /\ k < need <= blen f).
Proof. exact plain_prefix_incomplete. Qed.
Print Assumptions C02_prefix_incomplete.
Example C02_prefix_incomplete_ex :
  decode_plain_frame (btake 3 [6; 3; 7; 8; 9]) = Err (EIncomplete 3 5).
Proof. reflexivity. Qed.

(** C02: whatever decodes is a tag byte, a LEB128 length, and that many body
    bytes; the reported length covers exactly these. *)
Theorem C02_decoded_frame_exact : forall buf t body total,
  wf_bytes buf -> decode_plain_frame buf = Ok (t, body, total) ->
  exists len_bytes rest, buf = tag_byte t :: len_bytes ++ body ++ rest /\
    leb_complete len_bytes /\ leb128 len_bytes = blen body /\ blen len_bytes <= 5 /\
    blen body <= u32_max /\ total = 1 + blen len_bytes + blen body.
Proof. exact decode_plain_ok. Qed.
Print Assumptions C02_decoded_frame_exact.
Example C02_decoded_frame_exact_ex : decode_plain_frame [10; 130; 0; 5; 6; 77] = Ok (TNack, [5; 6], 5).
Proof. reflexivity. Qed.

(** C03: on every buffer and limit the probe agrees with the decoder: same
    size for a complete frame (unless over the limit, then rejected), waits
    exactly when the decoder reports the frame incomplete (unless its announced
    size is over the limit), rejects a malformed length.  The probe does not
    look at the tag. *)
Theorem C03_probe_agrees_with_decoder : forall max buf, wf_bytes buf ->
  match decode_plain_frame buf with
  | Ok (t, body, total) =>
      probe_frame max buf = if max <? total then PReject else PFrame (tag_byte t) total
  | Err EEmpty => probe_frame max buf = PNeedMore
  | Err (EIncomplete have need) =>
      have = blen buf /\ blen buf < need /\
      (probe_frame max buf = PNeedMore \/ (probe_frame max buf = PReject /\ max < need))
  | Err EVarintOverflow => probe_frame max buf = PReject
  | Err (EUnknownTag b) => exists r, buf = b :: r /\ forall t, tag_byte t <> b
  | Err _ => False
  end.
Proof. exact probe_agrees. Qed.
Print Assumptions C03_probe_agrees_with_decoder.
Example C03_probe_agrees_with_decoder_ex :
  probe_frame 100 [6; 3; 7; 8; 9; 1] = PFrame 6 5 /\ probe_frame 4 [6; 3; 7] = PReject /\
  probe_frame 100 [6; 3; 7] = PNeedMore.
Proof. repeat split. Qed.

(** C03: a rejection is final: no continuation of the buffer decodes to a
    frame within the limit. *)
Theorem C03_reject_is_final : forall max buf more t body total,
  wf_bytes buf -> wf_bytes more -> probe_frame max buf = PReject ->
  decode_plain_frame (buf ++ more) = Ok (t, body, total) -> max < total.
Proof. exact probe_reject_final. Qed.
Print Assumptions C03_reject_is_final.
Example C03_reject_is_final_ex :
  probe_frame 4 [6; 3] = PReject /\ decode_plain_frame ([6; 3] ++ [7; 8; 9]) = Ok (TAlive, [7; 8; 9], 5).
Proof. repeat split. Qed.

(** C03: an oversize frame is rejected from its header alone, before any body
    byte is needed. *)
Theorem C03_oversize_rejected_early : forall max t n more,
  n <= u32_max -> wf_bytes more -> max < 1 + blen (encode_varint_u32 n) + n ->
  probe_frame max (t :: encode_varint_u32 n ++ more) = PReject.
Proof. exact probe_rejects_oversize. Qed.
Print Assumptions C03_oversize_rejected_early.
Example C03_oversize_rejected_early_ex :
  5000 <= u32_max /\ 1000 < 1 + blen (encode_varint_u32 5000) + 5000.
Proof. split; vm_compute; congruence. Qed.

(** C04: packing then unpacking gives the same messages in the same order. *)
Theorem C04_compound_roundtrip : forall parts f,
  Forall wf_bytes parts -> encode_compound parts = Ok f -> decode_compound f = Ok parts.
Proof. exact compound_roundtrip. Qed.
Print Assumptions C04_compound_roundtrip.
Example C04_compound_roundtrip_ex :
  encode_compound [[6; 1; 9]; [10; 0]] = Ok [1; 2; 3; 6; 1; 9; 2; 10; 0].
Proof. reflexivity. Qed.

(** C04: packing succeeds for every list of at least two encodable messages. *)
Theorem C04_compound_encodable : forall parts,
  2 <= blen parts <= u32_max -> Forall (fun p => blen p <= u32_max) parts ->
  exists f, encode_compound parts = Ok f.
Proof. exact compound_encodable. Qed.
Print Assumptions C04_compound_encodable.
Example C04_compound_encodable_ex : 2 <= blen [[1]; [2]] <= u32_max /\ Forall (fun p => blen p <= u32_max) [[1]; [2]].
Proof. split; [vm_compute; split; congruence|repeat constructor; vm_compute; congruence]. Qed.

(** C05: a successful unpacking accounts for every byte: the compound tag, a
    LEB128 count, then each part preceded by its LEB128 length, nothing after. *)
Theorem C05_compound_exact : forall buf ps,
  wf_bytes buf -> decode_compound buf = Ok ps ->
  exists count_bytes len_bytes,
    2 <= blen ps /\ leb_complete count_bytes /\ blen count_bytes <= 5 /\
    leb128 count_bytes = blen ps /\ length len_bytes = length ps /\
    Forall2 (fun v p => leb_complete v /\ blen v <= 5 /\ leb128 v = blen p) len_bytes ps /\
    buf = tag_byte TCompound :: count_bytes ++
          concat (map (fun '(v, p) => v ++ p) (combine len_bytes ps)).
Proof. exact decode_compound_ok. Qed.
Print Assumptions C05_compound_exact.
Example C05_compound_exact_ex :
  decode_compound [1; 2; 3; 6; 1; 9; 2; 10; 0] = Ok [[6; 1; 9]; [10; 0]] /\
  decode_compound [1; 2; 3; 6; 1; 9; 2; 10; 0; 0] = Err EDecode /\
  decode_compound [1; 1; 3; 6; 1; 9] = Err EDecode.
Proof. repeat split. Qed.

(** C07: encode then decode is the identity on addresses. *)
Theorem C07_addr_roundtrip : forall a b, wf_socket_addr a ->
  socket_addr_to_bytes a = Ok b -> wf_bytes b /\ socket_addr_from_bytes b = Ok a.
Proof. exact addr_roundtrip. Qed.
Print Assumptions C07_addr_roundtrip.
Example C07_addr_roundtrip_ex :
  wf_socket_addr (V4 [10; 0; 0; 1] 7946) /\
  socket_addr_to_bytes (V4 [10; 0; 0; 1] 7946) = Ok [0; 10; 0; 0; 1; 31; 10].
Proof. repeat split; try (vm_compute; congruence). repeat constructor. Qed.

(** C07: no two byte strings decode to the same address, and decoding is
    inverse to encoding. *)
Theorem C07_addr_bytes_unique : forall b1 b2 a, wf_bytes b1 -> wf_bytes b2 ->
  socket_addr_from_bytes b1 = Ok a -> socket_addr_from_bytes b2 = Ok a -> b1 = b2.
Proof. exact addr_from_bytes_unique. Qed.
Print Assumptions C07_addr_bytes_unique.
Example C07_addr_bytes_unique_ex :
  socket_addr_from_bytes [0; 10; 0; 0; 1; 31; 10] = Ok (V4 [10; 0; 0; 1] 7946).
Proof. reflexivity. Qed.

(** C07: distinct encodable addresses have distinct encodings. *)
Theorem C07_addr_injective : forall a b x, wf_socket_addr a -> wf_socket_addr b ->
  socket_addr_to_bytes a = Ok x -> socket_addr_to_bytes b = Ok x -> a = b.
Proof. exact addr_injective. Qed.
Print Assumptions C07_addr_injective.
Example C07_addr_injective_ex :
  socket_addr_to_bytes (V4 [10; 0; 0; 1] 1) <> socket_addr_to_bytes (V4 [10; 0; 0; 1] 256).
Proof. discriminate. Qed.

(** C07: exactly the 7-byte strings tagged 0 and the 19-byte strings tagged 1
    are accepted. *)
Theorem C07_addr_accepts : forall b, wf_bytes b ->
  (exists a, socket_addr_from_bytes b = Ok a) <->
  (exists r, b = 0 :: r /\ blen r = 6) \/ (exists r, b = 1 :: r /\ blen r = 18).
Proof. exact addr_from_bytes_accepts. Qed.
Print Assumptions C07_addr_accepts.
Example C07_addr_accepts_ex :
  socket_addr_from_bytes [0; 10; 0; 0; 1; 31] = Err (AddrLengthMismatch 0 7 6) /\
  socket_addr_from_bytes [4; 1] = Err (AddrUnknownVersion 4).
Proof. repeat split. Qed.
