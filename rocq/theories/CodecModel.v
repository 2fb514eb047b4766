(** Wire framing: varints, plain frames, the stream frame probe, compound
    datagrams and socket addresses.
    Models memberlist-proto/src/framing/mod.rs, stream/mod.rs (probe_frame)
    and convert/mod.rs. *)
From Verif Require Import Base.
Local Open Scope N_scope.

(** framing/mod.rs:150-320 [FrameError]: the variants produced by the
    functions of this file.  [Incomplete have need] carries the two numbers of
    [IncompleteFrame]; transform errors are in TransformModel.v. *)
Inductive frame_error :=
| EEmpty
| EUnknownTag (b : byte)
| EIncomplete (have need : N)
| EVarintOverflow
| EDecode
| EFrameTooLarge (n : N).

(** framing/mod.rs:801-807 [encode_varint_u32].  The [while] loop is written
    with fuel 5, which covers every [u32] (proved in CodecFacts.v). *)
Fixpoint encode_varint_fuel (fuel : nat) (v : N) : bytes :=
  match fuel with
  | O => [v]
  | S f => if 128 <=? v
           then N.lor (N.land v 127) 128 :: encode_varint_fuel f (N.shiftr v 7)
           else [v]
  end.
(** framing/mod.rs:801-807 [encode_varint_u32] *)
Definition encode_varint_u32 (v : N) : bytes := encode_varint_fuel 5 v.

(** framing/mod.rs:809-837 [decode_varint_u32]: the [for … take(5)] loop with
    [i] the index, [value]/[shift] the accumulators; [fuel] is [5 - i].  The
    u32 shift wraps modulo 2^32 as in a release build. *)
Fixpoint decode_varint_loop (fuel : nat) (i value shift : N) (buf : bytes)
  : option (result frame_error (N * N)) :=
  match fuel with
  | O => None
  | S f =>
    match buf with
    | [] => None
    | b :: rest =>
      if (i =? 4) && (15 <? b) then Some (Err EVarintOverflow)
      else
        let value' := N.lor value (N.shiftl (N.land b 127) shift mod two32) in
        if N.land b 128 =? 0 then Some (Ok (value', i + 1))
        else decode_varint_loop f (i + 1) value' (shift + 7) rest
    end
  end.
(** framing/mod.rs:809-837 [decode_varint_u32] *)
Definition decode_varint_u32 (buf : bytes) : result frame_error (N * N) :=
  match decode_varint_loop 5 0 0 0 buf with
  | Some r => r
  | None => Err (EIncomplete (blen buf) (blen buf + 1))
  end.

(** framing/mod.rs:44-128 [MessageTag] and its [TryFrom<u8>]: 12 is not a
    message tag (it is the label header). *)
Inductive message_tag :=
| TCompound | TPing | TIndirectPing | TAck | TSuspect | TAlive | TDead
| TPushPull | TUserData | TNack | TErrorResponse
| TEncrypted | TCompressed | TChecksumed.

(** framing/mod.rs:44-86 [MessageTag as u8] *)
Definition tag_byte (t : message_tag) : byte :=
  match t with
  | TCompound => 1 | TPing => 2 | TIndirectPing => 3 | TAck => 4 | TSuspect => 5
  | TAlive => 6 | TDead => 7 | TPushPull => 8 | TUserData => 9 | TNack => 10
  | TErrorResponse => 11 | TEncrypted => 13 | TCompressed => 14 | TChecksumed => 15
  end.

(** framing/mod.rs:106-128 [TryFrom<u8>] *)
Definition tag_of_byte (b : byte) : result frame_error message_tag :=
  match b with
  | 1 => Ok TCompound | 2 => Ok TPing | 3 => Ok TIndirectPing | 4 => Ok TAck
  | 5 => Ok TSuspect | 6 => Ok TAlive | 7 => Ok TDead | 8 => Ok TPushPull
  | 9 => Ok TUserData | 10 => Ok TNack | 11 => Ok TErrorResponse
  | 13 => Ok TEncrypted | 14 => Ok TCompressed | 15 => Ok TChecksumed
  | _ => Err (EUnknownTag b)
  end.

(** framing/mod.rs:748-760 [encode_plain_frame]. *)
Definition encode_plain_frame (t : message_tag) (body : bytes) : result frame_error bytes :=
  if u32_max <? blen body then Err (EFrameTooLarge (blen body))
  else Ok (tag_byte t :: encode_varint_u32 (blen body) ++ body).

(** framing/mod.rs:766-797 [decode_plain_frame].  [usize] is 64 bits, so the
    [saturating_add] on [body_end] cannot saturate and is a plain addition. *)
Definition decode_plain_frame (buf : bytes)
  : result frame_error (message_tag * bytes * N) :=
  match buf with
  | [] => Err EEmpty
  | b0 :: rest =>
    match tag_of_byte b0 with
    | Err e => Err e
    | Ok t =>
      match decode_varint_u32 rest with
      | Err (EIncomplete _ _) => Err (EIncomplete (blen buf) (blen buf + 1))
      | Err e => Err e
      | Ok (body_len, vb) =>
        let header_len := 1 + vb in
        let body_end := header_len + body_len in
        if blen buf <? body_end then Err (EIncomplete (blen buf) body_end)
        else Ok (t, btake body_len (bdrop header_len buf), body_end)
      end
    end
  end.

(** stream/mod.rs:393-452 [probe_frame] on the input buffer [buf] with cap
    [max].  [PNeedMore] is [Ok(None)], [PFrame tag total] is
    [Ok(Some((tag,total)))], [PReject] is [Err(_)] (the error text is
    dropped).  The loop index runs over [1..min(len,6)]: at most 5 varint
    bytes; accumulation is in [u64], which cannot overflow with 35 bits. *)
Inductive probe_result := PNeedMore | PFrame (tag : byte) (total : N) | PReject.

(** stream/mod.rs:393-452 [probe_frame]: its length loop *)
Fixpoint probe_loop (fuel : nat) (tag : byte) (max buf_len value shift vb : N)
  (rest : bytes) : probe_result :=
  match fuel with
  | O => PNeedMore
  | S f =>
    match rest with
    | [] => PNeedMore
    | b :: rest' =>
      let vb' := vb + 1 in
      let value' := N.lor value (N.shiftl (N.land b 127) shift) in
      if N.land b 128 =? 0 then
        if u32_max <? value' then PReject
        else
          let total := 1 + vb' + value' in
          if max <? total then PReject
          else if total <=? buf_len then PFrame tag total else PNeedMore
      else
        if 35 <=? shift + 7 then PReject
        else probe_loop f tag max buf_len value' (shift + 7) vb' rest'
    end
  end.
(** stream/mod.rs:393-452 [probe_frame] *)
Definition probe_frame (max : N) (buf : bytes) : probe_result :=
  match buf with
  | [] => PNeedMore
  | tag :: rest => probe_loop 5 tag max (blen buf) 0 0 0 rest
  end.

(** framing/mod.rs:466-511 [encode_compound], taking the already encoded part
    frames (each a plain frame; in the code they are encoded in place).  The
    [usize] accumulator [total] only sizes the allocation; its overflow check
    is dropped. *)
Fixpoint encode_parts (parts : list bytes) : result frame_error bytes :=
  match parts with
  | [] => Ok []
  | p :: ps =>
    if u32_max <? blen p then Err (EFrameTooLarge (blen p))
    else match encode_parts ps with
         | Err e => Err e
         | Ok r => Ok (encode_varint_u32 (blen p) ++ p ++ r)
         end
  end.
(** framing/mod.rs:466-511 [encode_compound] *)
Definition encode_compound (parts : list bytes) : result frame_error bytes :=
  if blen parts <? 2 then Err EDecode
  else if u32_max <? blen parts then Err (EFrameTooLarge (blen parts))
  else match encode_parts parts with
       | Err e => Err e
       | Ok r => Ok (tag_byte TCompound :: encode_varint_u32 (blen parts) ++ r)
       end.

(** framing/mod.rs:522-587 [decode_compound]: the [for _ in 0..count] loop;
    [buf] is the whole datagram, [cursor] the read position.  On 64-bit
    [usize] the [checked_add] cannot fail. *)
Fixpoint decode_parts (count : nat) (buf : bytes) (cursor : N)
  : result frame_error (list bytes * N) :=
  match count with
  | O => Ok ([], cursor)
  | S n =>
    match decode_varint_u32 (bdrop cursor buf) with
    | Err (EIncomplete _ _) => Err (EIncomplete (blen buf) (blen buf + 1))
    | Err e => Err e
    | Ok (inner_len, lb) =>
      let body_start := cursor + lb in
      let body_end := body_start + inner_len in
      if blen buf <? body_end then Err (EIncomplete (blen buf) body_end)
      else match decode_parts n buf body_end with
           | Err e => Err e
           | Ok (ps, c) => Ok (btake inner_len (bdrop body_start buf) :: ps, c)
           end
    end
  end.
(** framing/mod.rs:522-587 [decode_compound] *)
Definition decode_compound (buf : bytes) : result frame_error (list bytes) :=
  match buf with
  | [] => Err EEmpty
  | b0 :: rest =>
    match tag_of_byte b0 with
    | Err e => Err e
    | Ok TCompound =>
      match decode_varint_u32 rest with
      | Err (EIncomplete _ _) => Err (EIncomplete (blen buf) (blen buf + 1))
      | Err e => Err e
      | Ok (count, cb) =>
        if count <? 2 then Err EDecode
        else
          let cursor := 1 + cb in
          if blen buf - cursor <? count then Err EDecode
          else match decode_parts (N.to_nat count) buf cursor with
               | Err e => Err e
               | Ok (ps, c) => if c =? blen buf then Ok ps else Err EDecode
               end
      end
    | Ok _ => Err (EUnknownTag b0)
    end
  end.

(** convert/mod.rs:138-205: socket addresses.  An IPv6 address keeps its
    flowinfo and scope id, which the encoder rejects when non-zero. *)
Inductive socket_addr :=
| V4 (octets : bytes) (port : N)
| V6 (octets : bytes) (port flowinfo scope : N).

(** convert/mod.rs [ConvertError] (address part). *)
Inductive addr_error :=
| AddrEmpty | AddrLengthMismatch (tag : byte) (expected got : N)
| AddrUnknownVersion (b : byte) | AddrScopedV6.

(** u16::to_be_bytes / from_be_bytes; used at convert/mod.rs:185-205 *)
Definition u16_to_be (p : N) : bytes := [N.shiftr p 8; N.land p 255].
(** [u16::from_be_bytes], used at convert/mod.rs:138-176 *)
Definition u16_of_be (hi lo : byte) : N := N.shiftl hi 8 + lo.

(** convert/mod.rs:185-205 [socket_addr_to_bytes] *)
Definition socket_addr_to_bytes (a : socket_addr) : result addr_error bytes :=
  match a with
  | V4 o p => Ok (0 :: o ++ u16_to_be p)
  | V6 o p fl sc =>
    if negb (fl =? 0) || negb (sc =? 0) then Err AddrScopedV6
    else Ok (1 :: o ++ u16_to_be p)
  end.

(** convert/mod.rs:138-176 [socket_addr_from_bytes] *)
Definition socket_addr_from_bytes (buf : bytes) : result addr_error socket_addr :=
  match buf with
  | [] => Err AddrEmpty
  | 0 :: _ =>
    if negb (blen buf =? 7) then Err (AddrLengthMismatch 0 7 (blen buf))
    else Ok (V4 (btake 4 (bdrop 1 buf)) (u16_of_be (nth 5 buf 0) (nth 6 buf 0)))
  | 1 :: _ =>
    if negb (blen buf =? 19) then Err (AddrLengthMismatch 1 19 (blen buf))
    else Ok (V6 (btake 16 (bdrop 1 buf)) (u16_of_be (nth 17 buf 0) (nth 18 buf 0)) 0 0)
  | b :: _ => Err (AddrUnknownVersion b)
  end.

(** Range of a Rust [SocketAddr]: 4 or 16 octets, a [u16] port, [u32]
    flowinfo and scope. These are what convert/mod.rs:138-205 takes and gives *)
Definition wf_socket_addr (a : socket_addr) : Prop :=
  match a with
  | V4 o p => wf_bytes o /\ length o = 4%nat /\ p < 65536
  | V6 o p fl sc => wf_bytes o /\ length o = 16%nat /\ p < 65536
  end.
