(** Protocol messages on the wire: the protobuf bodies (buffa-generated from
    proto/memberlist/v1/messages.proto), the typed <-> protobuf bridge
    (bridge/mod.rs), message frames (framing/mod.rs) and the datagram codec
    (codec/mod.rs).  All files under memberlist-proto.

    The generated code and the buffa crate are not in /repo: their part here
    follows the protobuf encoding specification for the schema of
    messages.proto (fields in number order; fields of implicit presence are
    omitted when default; on input any field order, the last value of a scalar
    counts, the values of a message field are merged, unknown fields are
    skipped, a known field with the wrong wire type is an error).  This is part
    of the trusted base.  Simplified: group wire types (3, 4) are errors. *)
From Verif Require Import Base CodecModel LabelModel MsgModel.
Local Open Scope N_scope.

(** * Protobuf primitives (protobuf encoding specification) *)

(** base-128 varints of up to 10 bytes;
    Protobuf primitive; external crate buffa, from the protobuf specification, used at bridge/mod.rs *)
Fixpoint pb_enc (fuel : nat) (v : N) : bytes :=
  match fuel with
  | O => [v]
  | S f => if 128 <=? v then (v mod 128 + 128) :: pb_enc f (v / 128) else [v]
  end.
(** ten groups of 7 bits cover a [u64];
    Protobuf primitive; external crate buffa, from the protobuf specification, used at bridge/mod.rs *)
Definition pb_varint (v : N) : bytes := pb_enc 9 v.
(** reading one varint: value and the rest of the input; [None] when the input
    ends early or more than [fuel] bytes are needed;
    Protobuf primitive; external crate buffa, from the protobuf specification, used at bridge/mod.rs *)
Fixpoint pb_dec (fuel : nat) (l : bytes) : option (N * bytes) :=
  match fuel, l with
  | S f, b :: r =>
    if b <? 128 then Some (b, r)
    else match pb_dec f r with Some (v, r') => Some (b - 128 + 128 * v, r') | None => None end
  | _, _ => None
  end.
(** a varint is at most 10 bytes and below 2^64;
    Protobuf primitive; external crate buffa, from the protobuf specification, used at bridge/mod.rs *)
Definition pb_read_varint (l : bytes) : option (N * bytes) :=
  match pb_dec 10 l with
  | Some (v, r) => if v <? two64 then Some (v, r) else None
  | None => None
  end.
(** the size of a varint, from the bit length of the value;
    Protobuf primitive; external crate buffa, from the protobuf specification, used at bridge/mod.rs *)
Definition pb_varint_len (v : N) : N := (N.max 1 (N.size v) + 6) / 7.

(** a field value by wire type (0, 1, 2, 5);
    Protobuf primitive; external crate buffa, from the protobuf specification, used at bridge/mod.rs *)
Inductive wval := WVar (v : N) | WFix64 (b : bytes) | WLen (b : bytes) | WFix32 (b : bytes).
(** one field: number and value;
    Protobuf primitive; external crate buffa, from the protobuf specification, used at bridge/mod.rs *)
Definition field : Type := N * wval.
(** the wire type number;
    Protobuf primitive; external crate buffa, from the protobuf specification, used at bridge/mod.rs *)
Definition wtype (v : wval) : N := match v with WVar _ => 0 | WFix64 _ => 1 | WLen _ => 2 | WFix32 _ => 5 end.
(** key [(number << 3) | wire type] and value;
    Protobuf primitive; external crate buffa, from the protobuf specification, used at bridge/mod.rs *)
Definition ser_field (f : field) : bytes :=
  pb_varint (8 * fst f + wtype (snd f)) ++
  match snd f with
  | WVar v => pb_varint v
  | WFix64 b | WFix32 b => b
  | WLen b => pb_varint (blen b) ++ b
  end.
(** a message body;
    Protobuf primitive; external crate buffa, from the protobuf specification, used at bridge/mod.rs *)
Definition ser (fs : list field) : bytes := concat (map ser_field fs).
(** the size computed before writing ([encoded_len]); the total is a [u32],
    see [body_len].  Simplified: the length of a nested message is that of its
    bytes, not computed by the same recursion.
    Protobuf primitive; external crate buffa, from the protobuf specification, used at bridge/mod.rs *)
Definition field_size (f : field) : N :=
  pb_varint_len (8 * fst f + wtype (snd f)) +
  match snd f with
  | WVar v => pb_varint_len v
  | WFix64 _ => 8
  | WFix32 _ => 4
  | WLen b => pb_varint_len (blen b) + blen b
  end.
(** sum of the field sizes;
    Protobuf primitive; external crate buffa, from the protobuf specification, used at bridge/mod.rs *)
Definition pb_size (fs : list field) : N := fold_right (fun f n => field_size f + n) 0 fs.

(** [n] bytes of input, if there are that many;
    Protobuf primitive; external crate buffa, from the protobuf specification, used at bridge/mod.rs *)
Definition take_n (n : N) (l : bytes) : option (bytes * bytes) :=
  if blen l <? n then None else Some (btake n l, bdrop n l).
(** one field: field numbers are 1 to 2^29-1;
    Protobuf primitive; external crate buffa, from the protobuf specification, used at bridge/mod.rs *)
Definition read_field (l : bytes) : option (field * bytes) :=
  match pb_read_varint l with
  | None => None
  | Some (key, r) =>
    let n := key / 8 in
    if (n =? 0) || (536870911 <? n) then None
    else match key mod 8 with
         | 0 => match pb_read_varint r with Some (v, r') => Some ((n, WVar v), r') | None => None end
         | 1 => match take_n 8 r with Some (b, r') => Some ((n, WFix64 b), r') | None => None end
         | 2 => match pb_read_varint r with
                | Some (len, r') => match take_n len r' with Some (b, r2) => Some ((n, WLen b), r2) | None => None end
                | None => None
                end
         | 5 => match take_n 4 r with Some (b, r') => Some ((n, WFix32 b), r') | None => None end
         | _ => None
         end
  end.
(** a body as its fields; [fuel] bounds their number (one per byte);
    Protobuf primitive; external crate buffa, from the protobuf specification, used at bridge/mod.rs *)
Fixpoint parse_loop (fuel : nat) (l : bytes) : option (list field) :=
  match l with
  | [] => Some []
  | _ => match fuel with
         | O => None
         | S f => match read_field l with
                  | None => None
                  | Some (x, r) => match parse_loop f r with Some fs => Some (x :: fs) | None => None end
                  end
         end
  end.
(** Protobuf primitive; external crate buffa, from the protobuf specification, used at bridge/mod.rs *)
Definition parse_fields (l : bytes) : option (list field) := parse_loop (length l) l.

(** a schema: known field numbers with their wire types;
    Protobuf primitive; external crate buffa, from the protobuf specification, used at bridge/mod.rs *)
Definition schema := list (N * N).
(** no known field has another wire type;
    Protobuf primitive; external crate buffa, from the protobuf specification, used at bridge/mod.rs *)
Definition typed_ok (sc : schema) (fs : list field) : bool :=
  forallb (fun f => match find (fun x => fst x =? fst f) sc with
                    | Some x => snd x =? wtype (snd f)
                    | None => true
                    end) fs.
(** the bodies of the fields numbered [n], in order;
    Protobuf primitive; external crate buffa, from the protobuf specification, used at bridge/mod.rs *)
Fixpoint lens (n : N) (fs : list field) : list bytes :=
  match fs with
  | [] => []
  | (m, WLen b) :: r => if m =? n then b :: lens n r else lens n r
  | _ :: r => lens n r
  end.
(** the numbers of the fields numbered [n], in order;
    Protobuf primitive; external crate buffa, from the protobuf specification, used at bridge/mod.rs *)
Fixpoint vars (n : N) (fs : list field) : list N :=
  match fs with
  | [] => []
  | (m, WVar v) :: r => if m =? n then v :: vars n r else vars n r
  | _ :: r => vars n r
  end.
(** the value that counts: the last one;
    Protobuf primitive; external crate buffa, from the protobuf specification, used at bridge/mod.rs *)
Definition last_opt {A} (l : list A) : option A := match rev l with [] => None | x :: _ => Some x end.
(** [optional bytes];
    Protobuf primitive; external crate buffa, from the protobuf specification, used at bridge/mod.rs *)
Definition get_len (n : N) (fs : list field) : option bytes := last_opt (lens n fs).
(** [optional uint32]: a longer varint is truncated;
    Protobuf primitive; external crate buffa, from the protobuf specification, used at bridge/mod.rs *)
Definition get_u32 (n : N) (fs : list field) : option N := option_map (fun v => v mod two32) (last_opt (vars n fs)).
(** [bytes], [uint32], [bool] of implicit presence;
    Protobuf primitive; external crate buffa, from the protobuf specification, used at bridge/mod.rs *)
Definition dflt {A} (d : A) (x : option A) : A := match x with Some v => v | None => d end.
(** message bodies checked against their schema;
    Protobuf primitive; external crate buffa, from the protobuf specification, used at bridge/mod.rs *)
Definition parse_msg (sc : schema) (l : bytes) : option (list field) :=
  match parse_fields l with
  | Some fs => if typed_ok sc fs then Some fs else None
  | None => None
  end.
(** a message field: the fields of its occurrences, appended (merged);
    Protobuf primitive; external crate buffa, from the protobuf specification, used at bridge/mod.rs *)
Fixpoint parse_all (sc : schema) (ls : list bytes) : option (list field) :=
  match ls with
  | [] => Some []
  | l :: r => match parse_msg sc l, parse_all sc r with
              | Some a, Some b => Some (a ++ b)
              | _, _ => None
              end
  end.
(** [None] for a field that does not occur;
    Protobuf primitive; external crate buffa, from the protobuf specification, used at bridge/mod.rs *)
Definition get_msg (sc : schema) (n : N) (fs : list field) : option (option (list field)) :=
  match lens n fs with
  | [] => Some None
  | ls => option_map Some (parse_all sc ls)
  end.

(** messages.proto:41-44 [Node] *)
Definition node_schema : schema := [(1, 2); (2, 2)].
(** messages.proto:58-71 [PushNodeState] *)
Definition pns_schema : schema := [(1, 2); (2, 2); (3, 2); (4, 0); (5, 0); (6, 0); (7, 0)].
(** messages.proto:83-91 [Alive] *)
Definition alive_schema : schema := [(1, 0); (2, 2); (3, 2); (4, 0); (5, 0)].
(** messages.proto:95-107 [Suspect], [Dead] *)
Definition susp_schema : schema := [(1, 0); (2, 2); (3, 2)].
(** messages.proto:111-123 [Ping], [IndirectPing] *)
Definition ping_schema : schema := [(1, 0); (2, 2); (3, 2)].
(** messages.proto:127-130 [Ack] *)
Definition ack_schema : schema := [(1, 0); (2, 2)].
(** messages.proto:135-137 [Nack] *)
Definition nack_schema : schema := [(1, 0)].
(** messages.proto:141-145 [PushPull] *)
Definition pp_schema : schema := [(1, 0); (2, 2); (3, 2)].
(** messages.proto:148-150 [UserData]; 155-157 [ErrorResponse] *)
Definition user_schema : schema := [(1, 2)].

(** * Ids and addresses *)

(** What bridge/mod.rs:46-74 [data_to_bytes] and [data_from_bytes] do for the id
    type and the address type: the code is generic in the two [Data]
    implementations.  [None] is an encoding or decoding error. *)
Record wcodec := mkWC {
  w_id : N -> option bytes;  w_id_of : bytes -> option N;
  w_addr : N -> option bytes; w_addr_of : bytes -> option N }.

Section Wire.
Variable W : wcodec.

(** bridge/mod.rs:135-137 [state_to_buffa] with typed/state.rs [From<State> for u8] *)
Definition state_byte (s : pstate) : N :=
  match s with PAlive => 0 | PSuspect => 1 | PDead => 2 | PLeft => 3 | PUnknown v => v end.
(** bridge/mod.rs:144-152 [state_from_buffa] with typed/state.rs [From<u8> for State]:
    the enum value is the low 32 bits as an [i32]; outside 0..=255 is an error *)
Definition state_of (v : N) : option pstate :=
  if 255 <? v then None
  else Some (match v with 0 => PAlive | 1 => PSuspect | 2 => PDead | 3 => PLeft | _ => PUnknown v end).
(** bridge/mod.rs:158-183 [checked_version_byte], [versioned]: omitted means 1 *)
Definition version_of (v : option N) : option N :=
  match v with
  | None => Some 1
  | Some v => if 255 <? v then None else Some v
  end.
(** typed/meta.rs [Meta::MAX_SIZE] = [u16::MAX] *)
Definition META_MAX : N := 65535.
(** bridge/mod.rs:100-102 [meta_from_wire] *)
Definition meta_of (b : bytes) : option bytes := if META_MAX <? blen b then None else Some b.

(** fields of explicit presence;
    Protobuf primitive; external crate buffa, from the protobuf specification, used at bridge/mod.rs *)
Definition fvar (n v : N) : list field := [(n, WVar v)].
(** Protobuf primitive; external crate buffa, from the protobuf specification, used at bridge/mod.rs *)
Definition flen (n : N) (b : bytes) : list field := [(n, WLen b)].
(** fields of implicit presence: omitted when zero / empty;
    Protobuf primitive; external crate buffa, from the protobuf specification, used at bridge/mod.rs *)
Definition ivar (n v : N) : list field := if v =? 0 then [] else fvar n v.
(** Protobuf primitive; external crate buffa, from the protobuf specification, used at bridge/mod.rs *)
Definition ilen (n : N) (b : bytes) : list field := match b with [] => [] | _ => flen n b end.

(** bridge/mod.rs:186-196 [node_to_buffa], 199-207 [node_from_buffa] *)
Definition node_fields (x : node) : option (list field) :=
  match w_id W (nd_id x), w_addr W (nd_addr x) with
  | Some i, Some a => Some (flen 1 i ++ flen 2 a)
  | _, _ => None
  end.
(** bridge/mod.rs:199-207 [node_from_buffa] *)
Definition node_of (fs : list field) : option node :=
  match get_len 1 fs, get_len 2 fs with
  | Some i, Some a =>
    match w_id_of W i, w_addr_of W a with
    | Some i', Some a' => Some (mkNode i' a')
    | _, _ => None
    end
  | _, _ => None
  end.
(** a field holding a node; missing is [MissingField];
    bridge/mod.rs:430-453, 472-497 *)
Definition node_at (n : N) (fs : list field) : option node :=
  match get_msg node_schema n fs with
  | Some (Some x) => node_of x
  | _ => None
  end.

(** bridge/mod.rs:267-284 [push_node_state_to_buffa], 287-312 [push_node_state_from_buffa] *)
Definition pns_fields (p : pns) : option (list field) :=
  match w_id W (pn_id p), w_addr W (pn_addr p) with
  | Some i, Some a =>
    Some (flen 1 i ++ flen 2 a ++ ilen 3 (pn_meta p) ++ fvar 4 (pn_inc p) ++ fvar 5 (state_byte (pn_state p))
          ++ fvar 6 (pn_pv p) ++ fvar 7 (pn_dv p))
  | _, _ => None
  end.
(** bridge/mod.rs:287-313 [push_node_state_from_buffa] *)
Definition pns_of (fs : list field) : option pns :=
  match get_len 1 fs, get_len 2 fs with
  | Some i, Some a =>
    match w_id_of W i, w_addr_of W a with
    | Some i', Some a' =>
      match get_u32 4 fs, get_u32 5 fs with
      | Some inc, Some st =>
        match state_of st, meta_of (dflt [] (get_len 3 fs)), version_of (get_u32 6 fs), version_of (get_u32 7 fs) with
        | Some s, Some m, Some pv, Some dv => Some (mkPNS inc i' a' s m pv dv)
        | _, _, _, _ => None
        end
      | _, _ => None
      end
    | _, _ => None
    end
  | _, _ => None
  end.
(** all or nothing: [collect::<Result<Vec<_>, _>>]; bridge/mod.rs:553-568 *)
Fixpoint all_some {A B} (f : A -> option B) (l : list A) : option (list B) :=
  match l with
  | [] => Some []
  | x :: r => match f x, all_some f r with
              | Some y, Some ys => Some (y :: ys)
              | _, _ => None
              end
  end.

(** framing/mod.rs:90-104 [MessageTag::for_message] *)
Definition msg_tag (m : msg) : message_tag :=
  match m with
  | MPing _ _ _ => CodecModel.TPing
  | MIndirectPing _ _ _ => TIndirectPing
  | MAck _ _ => TAck
  | MNack _ => TNack
  | MSuspect _ _ _ => TSuspect
  | MAlive _ => TAlive
  | MDead _ _ _ => TDead
  | MPushPull _ _ _ => TPushPull
  | MUserData _ => TUserData
  | MErrorResponse _ => TErrorResponse
  end.

(** bridge/mod.rs:604-624 [message_to_any] with the per-message functions it calls
    (alive 317-331, suspect 360-370, dead 388-398, ping 416-427, indirect ping
    456-469, ack 500-506, nack 519-524, push/pull 534-550, user data 571-576,
    error 586-591 -- encoding direction), giving the fields of the body *)
Definition msg_fields (m : msg) : option (list field) :=
  match m with
  | MPing s a b | MIndirectPing s a b =>
    match node_fields a, node_fields b with
    | Some x, Some y => Some (fvar 1 s ++ flen 2 (ser x) ++ flen 3 (ser y))
    | _, _ => None
    end
  | MAck s p => Some (ivar 1 s ++ ilen 2 p)
  | MNack s => Some (ivar 1 s)
  | MSuspect i n f | MDead i n f =>
    match w_id W n, w_id W f with
    | Some x, Some y => Some (fvar 1 i ++ flen 2 x ++ flen 3 y)
    | _, _ => None
    end
  | MAlive a =>
    match node_fields (mkNode (al_id a) (al_addr a)) with
    | Some x => Some (fvar 1 (al_inc a) ++ ilen 2 (al_meta a) ++ flen 3 (ser x) ++ fvar 4 (al_pv a) ++ fvar 5 (al_dv a))
    | None => None
    end
  | MPushPull j ss u =>
    match all_some pns_fields ss with
    | Some xs => Some (ivar 1 (if j then 1 else 0) ++ concat (map (fun x => flen 2 (ser x)) xs) ++ ilen 3 u)
    | None => None
    end
  | MUserData d => Some (ilen 1 d)
  | MErrorResponse t => Some (ilen 1 t)
  end.

(** framing/mod.rs:292-306 [body_encoded_len]: the sum as a [u32] *)
Definition body_len (fs : list field) : N := pb_size fs mod two32.
(** framing/mod.rs:328-349 [encode_message] after [message_to_any] *)
Definition encode_message (m : msg) : option bytes :=
  match msg_fields m with
  | None => None
  | Some fs =>
    let n := body_len fs in
    let body := ser fs in
    if blen body =? n then Some (tag_byte (msg_tag m) :: encode_varint_u32 n ++ body) else None
  end.

(** framing/mod.rs:356-410, 419-455 [decode_message(_zerocopy)] on the body, then
    bridge/mod.rs:627-647 [message_from_any] (decoding direction of the functions
    above).  All errors are [None]. *)
Definition decode_body (t : message_tag) (l : bytes) : option msg :=
  match t with
  | CodecModel.TPing | TIndirectPing =>
    match parse_msg ping_schema l with
    | None => None
    | Some fs =>
      match node_at 2 fs, node_at 3 fs, get_u32 1 fs with
      | Some a, Some b, Some s => Some (match t with CodecModel.TPing => MPing s a b | _ => MIndirectPing s a b end)
      | _, _, _ => None
      end
    end
  | TAck =>
    match parse_msg ack_schema l with
    | None => None
    | Some fs => Some (MAck (dflt 0 (get_u32 1 fs)) (dflt [] (get_len 2 fs)))
    end
  | TNack =>
    match parse_msg nack_schema l with
    | None => None
    | Some fs => Some (MNack (dflt 0 (get_u32 1 fs)))
    end
  | TSuspect | TDead =>
    match parse_msg susp_schema l with
    | None => None
    | Some fs =>
      match get_len 2 fs, get_len 3 fs, get_u32 1 fs with
      | Some n, Some f, Some i =>
        match w_id_of W n, w_id_of W f with
        | Some n', Some f' => Some (match t with TSuspect => MSuspect i n' f' | _ => MDead i n' f' end)
        | _, _ => None
        end
      | _, _, _ => None
      end
    end
  | TAlive =>
    match parse_msg alive_schema l with
    | None => None
    | Some fs =>
      match node_at 3 fs, meta_of (dflt [] (get_len 2 fs)), version_of (get_u32 4 fs), version_of (get_u32 5 fs), get_u32 1 fs with
      | Some x, Some m, Some pv, Some dv, Some i => Some (MAlive (mkAlive i (nd_id x) (nd_addr x) m pv dv))
      | _, _, _, _, _ => None
      end
    end
  | TPushPull =>
    match parse_msg pp_schema l with
    | None => None
    | Some fs =>
      match all_some (fun b => match parse_msg pns_schema b with Some x => pns_of x | None => None end) (lens 2 fs) with
      | Some ss => Some (MPushPull (negb (dflt 0 (last_opt (vars 1 fs)) =? 0)) ss (dflt [] (get_len 3 fs)))
      | None => None
      end
    end
  | TUserData =>
    match parse_msg user_schema l with
    | None => None
    | Some fs => Some (MUserData (dflt [] (get_len 1 fs)))
    end
  | TErrorResponse =>
    match parse_msg user_schema l with
    | None => None
    | Some fs => if forallb utf8_valid (lens 1 fs) then Some (MErrorResponse (dflt [] (get_len 1 fs))) else None
    end
  | CodecModel.TCompound | TEncrypted | TCompressed | TChecksumed => None
  end.
(** the whole frame: bytes consumed and the message;
    framing/mod.rs:356-372, 419-436 [decode_message] *)
Definition decode_message (buf : bytes) : option (N * msg) :=
  match decode_plain_frame buf with
  | Err _ => None
  | Ok (t, body, consumed) =>
    match decode_body t body with
    | Some m => Some (consumed, m)
    | None => None
    end
  end.

(** * Datagrams *)

(** codec/mod.rs:277-296 [parse_message] *)
Definition parse_message (plain : bytes) : option msg :=
  match decode_message plain with
  | Some (consumed, m) => if consumed =? blen plain then Some m else None
  | None => None
  end.
(** codec/mod.rs:312-349 [parse_messages] *)
Definition parse_messages (plain : bytes) : option (list msg) :=
  if hd 0 plain =? tag_byte CodecModel.TCompound then
    match decode_compound plain with
    | Ok parts => all_some parse_message parts
    | Err _ => None
    end
  else option_map (fun m => [m]) (parse_message plain).
(** codec/mod.rs:203-210 [encode_outgoing] *)
Definition encode_outgoing (label : option bytes) (m : msg) : option bytes :=
  match encode_message m with
  | None => None
  | Some inner => match wrap_label inner label with Ok b => Some b | Err _ => None end
  end.
(** codec/mod.rs:217-231 [encode_outgoing_compound] *)
Definition encode_outgoing_compound (label : option bytes) (ms : list msg) : option bytes :=
  match all_some encode_message ms with
  | None => None
  | Some parts =>
    match encode_compound parts with
    | Err _ => None
    | Ok inner => match wrap_label inner label with Ok b => Some b | Err _ => None end
    end
  end.
(** the receiving side: codec/mod.rs:248-267 [decode_incoming] then [parse_messages] *)
Definition receive (label : option bytes) (raw : bytes) : option (list msg) :=
  match decode_incoming raw label with
  | Ok plain => parse_messages plain
  | Err _ => None
  end.

(** The encoder as the endpoint uses it (EndpointModel.v [c_enc]): a message
    that cannot be encoded counts as no bytes. See endpoint/mod.rs:2821-2826 *)
Definition wire_enc (m : msg) : bytes := dflt [] (encode_message m).
End Wire.
