(** Vocabulary for the wire properties: which values Rust types can hold, and
    when the id and address codecs are faithful. *)
From Verif Require Import Base CodecModel LabelModel MsgModel WireModel.
Local Open Scope N_scope.

(** The [Data] implementations of the id and address types read back what they
    write (shown for the implementations of the crate in PropsData.v). *)
Definition wf_codec (W : wcodec) : Prop :=
  (forall x b, w_id W x = Some b -> wf_bytes b /\ w_id_of W b = Some x) /\
  (forall x b, w_addr W x = Some b -> wf_bytes b /\ w_addr_of W b = Some x).

(** A [State]: an unknown state is a byte that is not one of the known ones
    (typed/state.rs: it can only be obtained from a byte) *)
Definition wf_state (s : pstate) : Prop := match s with PUnknown v => 3 < v < 256 | _ => True end.
(** A [Meta]: at most [Meta::MAX_SIZE] bytes *)
Definition wf_meta (b : bytes) : Prop := wf_bytes b /\ blen b <= 65535.
(** [u32] incarnation, [u8] versions *)
Definition wf_pns (p : pns) : Prop :=
  pn_inc p <= u32_max /\ wf_state (pn_state p) /\ wf_meta (pn_meta p) /\ pn_pv p < 256 /\ pn_dv p < 256.
(** The values a Rust [Message] can hold *)
Definition wf_msg (m : msg) : Prop :=
  match m with
  | MPing s _ _ | MIndirectPing s _ _ | MNack s => s <= u32_max
  | MAck s p => s <= u32_max /\ wf_bytes p
  | MSuspect i _ _ | MDead i _ _ => i <= u32_max
  | MAlive a => al_inc a <= u32_max /\ wf_meta (al_meta a) /\ al_pv a < 256 /\ al_dv a < 256
  | MPushPull _ ss u => Forall wf_pns ss /\ wf_bytes u
  | MUserData d => wf_bytes d
  | MErrorResponse t => wf_bytes t /\ utf8_valid t = true
  end.
(** Ids and addresses of a message all have an encoding *)
Definition enc_node (W : wcodec) (x : node) : Prop := w_id W (nd_id x) <> None /\ w_addr W (nd_addr x) <> None.
Definition encodable (W : wcodec) (m : msg) : Prop :=
  match m with
  | MPing _ a b | MIndirectPing _ a b => enc_node W a /\ enc_node W b
  | MSuspect _ n f | MDead _ n f => w_id W n <> None /\ w_id W f <> None
  | MAlive a => enc_node W (mkNode (al_id a) (al_addr a))
  | MPushPull _ ss _ => Forall (fun p => enc_node W (mkNode (pn_id p) (pn_addr p))) ss
  | _ => True
  end.

(** A field that can be written: number 1 to 2^29-1, a 64-bit number, or bytes *)
Definition vok (v : wval) : Prop :=
  match v with
  | WVar v => v < two64
  | WFix64 b => wf_bytes b /\ blen b = 8
  | WFix32 b => wf_bytes b /\ blen b = 4
  | WLen b => wf_bytes b /\ blen b < two64
  end.
Definition fok (f : field) : Prop := 1 <= fst f <= 536870911 /\ vok (snd f).

(** the field numbers of a message kind *)
Definition known (t : message_tag) : schema :=
  match t with
  | CodecModel.TPing | TIndirectPing => ping_schema
  | TAck => ack_schema | TNack => nack_schema | TSuspect | TDead => susp_schema | TAlive => alive_schema
  | TPushPull => pp_schema | TUserData | TErrorResponse => user_schema
  | _ => []
  end.
Definition is_known (sc : schema) (f : field) : bool := existsb (fun x => fst x =? fst f) sc.

(** the fields a message cannot do without: sequence number, source and target of
    a ping; incarnation, member and accuser of an accusation; incarnation and
    node of an announcement *)
Definition required (t : message_tag) : list N :=
  match t with
  | CodecModel.TPing | TIndirectPing | TSuspect | TDead => [1; 2; 3]
  | TAlive => [1; 3]
  | _ => []
  end.
(** the fields of a member listed in a push/pull: id, address, incarnation, state *)
Definition required_state : list N := [1; 2; 4; 5].
Definition occurs (n : N) (fs : list field) : Prop := exists v, In (n, v) fs.
