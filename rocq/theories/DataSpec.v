(** Vocabulary for the properties of ids and addresses on the wire. *)
From Coq Require Import ZArith.
From Verif Require Import Base CodecModel LabelModel MsgModel WireModel DataModel.
Local Open Scope N_scope.

(** The values the Rust type has *)
Fixpoint dwf (t : dty) : den t -> Prop :=
  match t with
  | DStr => fun v => wf_bytes v /\ utf8_valid v = true
  | DBytes => fun v => wf_bytes v
  | DArr n => fun v => wf_bytes v /\ blen v = n
  | DU8 => fun v => v < 256
  | DBool => fun _ => True
  | DI8 => fun z => (-128 <= z < 128)%Z
  | DUInt w => fun v => v < 2 ^ wbits w
  | DSInt w => fun z => (- 2 ^ (Z.of_N (wbits w) - 1) <= z < 2 ^ (Z.of_N (wbits w) - 1))%Z
  | DChar => fun v => v < 55296 \/ 57343 < v < 1114112
  | DF32 | DIp4 => fun v => wf_bytes v /\ blen v = 4
  | DF64 => fun v => wf_bytes v /\ blen v = 8
  | DIp6 => fun v => wf_bytes v /\ blen v = 16
  | DIp => fun v => match v with inl o => wf_bytes o /\ blen o = 4 | inr o => wf_bytes o /\ blen o = 16 end
  | DSa4 => fun v => wf_bytes (fst v) /\ blen (fst v) = 4 /\ snd v < 65536
  | DSa6 => fun v => let '(o, p, fl, sc) := v in wf_bytes o /\ blen o = 16 /\ p < 65536
  | DSa => wf_socket_addr
  | DPair a b => fun v => dwf a (fst v) /\ dwf b (snd v)
  end.
(** No IPv6 socket address in it has a flowinfo or scope id *)
Fixpoint unscoped (t : dty) : den t -> Prop :=
  match t with
  | DSa6 => fun v => let '(_, _, fl, sc) := v in fl = 0 /\ sc = 0
  | DSa => fun v => match v with V4 _ _ => True | V6 _ _ fl sc => fl = 0 /\ sc = 0 end
  | DPair a b => fun v => unscoped a (fst v) /\ unscoped b (snd v)
  | _ => fun _ => True
  end.
(** A field some later version might add to a pair: a key byte with one of the
    five wire types that is not the key of either half, then a value of that
    wire type *)
Inductive foreign (ka kb : byte) : bytes -> Prop :=
| FByte k b : k < 256 -> k / 8 = 0 -> k <> ka -> k <> kb -> foreign ka kb [k; b]
| FVarint k v : k < 256 -> k / 8 = 1 -> k <> ka -> k <> kb -> v < two64 -> foreign ka kb (k :: pb_varint v)
| FDelim k b : k < 256 -> k / 8 = 2 -> k <> ka -> k <> kb -> blen b <= u32_max -> foreign ka kb (k :: pb_varint (blen b) ++ b)
| FFix32 k b : k < 256 -> k / 8 = 3 -> k <> ka -> k <> kb -> blen b = 4 -> foreign ka kb (k :: b)
| FFix64 k b : k < 256 -> k / 8 = 4 -> k <> ka -> k <> kb -> blen b = 8 -> foreign ka kb (k :: b).
(** the key bytes of the halves of a pair: wire type times 8, plus 1 or 2 *)
Definition key1 (t : dty) : byte := 8 * wtnum t + 1.
Definition key2 (t : dty) : byte := 8 * wtnum t + 2.
(** a value with its length in front if its type is length-delimited *)
Definition delimited (t : dty) (b : bytes) : bytes := if wtnum t =? 2 then pb_varint (blen b) ++ b else b.
