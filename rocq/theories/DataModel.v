(** The [Data] encodings of the id and address types an application can
    choose: memberlist-proto/src/data/*.rs, wire_type.rs and the two functions
    of bridge/mod.rs through which ids and addresses reach the wire.

    Integers go through the external crate varing: base-128 varints (LEB128),
    zigzag for the signed ones, at most as many bytes as the width needs and
    values over the width rejected.  This follows that crate's documentation
    and is part of the trusted base.  [Duration] (also varing) is not modelled;
    [Arc], [Box] and the other wrappers encode as what they hold
    (data/primitives.rs:420-450) and are not listed. *)
From Coq Require Import ZArith.
From Verif Require Import Base CodecModel LabelModel MsgModel WireModel.
Local Open Scope N_scope.

(** data/mod.rs [DecodeError], without the texts *)
Inductive derr := DUnderflow | DMissing | DDuplicate | DWireType | DTag | DOverflow | DMismatch | DCustom.
(** data/mod.rs [EncodeError], without the texts *)
Inductive eerr := EInsufficient | ETooLarge | ECustom.

(** the integer widths of data/primitives.rs:454 *)
Inductive width := W16 | W32 | W64 | W128.
(** bits of a width; data/primitives.rs:454 *)
Definition wbits (w : width) : N := match w with W16 => 16 | W32 => 32 | W64 => 64 | W128 => 128 end.
(** bytes a varint of the width can take, one less; external crate varing, used at data/primitives.rs:317-344 *)
Definition wfuel (w : width) : nat := match w with W16 => 2 | W32 => 4 | W64 => 9 | W128 => 18 end.

(** The types with a [Data] implementation: strings (data/string.rs), byte
    strings and arrays (data/bytes.rs), the primitives (data/primitives.rs),
    pairs (data/tuple.rs).  [Node] (data/node.rs) has the same code as a pair. *)
Inductive dty :=
| DStr | DBytes | DArr (n : N)
| DU8 | DBool | DI8 | DUInt (w : width) | DSInt (w : width) | DChar | DF32 | DF64
| DIp4 | DIp6 | DIp | DSa4 | DSa6 | DSa
| DPair (a b : dty).
(** The values.  A float is its bytes (to_le_bytes); an IPv6 socket address is
    octets, port, flowinfo and scope id.  See data/primitives.rs *)
Fixpoint den (t : dty) : Type :=
  match t with
  | DStr | DBytes | DArr _ | DF32 | DF64 | DIp4 | DIp6 => bytes
  | DU8 | DUInt _ | DChar => N
  | DBool => bool
  | DI8 | DSInt _ => Z
  | DIp => (bytes + bytes)%type
  | DSa4 => (bytes * N)%type
  | DSa6 => (bytes * N * N * N)%type
  | DSa => socket_addr
  | DPair a b => (den a * den b)%type
  end.

(** wire_type.rs:14-28 [WireType] as a number, and the [WIRE_TYPE] constants of
    the implementations in data/ *)
Definition wtnum (t : dty) : N :=
  match t with
  | DU8 | DBool | DI8 => 0
  | DUInt _ | DSInt _ | DChar => 1
  | DF32 => 3
  | DF64 => 4
  | _ => 2
  end.
(** wire_type.rs:64-68 [merge] *)
Definition wmerge (ty tag : N) : byte := N.lor (N.shiftl ty 3) tag.
(** wire_type.rs:70-76 [split] *)
Definition wsplit (v : byte) : N * N := (N.shiftr v 3, N.land v 7).

(** zigzag; external crate varing, used at data/primitives.rs:317-344 *)
Definition zz (z : Z) : N := if (z <? 0)%Z then Z.to_N (- 2 * z - 1) else Z.to_N (2 * z).
(** its inverse; external crate varing, used at data/primitives.rs:317-344 *)
Definition unzz (n : N) : Z := if N.even n then Z.of_N (n / 2) else (- Z.of_N (n / 2) - 1)%Z.
(** the varint of a width; external crate varing, used at data/primitives.rs:317-344 *)
Definition uv_enc (w : width) (v : N) : bytes := pb_enc (wfuel w) v.
(** its length; external crate varing, used at data/primitives.rs:335-337 *)
Definition uv_len (v : N) : N := pb_varint_len v.
(** reading a varint of a width: bytes read and value; external crate varing, used at data/primitives.rs:321-323 *)
Definition uv_dec (w : width) (l : bytes) : result derr (N * N) :=
  match pb_dec (S (wfuel w)) l with
  | Some (v, r) => if v <? 2 ^ wbits w then Ok (blen l - blen r, v) else Err DOverflow
  | None => if blen l <? N.of_nat (S (wfuel w)) then Err DUnderflow else Err DOverflow
  end.
(** [char::from_u32]; used at data/primitives.rs:461-469 *)
Definition is_char (n : N) : bool := (n <? 55296) || ((57343 <? n) && (n <? 1114112)).

(** the length a value announces, without a length prefix: [encoded_len] of the
    implementations (data/string.rs:26-34, data/bytes.rs:22-28, 77-79,
    data/primitives.rs:34-36, 67-69, 111-116, 174-176, 218-220, 281-286,
    335-337, 371-373, 408-410, 480-482, 510-512, 542-544; data/tuple.rs:108-110
    and data/node.rs:87-91) with the prefixed length of data/mod.rs:133-139 for
    the fields of a pair *)
Fixpoint dlen (t : dty) : den t -> N :=
  match t with
  | DStr | DBytes => fun v => blen v
  | DArr n => fun _ => n
  | DU8 | DBool | DI8 => fun _ => 1
  | DUInt _ | DChar => fun v => uv_len v
  | DSInt _ => fun z => uv_len (zz z)
  | DF32 | DIp4 => fun _ => 4
  | DF64 => fun _ => 8
  | DIp6 => fun _ => 16
  | DIp => fun v => 1 + match v with inl _ => 4 | inr _ => 16 end
  | DSa4 => fun _ => 4 + 2
  | DSa6 => fun _ => 16 + 2
  | DSa => fun v => 1 + match v with V4 _ _ => 4 + 2 | V6 _ _ _ _ => 16 + 2 end
  | DPair a b => fun v =>
      let ld t (l : N) := if wtnum t =? 2 then uv_len (l mod two32) + l else l in
      1 + ld a (dlen a (fst v)) + 1 + ld b (dlen b (snd v))
  end.
(** data/mod.rs:133-139 [encoded_len_with_length_delimited] *)
Definition ld_len (t : dty) (l : N) : N := if wtnum t =? 2 then uv_len (l mod two32) + l else l.

(** writing [b] to a buffer of [cap] bytes; data/bytes.rs:35-43 *)
Definition put (cap : N) (b : bytes) : result eerr bytes := if cap <? blen b then Err EInsufficient else Ok b.
(** the bytes of an IPv6 socket address (data/primitives.rs:223-245): one with
    flowinfo or scope id is refused before the capacity is looked at *)
Definition put_sa6 (cap : N) (o : bytes) (p fl sc : N) : result eerr bytes :=
  if negb (fl =? 0) || negb (sc =? 0) then Err ECustom else put cap (o ++ u16_to_be p).
(** data/mod.rs:163-181 [encode_length_delimited]: [len] is the announced
    length and [enc] the encoder given the rest of the buffer *)
Definition ld_enc (t : dty) (len : N) (enc : N -> result eerr bytes) (cap : N) : result eerr bytes :=
  if negb (wtnum t =? 2) then enc cap
  else if u32_max <? len then Err ETooLarge
  else match put cap (uv_enc W32 len) with
       | Err e => Err e
       | Ok p => match enc (cap - blen p) with Err e => Err e | Ok b => Ok (p ++ b) end
       end.
(** [encode] into a buffer of [cap] bytes: the bytes written.  The
    implementations as for [dlen]: data/string.rs:37-54, data/bytes.rs:30-46,
    81-90, data/primitives.rs:39-45, 72-78, 119-144, 179-189, 223-245, 289-314,
    339-341, 375-386, 412-414, 484-488, 514-521, 546-548; data/tuple.rs:121-150
    and data/node.rs:93-124 *)
Fixpoint dencode (t : dty) : N -> den t -> result eerr bytes :=
  match t with
  | DStr | DBytes => fun cap v =>
      match v with
      | [] => Ok []
      | _ => if cap <? blen v then Err EInsufficient else if u32_max <? blen v then Err ETooLarge else Ok v
      end
  | DArr n => fun cap v => if u32_max <? n then Err ETooLarge else if cap <? n then Err EInsufficient else Ok v
  | DU8 => fun cap v => put cap [v]
  | DBool => fun cap v => put cap [if v then 1 else 0]
  | DI8 => fun cap z => put cap [Z.to_N (z mod 256)]
  | DUInt w => fun cap v => put cap (uv_enc w v)
  | DSInt w => fun cap z => put cap (uv_enc w (zz z))
  | DChar => fun cap v => put cap (uv_enc W32 v)
  | DF32 | DF64 | DIp4 | DIp6 => fun cap v => put cap v
  | DIp => fun cap v => put cap (match v with inl o => 0 :: o | inr o => 1 :: o end)
  | DSa4 => fun cap v => put cap (fst v ++ u16_to_be (snd v))
  | DSa6 => fun cap v => let '(o, p, fl, sc) := v in put_sa6 cap o p fl sc
  | DSa => fun cap v =>
      match v with
      | V4 o p => if cap <? 7 then Err EInsufficient else
                  match put (cap - 1) (o ++ u16_to_be p) with Err e => Err e | Ok b => Ok (0 :: b) end
      | V6 o p fl sc => if cap <? 19 then Err EInsufficient else
                  match put_sa6 (cap - 1) o p fl sc with Err e => Err e | Ok b => Ok (1 :: b) end
      end
  | DPair a b => fun cap v =>
      if cap =? 0 then Err EInsufficient else
      match ld_enc a (dlen a (fst v)) (fun c => dencode a c (fst v)) (cap - 1) with
      | Err e => Err e
      | Ok ba =>
        if cap <=? 1 + blen ba then Err EInsufficient else
        match ld_enc b (dlen b (snd v)) (fun c => dencode b c (snd v)) (cap - 1 - blen ba - 1) with
        | Err e => Err e
        | Ok bb => Ok (wmerge (wtnum a) 1 :: ba ++ wmerge (wtnum b) 2 :: bb)
        end
      end
  end.

(** the first [n] bytes; data/bytes.rs:59-67 and the fixed-size types of
    data/primitives.rs *)
Definition fix_dec (n : N) (l : bytes) : result derr (N * bytes) :=
  if blen l <? n then Err DUnderflow else Ok (n, btake n l).
(** an address of [n] octets and a port; data/primitives.rs:148-163, 193-207 *)
Definition sa_dec (n : N) (l : bytes) : result derr (N * (bytes * N)) :=
  if blen l <? n + 2 then Err DUnderflow
  else Ok (n + 2, (btake n l, u16_of_be (nth (N.to_nat n) l 0) (nth (N.to_nat n + 1) l 0))).
(** data/mod.rs:76-111 [decode_length_delimited].  [usize] is unbounded: the
    overflow of [offset + len] it guards against does not exist here. *)
Definition ld_dec {V} (t : dty) (dec : bytes -> result derr (N * V)) (src : bytes) : result derr (N * V) :=
  if negb (wtnum t =? 2) then dec src else
  match uv_dec W32 src with
  | Err e => Err e
  | Ok (offset, len) =>
    if blen src <? offset + len then Err DUnderflow else
    match dec (btake len (bdrop offset src)) with
    | Err e => Err e
    | Ok (n, v) => if n =? len then Ok (offset + len, v) else Err DMismatch
    end
  end.
(** wire_type.rs:79-127 [skip]: the bytes to pass over *)
Definition wskip (src : bytes) : result derr N :=
  match src with
  | [] => Ok 0
  | k :: r =>
    match fst (wsplit k) with
    | 0 => if 0 <? blen r then Ok 2 else Err DUnderflow
    | 1 => match uv_dec W64 r with Ok (n, _) => Ok (1 + n) | Err e => Err e end
    | 2 => match r with
           | [] => Err DUnderflow
           | _ => match uv_dec W32 r with
                  | Ok (n, len) => if 1 + n + len <=? blen src then Ok (1 + n + len) else Err DUnderflow
                  | Err e => Err e
                  end
           end
    | 3 => if 5 <=? blen src then Ok 5 else Err DUnderflow
    | 4 => if 9 <=? blen src then Ok 9 else Err DUnderflow
    | _ => Err DWireType
    end
  end.
(** the loop of data/tuple.rs:15-54 and data/node.rs:31-71: [off] the offset,
    [rest] the bytes from there; [fuel] bounds the turns (one per byte) *)
Fixpoint pair_loop {A B} (fuel : nat) (ka kb : byte) (decA : bytes -> result derr (N * A))
  (decB : bytes -> result derr (N * B)) (a : option A) (b : option B) (off : N) (rest : bytes)
  : result derr (N * (A * B)) :=
  match rest with
  | [] => match a, b with Some x, Some y => Ok (off, (x, y)) | _, _ => Err DMissing end
  | k :: r =>
    match fuel with
    | O => Err DCustom
    | S f =>
      if k =? ka then
        match a with
        | Some _ => Err DDuplicate
        | None => match decA r with
                  | Err e => Err e
                  | Ok (n, v) => pair_loop f ka kb decA decB (Some v) b (off + 1 + n) (bdrop n r)
                  end
        end
      else if k =? kb then
        match b with
        | Some _ => Err DDuplicate
        | None => match decB r with
                  | Err e => Err e
                  | Ok (n, v) => pair_loop f ka kb decA decB a (Some v) (off + 1 + n) (bdrop n r)
                  end
        end
      else match wskip rest with
           | Err e => Err e
           | Ok n => pair_loop f ka kb decA decB a b (off + n) (bdrop n rest)
           end
    end
  end.
(** [decode] followed by [from_ref]: bytes read and value.  data/string.rs:10-15,
    data/bytes.rs:10-12, 59-67, data/primitives.rs:16-23, 49-56, 82-100, 148-163,
    193-207, 249-270, 321-323, 349-358, 394-396, 462-468, 492-498, 525-530,
    data/tuple.rs:15-54, data/node.rs:31-71.  Simplified: [from_ref] of the two
    halves of a pair is applied at once; it cannot fail for these types. *)
Fixpoint ddecode (t : dty) : bytes -> result derr (N * den t) :=
  match t with
  | DStr => fun l => if utf8_valid l then Ok (blen l, l) else Err DCustom
  | DBytes => fun l => Ok (blen l, l)
  | DArr n => fun l => fix_dec n l
  | DU8 => fun l => match l with [] => Err DUnderflow | b :: _ => Ok (1, b) end
  | DBool => fun l => match l with [] => Err DUnderflow | b :: _ => Ok (1, negb (b =? 0)) end
  | DI8 => fun l => match l with [] => Err DUnderflow | b :: _ => Ok (1, if b <? 128 then Z.of_N b else (Z.of_N b - 256)%Z) end
  | DUInt w => fun l => uv_dec w l
  | DSInt w => fun l => match uv_dec w l with Ok (n, v) => Ok (n, unzz v) | Err e => Err e end
  | DChar => fun l => match uv_dec W32 l with
                      | Ok (n, v) => if is_char v then Ok (n, v) else Err DCustom
                      | Err e => Err e
                      end
  | DF32 => fun l => fix_dec 4 l
  | DF64 => fun l => fix_dec 8 l
  | DIp4 => fun l => fix_dec 4 l
  | DIp6 => fun l => fix_dec 16 l
  | DIp => fun l => match l with
                    | [] => Err DUnderflow
                    | 0 :: r => match fix_dec 4 r with Ok (n, o) => Ok (n + 1, inl o) | Err e => Err e end
                    | 1 :: r => match fix_dec 16 r with Ok (n, o) => Ok (n + 1, inr o) | Err e => Err e end
                    | _ :: _ => Err DTag
                    end
  | DSa4 => fun l => sa_dec 4 l
  | DSa6 => fun l => match sa_dec 16 l with Ok (n, (o, p)) => Ok (n, (o, p, 0, 0)) | Err e => Err e end
  | DSa => fun l => match l with
                    | [] => Err DUnderflow
                    | 0 :: r => match sa_dec 4 r with Ok (n, (o, p)) => Ok (n + 1, V4 o p) | Err e => Err e end
                    | 1 :: r => match sa_dec 16 r with Ok (n, (o, p)) => Ok (n + 1, V6 o p 0 0) | Err e => Err e end
                    | _ :: _ => Err DTag
                    end
  | DPair a b => fun l =>
      pair_loop (length l) (wmerge (wtnum a) 1) (wmerge (wtnum b) 2) (ld_dec a (ddecode a)) (ld_dec b (ddecode b)) None None 0 l
  end.

(** bridge/mod.rs:46-53 [data_to_bytes]: a zeroed buffer of the announced length,
    written to and passed on whole *)
Definition data_to_bytes (t : dty) (v : den t) : result eerr bytes :=
  match dencode t (dlen t v) v with
  | Err e => Err e
  | Ok b => Ok (b ++ repeat 0 (N.to_nat (dlen t v - blen b)))
  end.
(** bridge/mod.rs:61-72 [data_from_bytes] *)
Definition data_from_bytes (t : dty) (l : bytes) : result derr (den t) :=
  match ddecode t l with
  | Err e => Err e
  | Ok (n, v) => if n =? blen l then Ok v else Err DCustom
  end.
