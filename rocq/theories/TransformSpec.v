(** Specification vocabulary for the transform wrappers and the keyring. *)
From Verif Require Import Base CodecModel CodecSpec LabelModel KeyringModel TransformModel.
Local Open Scope N_scope.

(** Outputs of the external algorithms are byte strings (true of any Rust
    [Vec<u8>]). *)
Definition wf_backends (B : backends) : Prop :=
  (forall t x y, b_compress B t x = Some y -> wf_bytes y) /\
  (forall t x n y, b_decompress B t x n = Some y -> wf_bytes y) /\
  (forall k n x a y, b_seal B k n x a = Some y -> wf_bytes y) /\
  (forall k n x a y, b_open B k n x a = Some y -> wf_bytes y).
(** The compressors are lossless. *)
Definition lossless (B : backends) : Prop :=
  forall t x p, b_compress B t x = Some p -> b_decompress B t p (blen x) = Some x.
(** The AEADs decrypt what they encrypted, and add a 16-byte tag. *)
Definition aead_correct (B : backends) : Prop :=
  forall k n pt aad ct, blen n = 12 -> b_seal B k n pt aad = Some ct ->
    b_open B k n ct aad = Some pt /\ blen ct = blen pt + 16.

(** All keys a ring accepts. *)
Definition ring_keys (kr : keyring) : list secret_key := primary kr :: secondaries kr.

(** Bytes that are no transform wrapper. *)
Definition plain_bytes (p : bytes) : Prop :=
  p <> [] /\ hd 0 p <> 13 /\ hd 0 p <> 14 /\ hd 0 p <> 15.
(** [outer] is [inner], or [inner] behind one checksum wrapper whose digest is
    right. *)
Definition checksum_layer (B : backends) (outer inner : bytes) : Prop :=
  outer = inner \/
  exists t, 1 <= t <= 5 /\ outer = [15; t] ++ digest B t inner ++ inner.
(** [outer] is [inner], or a compression wrapper naming the size of [inner]
    (at most [max]) whose body decompresses to [inner]. *)
Definition compression_layer (B : backends) (max : N) (outer inner : bytes) : Prop :=
  outer = inner \/
  exists t len body, 1 <= t <= 25 /\ outer = [14; t] ++ len ++ body /\
    leb_complete len /\ blen len <= 5 /\ leb128 len = blen inner /\ blen inner <= max /\
    b_decompress B t body (blen inner) = Some inner.
(** [buf] is plain bytes of at most [max], inside at most one compression
    layer, inside at most one checksum layer. *)
Definition canonical (B : backends) (max : N) (buf pt : bytes) : Prop :=
  exists mid, checksum_layer B buf mid /\ compression_layer B max mid pt /\
    plain_bytes pt /\ blen pt <= max.
(** [buf] is an encrypted frame that opens to [pt] under a key of the ring
    whose algorithm is the one named on the wire and bound into the
    authenticated data. *)
Definition authenticated (B : backends) (kr : keyring) (buf pt : bytes) : Prop :=
  exists k nonce ct, In k (ring_keys kr) /\
    buf = [13; enc_tag (key_algorithm k)] ++ nonce ++ ct /\ blen nonce = 12 /\
    b_open B k nonce ct [13; enc_tag (key_algorithm k)] = Some pt.

(** No key of ring [kr] opens [ct] to anything but [pt] (AEAD
    unforgeability, for this one ciphertext). *)
Definition unambiguous (B : backends) (kr : keyring) (k : secret_key) (nonce pt : bytes) : Prop :=
  forall ct k', b_seal B k nonce pt [13; enc_tag (key_algorithm k)] = Some ct ->
    In k' (ring_keys kr) ->
    b_open B k' nonce ct [13; enc_tag (key_algorithm k)] = None \/
    b_open B k' nonce ct [13; enc_tag (key_algorithm k)] = Some pt.

(** The receiver's ring [kr] can read what the sender's ring [ks] writes under
    this nonce: both off, or the sender's primary is a key of the receiver. *)
Definition ring_compatible (B : backends) (ks kr : option keyring) (nonce : option bytes) (w : bytes) : Prop :=
  match ks, kr with
  | None, None => True
  | Some s, Some r => In (primary s) (ring_keys r) /\
      forall n, nonce = Some n -> blen n = 12 /\ unambiguous B r (primary s) n w
  | _, _ => False
  end.
