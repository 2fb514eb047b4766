(** Properties C82 and C83: ids and addresses of the types the crate supports
    on the wire. *)
From Coq Require Import ZArith.
From Verif Require Import Base BaseFacts CodecModel CodecSpec CodecFacts LabelModel MsgModel WireModel WireSpec WireFacts DataModel DataSpec DataFacts.
Local Open Scope N_scope.

(** * C82 *)
(** Every value that can be sent is sent in exactly the announced number of
    bytes and read back unchanged. *)
Theorem C82_roundtrip : forall t v, dwf t v -> unscoped t v -> dlen t v <= u32_max ->
  exists b, data_to_bytes t v = Ok b /\ blen b = dlen t v /\ wf_bytes b /\ data_from_bytes t b = Ok v.
Proof.
  intros t v W U S. destruct (every_good t v W U S) as [b G]. exists b.
  split; [apply good_bytes, G|]. split; [apply G|]. split; [apply G|]. apply good_back, G.
Qed.
Print Assumptions C82_roundtrip.
(** a pair of a name and (a socket address and a number) *)
Definition ed_ty : dty := DPair DStr (DPair DSa (DSInt W64)).
Definition ed_val : den ed_ty := ([110; 111; 100; 101; 195; 169], (V4 [10; 0; 0; 7] 7946, (-3)%Z)).
Definition ed_bytes : bytes := [17; 6; 110; 111; 100; 101; 195; 169; 18; 11; 17; 7; 0; 10; 0; 0; 7; 31; 10; 10; 5].
Example C82_roundtrip_ex :
  dwf ed_ty ed_val /\ unscoped ed_ty ed_val /\ dlen ed_ty ed_val = 21 /\ data_to_bytes ed_ty ed_val = Ok ed_bytes /\
  data_from_bytes ed_ty ed_bytes = Ok ed_val.
Proof.
  split; [|split; [|do 2 (split; [vm_compute; reflexivity|]); vm_compute; reflexivity]].
  - cbn. repeat split; try lia; repeat constructor; vm_compute; reflexivity.
  - cbn. tauto.
Qed.

(** Encoding into a buffer of the caller succeeds exactly when the announced
    length fits, and then writes exactly that many bytes. *)
Theorem C82_announced_length : forall t v, dwf t v -> unscoped t v -> dlen t v <= u32_max ->
  exists b, blen b = dlen t v /\ (forall cap, dlen t v <= cap -> dencode t cap v = Ok b) /\
  forall cap, cap < dlen t v -> exists e, dencode t cap v = Err e.
Proof. intros t v W U S. destruct (every_good t v W U S) as [b ((A & B & L & _) & _)]. exists b. auto. Qed.
Print Assumptions C82_announced_length.
Example C82_announced_length_ex :
  dencode ed_ty 500 ed_val = Ok ed_bytes /\ dencode ed_ty 20 ed_val = Err EInsufficient /\
  dencode ed_ty 8 ed_val = Err EInsufficient.
Proof. repeat split. Qed.

(** An IPv6 socket address with a flowinfo or scope id is refused, wherever it
    occurs, rather than sent without. *)
Theorem C82_scoped_refused : forall t v, ~ unscoped t v -> exists e, data_to_bytes t v = Err e.
Proof.
  intros t v H. unfold data_to_bytes. destruct (scoped_refused t v (dlen t v) H) as [e ->]. eauto.
Qed.
Print Assumptions C82_scoped_refused.
Definition ed_v6 : bytes := [254; 128; 0; 0; 0; 0; 0; 0; 0; 0; 0; 0; 0; 0; 0; 1].
Example C82_scoped_refused_ex :
  ~ unscoped (DPair DU8 DSa) (3, V6 ed_v6 80 0 2) /\ data_to_bytes (DPair DU8 DSa) (3, V6 ed_v6 80 0 2) = Err ECustom /\
  exists b, data_to_bytes (DPair DU8 DSa) (3, V6 ed_v6 80 0 0) = Ok b.
Proof. split; [cbn; lia|]. split; [reflexivity|]. eexists. vm_compute. reflexivity. Qed.

(** Different values are sent as different bytes. *)
Theorem C82_injective : forall t v w b, dwf t v -> dwf t w -> dlen t v <= u32_max -> dlen t w <= u32_max ->
  data_to_bytes t v = Ok b -> data_to_bytes t w = Ok b -> v = w.
Proof.
  intros t v w b Wv Ww Sv Sw Ev Ew.
  assert (forall x, data_to_bytes t x = Ok b -> unscoped t x) as U.
  { intros x E. destruct (unscoped_dec t x) as [U|U]; [exact U|]. destruct (C82_scoped_refused t x U) as [e E']. congruence. }
  pose proof (good_back _ _ _ (good_of t v b Wv (U v Ev) Sv Ev)). pose proof (good_back _ _ _ (good_of t w b Ww (U w Ew) Sw Ew)). congruence.
Qed.
Print Assumptions C82_injective.
Example C82_injective_ex :
  data_to_bytes (DSInt W16) 1%Z = Ok [2] /\ data_to_bytes (DSInt W16) (-1)%Z = Ok [1] /\ data_to_bytes (DSInt W16) (-32768)%Z = Ok [255; 255; 3].
Proof. repeat split. Qed.

(** Whatever bytes a peer sends: what is accepted is a value of the type, no
    longer than what came, and can be passed on unchanged. *)
Theorem C82_accepts_only_values : forall t l v, wf_bytes l -> blen l <= u32_max -> data_from_bytes t l = Ok v ->
  dwf t v /\ unscoped t v /\ dlen t v <= blen l /\
  exists b, data_to_bytes t v = Ok b /\ data_from_bytes t b = Ok v.
Proof.
  intros t l v W S. unfold data_from_bytes at 1. destruct (ddecode t l) as [[n x]|] eqn:D; [|discriminate].
  destruct (N.eqb_spec n (blen l)) as [->|]; [|discriminate]. intros [= <-]. apply every_sane in D; [|exact W].
  destruct D as ((D1 & D2) & D3 & _). split; [exact D1|]. split; [exact D2|]. split; [exact D3|].
  destruct (C82_roundtrip t x D1 D2 ltac:(lia)) as (b & B1 & _ & _ & B2). eauto.
Qed.
Print Assumptions C82_accepts_only_values.
(** an overlong varint and a strange boolean are read, and passed on in the plain form *)
Example C82_accepts_only_values_ex :
  data_from_bytes (DUInt W16) [133; 128; 0] = Ok 5 /\ data_to_bytes (DUInt W16) 5 = Ok [5] /\
  data_from_bytes DBool [7] = Ok true /\ data_from_bytes DChar [128; 176; 3] = Err DCustom /\
  data_from_bytes DStr [195] = Err DCustom /\ data_from_bytes (DUInt W16) [255; 255; 4] = Err DOverflow.
Proof. repeat split. Qed.

(** Bytes after the value are refused for every type that does not take all the
    bytes there are (strings and byte strings do) or skip them (pairs). *)
Theorem C82_trailing_rejected : forall t v b r,
  match t with DStr | DBytes | DPair _ _ => False | _ => True end ->
  dwf t v -> unscoped t v -> dlen t v <= u32_max -> data_to_bytes t v = Ok b -> r <> [] ->
  exists e, data_from_bytes t (b ++ r) = Err e.
Proof.
  intros t v b r T W U S E NR. pose proof (good_of t v b W U S E) as (_ & _ & R). destruct (R T) as [R1 _].
  unfold data_from_bytes. rewrite R1, blen_app. destruct (N.eqb_spec (blen b) (blen b + blen r)) as [Q|]; [|eauto].
  destruct r; [congruence|]. rewrite blen_cons in Q. lia.
Qed.
Print Assumptions C82_trailing_rejected.
Example C82_trailing_rejected_ex :
  data_to_bytes DSa (V4 [10; 0; 0; 7] 7946) = Ok [0; 10; 0; 0; 7; 31; 10] /\
  data_from_bytes DSa ([0; 10; 0; 0; 7; 31; 10] ++ [0]) = Err DCustom /\
  data_from_bytes (DArr 2) [1; 2; 3] = Err DCustom.
Proof. repeat split. Qed.

(** For every choice of an id type and an address type among them, the messages
    of the wire model are faithful: the hypothesis of C06 and C65 is met.  The
    model writes ids and addresses as numbers; [nm] is any numbering of the
    values, [un] its inverse. *)
Definition codec_of (tI tA : dty) (nmI : den tI -> N) (unI : N -> option (den tI)) (nmA : den tA -> N) (unA : N -> option (den tA)) : wcodec :=
  mkWC (fun x => match unI x with Some v => match data_to_bytes tI v with Ok b => Some b | Err _ => None end | None => None end)
       (fun b => match data_from_bytes tI b with Ok v => Some (nmI v) | Err _ => None end)
       (fun x => match unA x with Some v => match data_to_bytes tA v with Ok b => Some b | Err _ => None end | None => None end)
       (fun b => match data_from_bytes tA b with Ok v => Some (nmA v) | Err _ => None end).
Theorem C82_messages_faithful : forall tI tA nmI unI nmA unA,
  (forall x v, unI x = Some v -> nmI v = x /\ dwf tI v /\ dlen tI v <= u32_max) ->
  (forall x v, unA x = Some v -> nmA v = x /\ dwf tA v /\ dlen tA v <= u32_max) ->
  wf_codec (codec_of tI tA nmI unI nmA unA).
Proof.
  intros tI tA nmI unI nmA unA HI HA.
  assert (forall t (nm : den t -> N) un, (forall x v, un x = Some v -> nm v = x /\ dwf t v /\ dlen t v <= u32_max) ->
    forall x b, match un x with Some v => match data_to_bytes t v with Ok b => Some b | Err _ => None end | None => None end = Some b ->
    wf_bytes b /\ match data_from_bytes t b with Ok v => Some (nm v) | Err _ => None end = Some x) as K.
  { intros t nm un H x b. destruct (un x) as [v|] eqn:E; [|discriminate]. destruct (H x v E) as (H1 & H2 & H3).
    destruct (data_to_bytes t v) as [b'|] eqn:D; [|discriminate]. intros [= <-].
    destruct (unscoped_dec t v) as [U|U]; [|destruct (C82_scoped_refused t v U); congruence].
    pose proof (good_of t v b' H2 U H3 D) as G. split; [apply G|]. rewrite (good_back _ _ _ G), H1. reflexivity. }
  split; cbn; intros x b; apply K; assumption.
Qed.
Print Assumptions C82_messages_faithful.
(** 64-bit ids and IPv4 addresses numbered by their octets *)
Definition ed_un4 (x : N) : option (den DSa4) :=
  if x <? 2 ^ 48 then Some ([x / 2 ^ 40; x / 2 ^ 32 mod 256; x / 2 ^ 24 mod 256; x / 2 ^ 16 mod 256], x mod 65536) else None.
Definition ed_nm4 (v : den DSa4) : N := fold_left (fun n b => n * 256 + b) (fst v) 0 * 65536 + snd v.
Definition ed_codec : wcodec := codec_of (DUInt W64) DSa4 (fun v => v) (fun x => if x <? two64 then Some x else None) ed_nm4 ed_un4.
Example C82_messages_faithful_ex : wf_codec ed_codec /\
  option_map (fun b => (blen b, btake 2 b)) (encode_message ed_codec (MPing 7 (mkNode 300 11259375000031) (mkNode 5 31))) = Some (31, [2; 29]).
Proof.
  split; [|vm_compute; reflexivity]. apply C82_messages_faithful.
  - intros x v. destruct (N.ltb_spec x two64); [|discriminate]. intros [= <-]. split; [reflexivity|]. split; [exact H|].
    cbn [dlen]. unfold uv_len. pose proof (pb_len_mono x two64 ltac:(lia)) as M. change (pb_varint_len two64) with 10 in M. unfold u32_max. lia.
  - intros x v. unfold ed_un4. destruct (N.ltb_spec x (2 ^ 48)) as [L|]; [|discriminate]. intros [= <-].
    unfold ed_nm4. cbn [fst snd fold_left dwf dlen]. change (2 ^ 48) with 281474976710656 in L. change (2 ^ 40) with 1099511627776.
    change (2 ^ 32) with 4294967296. change (2 ^ 24) with 16777216. change (2 ^ 16) with 65536.
    assert (x / 1099511627776 < 256) by (apply N.div_lt_upper_bound; lia).
    split; [|split; [|unfold u32_max; lia]].
    + pose proof (N.div_mod x 65536 ltac:(lia)) as E1.
      pose proof (N.div_mod (x / 65536) 256 ltac:(lia)) as E2. rewrite N.div_div in E2 by lia. change (65536 * 256) with 16777216 in E2.
      pose proof (N.div_mod (x / 16777216) 256 ltac:(lia)) as E3. rewrite N.div_div in E3 by lia. change (16777216 * 256) with 4294967296 in E3.
      pose proof (N.div_mod (x / 4294967296) 256 ltac:(lia)) as E4. rewrite N.div_div in E4 by lia. change (4294967296 * 256) with 1099511627776 in E4.
      lia.
    + split; [|split; [reflexivity|apply N.mod_lt; lia]]. repeat constructor; unfold is_byte; try assumption; apply N.mod_lt; lia.
Qed.

(** * C83 *)
(** A pair (and a [Node], whose code is the same) is read the same whichever
    half comes first and whatever fields of a later version stand before,
    between and after. *)
Theorem C83_any_order_foreign_fields_skipped : forall a b va vb ba bb us1 us2 us3,
  dwf a va -> unscoped a va -> dlen a va <= u32_max -> data_to_bytes a va = Ok ba ->
  dwf b vb -> unscoped b vb -> dlen b vb <= u32_max -> data_to_bytes b vb = Ok bb ->
  Forall (foreign (key1 a) (key2 b)) us1 -> Forall (foreign (key1 a) (key2 b)) us2 -> Forall (foreign (key1 a) (key2 b)) us3 ->
  data_from_bytes (DPair a b) (concat us1 ++ (key1 a :: delimited a ba) ++ concat us2 ++ (key2 b :: delimited b bb) ++ concat us3) = Ok (va, vb) /\
  data_from_bytes (DPair a b) (concat us1 ++ (key2 b :: delimited b bb) ++ concat us2 ++ (key1 a :: delimited a ba) ++ concat us3) = Ok (va, vb).
Proof.
  intros a b va vb ba bb us1 us2 us3 WA UA SA EA WB UB SB EB F1 F2 F3.
  destruct (ld_good a va ba (good_of _ _ _ WA UA SA EA) SA) as [_ RA]. destruct (ld_good b vb bb (good_of _ _ _ WB UB SB EB) SB) as [_ RB].
  destruct (pair_fields a b va vb _ _ us1 us2 us3 RA RB F1 F2 F3) as [P1 P2].
  unfold data_from_bytes. split; [rewrite P1|rewrite P2]; rewrite N.eqb_refl; reflexivity.
Qed.
Print Assumptions C83_any_order_foreign_fields_skipped.
(** an added delimited field with tag 3, a byte with tag 1 (another wire type
    than the first half), and the halves exchanged *)
Example C83_any_order_ex :
  Forall (foreign (key1 DStr) (key2 DBool)) [[19; 2; 9; 9]; [1; 44]] /\
  data_from_bytes (DPair DStr DBool) ([19; 2; 9; 9; 1; 44] ++ [2; 1] ++ [19; 2; 9; 9] ++ [17; 3; 97; 98; 99] ++ [1; 44]) = Ok ([97; 98; 99], true) /\
  data_to_bytes (DPair DStr DBool) ([97; 98; 99], true) = Ok [17; 3; 97; 98; 99; 2; 1].
Proof.
  split; [|repeat split]. constructor; [|constructor; [|constructor]].
  - apply (FDelim _ _ 19 [9; 9]); try reflexivity; vm_compute; discriminate.
  - apply FByte; try reflexivity; vm_compute; discriminate.
Qed.

(** A pair cut short anywhere is refused. *)
Theorem C83_truncation_rejected : forall a b v x p q, dwf (DPair a b) v -> unscoped (DPair a b) v -> dlen (DPair a b) v <= u32_max ->
  data_to_bytes (DPair a b) v = Ok x -> x = p ++ q -> q <> [] -> exists e, data_from_bytes (DPair a b) p = Err e.
Proof.
  intros a b [va vb] x p q [WA WB] [UA UB] S E X Q. cbn [fst snd] in *.
  assert (dlen a va <= u32_max /\ dlen b vb <= u32_max) as [SA SB].
  { cbn [dlen fst snd] in S. destruct (wtnum a =? 2), (wtnum b =? 2); lia. }
  destruct (every_good a va WA UA SA) as [ba GA]. destruct (every_good b vb WB UB SB) as [bb GB].
  rewrite (good_bytes _ _ _ (pair_good a b va vb ba bb GA GB S)) in E. injection E as <-.
  destruct (ld_good a va ba GA SA) as [_ RA]. destruct (ld_good b vb bb GB SB) as [_ RB].
  destruct (pair_prefix a b va vb _ _ p q RA RB X Q) as [e P]. unfold data_from_bytes. rewrite P. eauto.
Qed.
Print Assumptions C83_truncation_rejected.
Example C83_truncation_rejected_ex :
  data_from_bytes ed_ty (btake 20 ed_bytes) = Err DUnderflow /\ data_from_bytes ed_ty (btake 8 ed_bytes) = Err DMissing /\
  data_from_bytes ed_ty [] = Err DMissing.
Proof. repeat split. Qed.

(** A half that comes twice is refused, whatever stands between and after. *)
Theorem C83_duplicate_rejected : forall a b va vb ba bb us1 us2 r,
  dwf a va -> unscoped a va -> dlen a va <= u32_max -> data_to_bytes a va = Ok ba ->
  dwf b vb -> unscoped b vb -> dlen b vb <= u32_max -> data_to_bytes b vb = Ok bb ->
  Forall (foreign (key1 a) (key2 b)) us1 -> Forall (foreign (key1 a) (key2 b)) us2 ->
  data_from_bytes (DPair a b) (concat us1 ++ (key1 a :: delimited a ba) ++ concat us2 ++ key1 a :: r) = Err DDuplicate /\
  data_from_bytes (DPair a b) (concat us1 ++ (key2 b :: delimited b bb) ++ concat us2 ++ key2 b :: r) = Err DDuplicate.
Proof.
  intros a b va vb ba bb us1 us2 r WA UA SA EA WB UB SB EB F1 F2.
  destruct (ld_good a va ba (good_of _ _ _ WA UA SA EA) SA) as [_ RA]. destruct (ld_good b vb bb (good_of _ _ _ WB UB SB EB) SB) as [_ RB].
  destruct (pair_dup a b va vb _ _ us1 us2 r RA RB F1 F2) as [P1 P2].
  unfold data_from_bytes. split; [rewrite P1|rewrite P2]; reflexivity.
Qed.
Print Assumptions C83_duplicate_rejected.
Example C83_duplicate_rejected_ex :
  data_from_bytes (DPair DStr DBool) [17; 1; 97; 2; 1; 2; 0] = Err DDuplicate /\
  data_from_bytes (DPair DStr DBool) [17; 1; 97; 17; 1; 97; 2; 1] = Err DDuplicate.
Proof. repeat split. Qed.

(** The declared length of a field is its boundary: if the value in it ends
    earlier, the pair is refused and the bytes left over are not taken for
    another field. *)
Theorem C83_boundary_enforced : forall a b x n v r, wtnum a = 2 -> blen x <= u32_max -> ddecode a x = Ok (n, v) -> n <> blen x ->
  data_from_bytes (DPair a b) (key1 a :: pb_varint (blen x) ++ x ++ r) = Err DMismatch.
Proof.
  intros a b x n v r T SZ D NE. unfold data_from_bytes.
  rewrite (ddecode_fuel a b (key1 a :: pb_varint (blen x) ++ x ++ r) (S (length (key1 a :: pb_varint (blen x) ++ x ++ r))) ltac:(lia)).
  cbn [pair_loop]. rewrite N.eqb_refl.
  unfold ld_dec at 1. rewrite T. cbn [N.eqb Pos.eqb negb].
  assert (blen x < 2 ^ wbits W32) as S32 by (change (2 ^ wbits W32) with (u32_max + 1); lia).
  rewrite <- (uv_pb W32) by (try assumption; unfold two64, u32_max in *; lia). rewrite uv_dec_enc by exact S32.
  rewrite !blen_app. destruct (N.ltb_spec (blen (uv_enc W32 (blen x)) + (blen x + blen r)) (blen (uv_enc W32 (blen x)) + blen x)); [lia|].
  rewrite bdrop_app_exact, btake_app_exact by reflexivity. rewrite D. destruct (N.eqb_spec n (blen x)); [congruence|reflexivity].
Qed.
Print Assumptions C83_boundary_enforced.
(** a two-byte array declared with four bytes, the surplus looking like the
    second half *)
Example C83_boundary_enforced_ex :
  data_from_bytes (DPair (DArr 2) DBool) [17; 4; 8; 8; 2; 1] = Err DMismatch /\
  data_from_bytes (DPair (DArr 2) DBool) [17; 2; 8; 8; 2; 1] = Ok ([8; 8], true).
Proof. repeat split. Qed.
