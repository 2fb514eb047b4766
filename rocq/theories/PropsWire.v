(** Properties C06 (messages survive encode/decode), C44 and C45 with the real
    encoder. *)
From Verif Require Import Base BaseFacts CodecModel CodecSpec CodecFacts LabelModel MsgModel WireModel WireSpec WireFacts.
From Verif Require Import EndpointModel EndpointSteps EndpointInv EndpointFacts EndpointSent EndpointAnswers PropsEndpoint WireSizes.
Local Open Scope N_scope.

(** ** Ids and addresses for the examples: ids are one-character names,
    addresses are IPv4 socket addresses packed into 48 bits. *)
Definition ew : wcodec := mkWC
  (fun x => if x <? 128 then Some [x] else None)
  (fun b => match b with [x] => if x <? 128 then Some x else None | _ => None end)
  (fun x => if x <? 281474976710656 then
      Some (0 :: map (fun i => (x / 2 ^ i) mod 256) [40; 32; 24; 16; 8; 0]) else None)
  (fun b => match b with
            | [0; a1; a2; a3; a4; p1; p2] =>
              Some (a1 * 2 ^ 40 + a2 * 2 ^ 32 + a3 * 2 ^ 24 + a4 * 2 ^ 16 + p1 * 2 ^ 8 + p2)
            | _ => None end).
Lemma ew_ok : wf_codec ew.
Proof.
  split; intros x b; cbn [ew w_id w_id_of w_addr w_addr_of].
  - destruct (N.ltb_spec x 128) as [H|]; [|discriminate]. intros [= <-]. destruct (N.ltb_spec x 128); [|lia].
    split; [constructor; [unfold is_byte; lia|constructor]|reflexivity].
  - destruct (N.ltb_spec x 281474976710656) as [H|]; [|discriminate]. intros E. apply some_inj in E. subst b. split.
    + constructor; [reflexivity|]. apply Forall_map. apply Forall_forall. intros i _. apply N.mod_lt. discriminate.
    + cbn [map]. f_equal. rewrite N.pow_0_r, N.div_1_r.
      change (2 ^ 40) with (2 ^ 32 * 256). change (2 ^ 32) with (2 ^ 24 * 256). change (2 ^ 24) with (2 ^ 16 * 256). change (2 ^ 16) with (2 ^ 8 * 256). change (2 ^ 8) with 256.
      rewrite <- !N.div_div by discriminate.
      pose proof (N.div_mod x 256 ltac:(discriminate)) as E0. set (x1 := x / 256) in *.
      pose proof (N.div_mod x1 256 ltac:(discriminate)) as E1. set (x2 := x1 / 256) in *.
      pose proof (N.div_mod x2 256 ltac:(discriminate)) as E2. set (x3 := x2 / 256) in *.
      pose proof (N.div_mod x3 256 ltac:(discriminate)) as E3. set (x4 := x3 / 256) in *.
      pose proof (N.div_mod x4 256 ltac:(discriminate)) as E4. set (x5 := x4 / 256) in *.
      assert (x5 mod 256 = x5) as ->.
      { apply N.mod_small. unfold x5, x4, x3, x2, x1. rewrite !N.div_div by discriminate. apply N.div_lt_upper_bound; [discriminate|]. exact H. }
      lia.
Qed.
(** concrete ranges *)
Ltac inrange := repeat match goal with |- _ /\ _ => split | |- Forall _ [] => constructor | |- Forall _ (_ :: _) => constructor | |- True => exact I | |- _ => progress cbn [snd fst pn_meta pn_state pn_inc pn_pv pn_dv] end; try (vm_compute; reflexivity); try (vm_compute; discriminate).
(** a push/pull with two members, one in a state from the future *)
Definition ew_pp : msg := MPushPull true
  [mkPNS 7 65 (192168001001 * 65536 mod 281474976710656) PSuspect [1; 2; 200] 1 0; mkPNS 0 66 5 (PUnknown 9) [] 255 2] [9; 9].

(** C06: a message that encodes decodes to itself, whatever follows it in the
    buffer, consuming exactly its own bytes.  [wf_msg] is the range of the Rust
    types. *)
Theorem C06_message_roundtrip : forall W m b rest, wf_codec W -> wf_msg m -> wf_bytes rest ->
  encode_message W m = Some b -> decode_message W (b ++ rest) = Some (blen b, m).
Proof. intros W m b rest HW. apply message_roundtrip. exact HW. Qed.
Print Assumptions C06_message_roundtrip.
Example C06_message_roundtrip_ex :
  wf_codec ew /\ wf_msg ew_pp /\ option_map blen (encode_message ew ew_pp) = Some 58 /\
  option_map (fun b => decode_message ew (b ++ [3; 1])) (encode_message ew ew_pp) = Some (Some (58, ew_pp)).
Proof.
  split; [exact ew_ok|]. split; [|vm_compute; auto].
  unfold ew_pp, wf_msg, wf_pns, wf_meta, wf_state, wf_bytes. inrange.
Qed.

(** C06: the length announced in front of the body, computed before anything is
    written, is the length of what is written. *)
Theorem C06_announced_length : forall W m b, wf_codec W -> wf_msg m -> encode_message W m = Some b ->
  exists fs body, msg_fields W m = Some fs /\ blen body = pb_size fs /\
    b = tag_byte (msg_tag m) :: encode_varint_u32 (pb_size fs) ++ body.
Proof. intros W m b HW WM E. destruct (announced_length W HW m b WM E) as (fs & body & A & B & D). eauto. Qed.
Print Assumptions C06_announced_length.
Example C06_announced_length_ex :
  encode_message ew (MAck 300 [5; 6]) = Some ([4; 7] ++ [8; 172; 2; 18; 2; 5; 6]) /\
  option_map pb_size (msg_fields ew (MAck 300 [5; 6])) = Some 7.
Proof. vm_compute. auto. Qed.

(** C06: encoding fails only when an id or address has no encoding or the body
    would be 4 GiB or more (never a corrupt frame). *)
Theorem C06_encode_total : forall W m, wf_codec W -> wf_msg m -> encodable W m ->
  exists fs, msg_fields W m = Some fs /\ (blen (ser fs) <= u32_max <-> exists b, encode_message W m = Some b).
Proof.
  intros W m HW. apply encode_total. exact HW.
Qed.
Print Assumptions C06_encode_total.
Example C06_encode_total_ex : encodable ew ew_pp /\ option_map (fun fs => blen (ser fs)) (msg_fields ew ew_pp) = Some 56.
Proof. split; [|reflexivity]. repeat constructor; cbn; discriminate. Qed.

(** C06: a whole datagram, with its cluster label, is received as the message. *)
Theorem C06_datagram_received : forall W l m raw, wf_codec W -> wf_bytes (dflt [] l) -> wf_msg m ->
  encode_outgoing W l m = Some raw -> receive W l raw = Some [m].
Proof. intros W l m raw HW. apply receive_plain. exact HW. Qed.
Print Assumptions C06_datagram_received.
Example C06_datagram_received_ex :
  encode_outgoing ew (Some [97]) (MNack 0) = Some [12; 1; 97; 10; 0] /\ receive ew (Some [97]) [12; 1; 97; 10; 0] = Some [MNack 0].
Proof. vm_compute. auto. Qed.

(** C06: a compound datagram is received as its messages, in order. *)
Theorem C06_compound_received : forall W l ms raw, wf_codec W -> wf_bytes (dflt [] l) -> Forall wf_msg ms ->
  encode_outgoing_compound W l ms = Some raw -> receive W l raw = Some ms.
Proof. intros W l ms raw HW. apply receive_compound. exact HW. Qed.
Print Assumptions C06_compound_received.
Example C06_compound_received_ex :
  let ms := [MUserData [1; 2; 3]; MDead 4 65 65; MSuspect 0 66 65] in
  option_map blen (encode_outgoing_compound ew (Some [97]) ms) = Some 35 /\
  option_map (receive ew (Some [97])) (encode_outgoing_compound ew (Some [97]) ms) = Some (Some ms).
Proof. vm_compute. auto. Qed.

(** C06: whatever bytes arrive, a decoded message holds only values in range,
    is of the kind its tag says and comes from within the buffer. *)
Theorem C06_decoded_in_range : forall W buf n m, wf_bytes buf -> decode_message W buf = Some (n, m) ->
  wf_msg m /\ n <= blen buf /\ hd 0 buf = tag_byte (msg_tag m).
Proof. exact decode_message_wf. Qed.
Print Assumptions C06_decoded_in_range.
(** a varint of 2^32 + 5 is truncated to its low 32 bits; a version above 255 is refused *)
Example C06_decoded_in_range_ex :
  decode_message ew [10; 6; 8; 133; 128; 128; 128; 16] = Some (8, MNack 5) /\
  decode_message ew ([6; 19] ++ [8; 1; 26; 12; 10; 1; 65; 18; 7; 0; 0; 0; 0; 0; 0; 5; 32; 128; 2]) = None.
Proof. vm_compute. auto. Qed.

(** C06: fields a newer version may add are ignored: removing every field whose
    number the schema does not have changes nothing. *)
Theorem C06_unknown_fields_ignored : forall W t fs, Forall fok fs ->
  decode_body W t (ser fs) = decode_body W t (ser (filter (is_known (known t)) fs)).
Proof. exact unknown_fields_ignored. Qed.
Print Assumptions C06_unknown_fields_ignored.
Example C06_unknown_fields_ignored_ex :
  let fs := [(4, WLen [7; 7]); (1, WVar 9); (77, WFix32 [1; 2; 3; 4]); (2, WLen [3]); (5, WFix64 [1; 2; 3; 4; 5; 6; 7; 8])] in
  Forall fok fs /\ filter (is_known (known TAck)) fs = [(1, WVar 9); (2, WLen [3])] /\ decode_body ew TAck (ser fs) = Some (MAck 9 [3]).
Proof. split; [|vm_compute; auto]. unfold fok, vok, wf_bytes. inrange. Qed.

(** C06: a message is never completed by guessing: one whose body decodes has
    every field it cannot do without, and so has every member listed in a push/pull. *)
Theorem C06_incomplete_is_rejected : forall W t fs m, Forall fok fs -> decode_body W t (ser fs) = Some m ->
  (forall n, In n (required t) -> occurs n fs) /\
  (forall x n, t = TPushPull -> In (2, WLen (ser x)) fs -> Forall fok x -> In n required_state -> occurs n x).
Proof.
  intros W t fs m F D. split; [exact (required_fields W t fs m F D)|]. intros x n -> I Fx. exact (required_state_fields W fs m x F D I Fx n).
Qed.
Print Assumptions C06_incomplete_is_rejected.
Example C06_incomplete_is_rejected_ex :
  let src := (2, WLen [10; 1; 65; 18; 7; 0; 0; 0; 0; 0; 0; 5]) in let dst := (3, WLen [10; 1; 66; 18; 7; 0; 0; 0; 0; 0; 0; 6]) in
  Forall fok [(1, WVar 9); src; dst] /\ (exists m, decode_body ew CodecModel.TPing (ser [(1, WVar 9); src; dst]) = Some m) /\
  decode_body ew CodecModel.TPing (ser [(1, WVar 9); src]) = None /\ decode_body ew CodecModel.TPing (ser [src; dst]) = None.
Proof. split; [unfold fok, vok, wf_bytes; inrange|]. vm_compute. split; [eexists; reflexivity|auto]. Qed.

(** C06: an announcement from a sender that leaves the versions out means
    version 1, and nothing else about it changes. *)
Theorem C06_versions_default_to_one : forall W fs a, Forall fok fs -> decode_body W TAlive (ser fs) = Some (MAlive a) ->
  decode_body W TAlive (ser (filter (fun f => negb ((fst f =? 4) || (fst f =? 5))) fs)) =
  Some (MAlive (mkAlive (al_inc a) (al_id a) (al_addr a) (al_meta a) 1 1)).
Proof. exact versions_default. Qed.
Print Assumptions C06_versions_default_to_one.
Example C06_versions_default_to_one_ex :
  let fs := [(1, WVar 4); (3, WLen [10; 1; 65; 18; 7; 0; 0; 0; 0; 0; 0; 5]); (4, WVar 3); (5, WVar 7)] in
  Forall fok fs /\ (exists a, decode_body ew TAlive (ser fs) = Some (MAlive a) /\ al_pv a = 3 /\ al_dv a = 7).
Proof. split; [unfold fok, vok, wf_bytes; inrange|]. vm_compute. eexists. auto. Qed.

(** C44 with the real encoder: the size assumptions of C44 hold. *)
Theorem C44_datagrams_fit_on_the_wire : forall C W t0 e0 os t, c_enc C = wire_enc W ->
  encode_message W (MPing u32_max (mkNode (c_id C) (c_addr C)) (mkNode (c_id C) (c_addr C))) <> None ->
  c_inc0 C <= u32_max -> ep_new C t0 = Some e0 ->
  (In t (handed (snd (ep_run C e0 os))) \/ In t (e_tx (fst (ep_run C e0 os)))) ->
  (exists to m, t = TPacket to m /\ ((exists s p, m = MAck s p) \/ exists s, m = MNack s)) \/
  exists b, datagram C t = Ok b /\ blen b <= c_mtu C.
Proof. intros C W t0 e0 os t EC NE. apply C44_datagrams_fit. apply (wire_sizes C W EC NE). Qed.
Print Assumptions C44_datagrams_fit_on_the_wire.

(** ** A concrete endpoint with the real encoder: node "A" *)
Definition ew_cfg (mtu : N) : cfg :=
  mkCfg 65 101 1 1 5 [7] 512 4 (fun _ => (1000, 6000)) (fun _ _ _ _ => 2%Z) (fun _ => 4)
    8 500 30000 None (fun i => i * 7 + 3) (wire_enc ew)
    mtu 65536 [] 2 1000 500 3 200 3 30000 10000 2 true.
Definition ew_joined := map (fun i => EPacket (100 + i) (MAlive (mkAlive 3 i (100 + i) [] 1 1)) 10) [66; 67].
Definition ew_run (mtu : N) (os : list eop) : option ep := option_map (fun e => fst (ep_run (ew_cfg mtu) e os)) (ep_new (ew_cfg mtu) 0).
Lemma ew_reach mtu os e : ew_run mtu os = Some e -> reach (ew_cfg mtu) e.
Proof. unfold ew_run. destruct (ep_new (ew_cfg mtu) 0) as [e0|] eqn:N; [|discriminate]. intros [= <-]. exists 0, e0, os. auto. Qed.
Example C44_datagrams_fit_on_the_wire_ex :
  c_enc (ew_cfg 1400) = wire_enc ew /\ encode_message ew (MPing u32_max (mkNode 65 101) (mkNode 65 101)) <> None /\
  option_map (fun e => map (fun t => match datagram (ew_cfg 1400) t with Ok b => blen b | Err _ => 0 end) (e_tx e))
    (ew_run 1400 (ew_joined ++ [ESchedule 11; EQueueUser 0 [1; 2; 3]; ETimeout 300])) = Some [32; 82; 82].
Proof. split; [reflexivity|]. vm_compute. split; [discriminate|reflexivity]. Qed.

(** C45: a farewell within the advertised capacity rides in every farewell
    datagram when it is at most 16380 bytes long, or two bytes shorter than the
    capacity. *)
Theorem C45_farewell_carried : forall C W e now fw cap, c_enc C = wire_enc W -> reach C e -> runs e = true ->
  farewell_capacity C e = Some cap -> blen fw <= cap -> blen fw <= 16380 \/ blen fw + 2 <= cap -> cap <= 65535 ->
  Forall (fun t => exists to rest, t = TCompound to (MUserData fw :: rest)) (e_tx (fst (ep_step C e (ELeave now (Some fw))))).
Proof.
  intros C W e now fw cap EC R RU CP L S M. cbn [ep_step fst]. apply (farewell_carried C now e fw cap (reach_inv C e R) RU CP).
  unfold elen. rewrite EC. destruct S as [S|S].
  - pose proof (user_size_6 W fw S). lia.
  - pose proof (user_size_8 W fw ltac:(lia)). lia.
Qed.
Print Assumptions C45_farewell_carried.

(** C45: beyond that the advertised capacity is wrong: a farewell of exactly the
    advertised capacity is silently left out of every farewell datagram. *)
Theorem C45_farewell_capacity_refuted : exists C W e fw cap, c_enc C = wire_enc W /\ reach C e /\ runs e = true /\
  farewell_capacity C e = Some cap /\ blen fw <= cap /\ wf_bytes fw /\
  e_tx e = [] /\ map (fun t => match t with TPacket to m | TCompound to (m :: _) => (to, m) | TCompound to [] => (to, MNack 0) end)
    (e_tx (fst (ep_step C e (ELeave 60 (Some fw))))) = [(167, MDead 5 65 65); (166, MDead 5 65 65)].
Proof.
  destruct (ew_run 16413 ew_joined) as [e|] eqn:E; [|vm_compute in E; discriminate].
  exists (ew_cfg 16413), ew, e, (repeat 8 (N.to_nat 16381)), 16381.
  split; [reflexivity|]. split; [apply (ew_reach _ _ _ E)|].
  assert (forall A (f : ep -> A), Some (f e) = option_map f (ew_run 16413 ew_joined)) as K by (intros; rewrite E; reflexivity).
  split; [apply some_inj; rewrite (K _ runs); vm_compute; reflexivity|].
  split; [apply some_inj; rewrite (K _ (farewell_capacity (ew_cfg 16413))); vm_compute; reflexivity|].
  split; [unfold blen; rewrite repeat_length, N2Nat.id; apply N.le_refl|].
  split; [apply Forall_forall; intros x I; apply repeat_spec in I; subst x; reflexivity|].
  split; [apply some_inj; rewrite (K _ e_tx); vm_compute; reflexivity|].
  apply some_inj. rewrite (K _ (fun e => map _ (e_tx (fst (ep_step (ew_cfg 16413) e (ELeave 60 (Some (repeat 8 (N.to_nat 16381))))))))). vm_compute. reflexivity.
Qed.
Print Assumptions C45_farewell_capacity_refuted.
Example C45_farewell_carried_ex :
  let fw := repeat 8 (N.to_nat 16380) in
  option_map (fun e => (runs e, farewell_capacity (ew_cfg 16413) e)) (ew_run 16413 ew_joined) = Some (true, Some 16381) /\
  option_map e_tx (ew_run 16413 (ew_joined ++ [ELeave 60 (Some fw)])) = Some (map (fun a => TCompound a [MUserData fw; MDead 5 65 65]) [167; 166]).
Proof. vm_compute. auto. Qed.
