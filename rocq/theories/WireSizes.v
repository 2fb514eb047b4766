(** Sizes of encoded messages, and the endpoint with the real encoder. *)
From Verif Require Import Base BaseFacts CodecModel CodecSpec CodecFacts LabelModel MsgModel WireModel WireSpec WireFacts.
From Verif Require Import EndpointModel EndpointSent.
Local Open Scope N_scope.

(** the size of a frame with a body of [n] bytes *)
Definition frame_size (n : N) : N := 1 + varint_len n + n.
(** the size of a length-delimited field (numbers 1 to 15) of [n] bytes *)
Definition len_size (n : N) : N := 1 + varint_len n + n.
Lemma varint_len_mono a b : a <= b -> varint_len a <= varint_len b.
Proof.
  intros H. unfold varint_len.
  destruct (N.ltb_spec a 128), (N.ltb_spec b 128); try lia;
  destruct (N.ltb_spec a 16384), (N.ltb_spec b 16384); try lia;
  destruct (N.ltb_spec a 2097152), (N.ltb_spec b 2097152); try lia;
  destruct (N.ltb_spec a 268435456), (N.ltb_spec b 268435456); lia.
Qed.
Lemma varint_len_range a : 1 <= varint_len a <= 5.
Proof. unfold varint_len. repeat (destruct (_ <? _); [lia|]). lia. Qed.
Lemma pb_varint_size v : v <= u32_max -> blen (pb_varint v) = varint_len v.
Proof. intros H. rewrite pb_varint_u32 by exact H. apply encode_varint_len. exact H. Qed.
Lemma ser_flen n b : 1 <= n <= 15 -> blen b <= u32_max -> blen (ser (flen n b)) = len_size (blen b).
Proof.
  intros N0 L. cbn [flen ser map concat]. rewrite app_nil_r. unfold ser_field. cbn [fst snd wtype].
  rewrite !blen_app, !pb_varint_size by (unfold u32_max in *; lia). unfold len_size.
  unfold varint_len at 1. destruct (N.ltb_spec (8 * n + 2) 128); lia.
Qed.
Lemma ser_fvar n v : 1 <= n <= 15 -> v <= u32_max -> blen (ser (fvar n v)) = 1 + varint_len v.
Proof.
  intros N0 L. cbn [fvar ser map concat]. rewrite app_nil_r. unfold ser_field. cbn [fst snd wtype].
  rewrite !blen_app, !pb_varint_size by (unfold u32_max in *; lia).
  unfold varint_len at 1. destruct (N.ltb_spec (8 * n + 0) 128); lia.
Qed.
Lemma enc_size W m b : encode_message W m = Some b ->
  exists fs, msg_fields W m = Some fs /\ blen (ser fs) <= u32_max /\ blen b = frame_size (blen (ser fs)).
Proof.
  unfold encode_message. destruct (msg_fields W m) as [fs|]; [|discriminate]. destruct (N.eqb_spec (blen (ser fs)) (body_len fs)) as [E|]; [|discriminate].
  intros E2. apply some_inj in E2. exists fs. split; [reflexivity|].
  assert (blen (ser fs) <= u32_max) as L.
  { rewrite E. unfold body_len. pose proof (N.mod_lt (pb_size fs) two32 ltac:(discriminate)). unfold u32_max, two32 in *. lia. }
  split; [exact L|]. rewrite <- E2, blen_cons, blen_app, encode_varint_len by (rewrite <- E; exact L). unfold frame_size. rewrite <- E. lia.
Qed.
Lemma frame_size_mono a b : a <= b -> frame_size a <= frame_size b.
Proof. intros H. pose proof (varint_len_mono a b H). unfold frame_size. lia. Qed.
Lemma wire_size_bound W m : blen (wire_enc W m) <= u32_max + 6.
Proof.
  unfold wire_enc. destruct (encode_message W m) as [b|] eqn:E; [|vm_compute; discriminate]. cbn [dflt].
  destruct (enc_size W m b E) as (fs & _ & L & ->). unfold frame_size. pose proof (varint_len_range (blen (ser fs))). lia.
Qed.
(** user data: exact *)
Lemma user_size W d : blen d <= 65535 -> d <> [] -> blen (wire_enc W (MUserData d)) = frame_size (len_size (blen d)).
Proof.
  intros L NE. unfold wire_enc, encode_message. cbn [msg_fields].
  assert (ilen 1 d = flen 1 d) as -> by (destruct d; [congruence|reflexivity]).
  pose proof (ser_flen 1 d ltac:(lia) ltac:(unfold u32_max; lia)) as S.
  assert (body_len (flen 1 d) = blen (ser (flen 1 d))) as B.
  { unfold body_len. rewrite S. cbn [pb_size fold_right flen]. unfold field_size. cbn [fst snd wtype].
    rewrite <- (pb_varint_blen (8 * 1 + 2)), <- (pb_varint_blen (blen d)) by (unfold two64; lia). rewrite !pb_varint_size by (unfold u32_max; lia).
    change (varint_len (8 * 1 + 2)) with 1. pose proof (varint_len_range (blen d)). unfold len_size. rewrite N.mod_small by (unfold two32; lia). lia. }
  rewrite B, N.eqb_refl. cbn [dflt]. pose proof (varint_len_range (blen d)). rewrite blen_cons, blen_app, encode_varint_len by (rewrite S; unfold len_size, u32_max; lia).
  rewrite S. unfold frame_size. lia.
Qed.
Lemma user_size_8 W d : blen d <= 65535 -> blen (wire_enc W (MUserData d)) <= blen d + 8.
Proof.
  intros L. destruct d as [|x d]; [vm_compute; discriminate|]. rewrite user_size by (assumption || discriminate). set (n := blen (x :: d)) in *. clearbody n.
  pose proof (varint_len_mono n 65535 L) as V. change (varint_len 65535) with 3 in V.
  unfold frame_size. assert (varint_len (len_size n) <= 3) as V2 by (apply (varint_len_mono _ 65539); unfold len_size; lia). unfold len_size in *. lia.
Qed.
Lemma user_size_6 W d : blen d <= 16380 -> blen (wire_enc W (MUserData d)) <= blen d + 6.
Proof.
  intros L. destruct d as [|x d]; [vm_compute; discriminate|]. rewrite user_size by (lia || discriminate). set (n := blen (x :: d)) in *. clearbody n.
  pose proof (varint_len_mono n 16380 L) as V. change (varint_len 16380) with 2 in V.
  unfold frame_size. assert (varint_len (len_size n) <= 2) as V2 by (apply (varint_len_mono _ 16383); unfold len_size; lia). unfold len_size in *. lia.
Qed.
Lemma len_size_mono a b : a <= b -> len_size a <= len_size b.
Proof. apply frame_size_mono. Qed.
(** a leave notice is never larger than the largest ping *)
Lemma dead_le_ping W id addr i : i <= u32_max -> encode_message W (MPing u32_max (mkNode id addr) (mkNode id addr)) <> None ->
  blen (wire_enc W (MDead i id id)) <= blen (wire_enc W (MPing u32_max (mkNode id addr) (mkNode id addr))).
Proof.
  intros HI NE. unfold wire_enc. destruct (encode_message W (MPing _ _ _)) as [b|] eqn:E; [|congruence]. clear NE.
  destruct (enc_size _ _ _ E) as (fs & EF & L & S). cbn [dflt]. rewrite S.
  destruct (encode_message W (MDead i id id)) as [c|] eqn:E2; [|cbn; lia]. cbn [dflt].
  destruct (enc_size _ _ _ E2) as (gs & EG & LG & ->). apply frame_size_mono.
  cbn [msg_fields] in EF, EG. unfold node_fields in EF. cbn [nd_id nd_addr] in EF.
  destruct (w_id W id) as [x|]; [|discriminate]. destruct (w_addr W addr) as [a|]; [|discriminate]. apply some_inj in EF, EG. subst fs gs.
  set (n := flen 1 x ++ flen 2 a) in *.
  rewrite !ser_app in *. rewrite !blen_app in *.
  assert (blen (ser n) <= u32_max) as Ln by (pose proof (len_in_ser 2 (ser n) (flen 2 (ser n)) (or_introl eq_refl)); lia).
  assert (blen (ser n) = blen (ser (flen 1 x)) + blen (ser (flen 2 a))) as En by (unfold n; rewrite ser_app, blen_app; reflexivity).
  assert (blen x <= blen (ser (flen 1 x))) as Lx by apply (len_in_ser 1 x (flen 1 x) (or_introl eq_refl)).
  assert (blen x <= u32_max) as Lx2 by lia.
  assert (1 <= 2 <= 15) as B2 by lia. assert (1 <= 3 <= 15) as B3 by lia. assert (1 <= 1 <= 15) as B1 by lia.
  rewrite (ser_flen 2 x B2 Lx2), (ser_flen 3 x B3 Lx2), (ser_flen 2 (ser n) B2 Ln), (ser_flen 3 (ser n) B3 Ln), (ser_fvar 1 i B1 HI), (ser_fvar 1 u32_max B1 (N.le_refl _)).
  pose proof (varint_len_mono i u32_max HI). pose proof (len_size_mono (blen x) (blen (ser n)) ltac:(lia)). lia.
Qed.
(** an ack is never larger than the same ack under the largest number *)
Lemma ack_le_max W s p : s <= u32_max -> encode_message W (MAck u32_max p) <> None -> blen (wire_enc W (MAck s p)) <= blen (wire_enc W (MAck u32_max p)).
Proof.
  intros HS NE. unfold wire_enc. destruct (encode_message W (MAck u32_max p)) as [b|] eqn:E; [|congruence]. clear NE.
  destruct (enc_size _ _ _ E) as (fs & EF & L & S). cbn [dflt]. rewrite S.
  destruct (encode_message W (MAck s p)) as [c|] eqn:E2; [|cbn; lia]. cbn [dflt].
  destruct (enc_size _ _ _ E2) as (gs & EG & LG & ->). apply frame_size_mono.
  cbn [msg_fields] in EF, EG. apply some_inj in EF, EG. subst fs gs. rewrite !ser_app, !blen_app in *. unfold ivar.
  change (u32_max =? 0) with false. cbn iota. rewrite ser_fvar by (unfold u32_max; lia). destruct (s =? 0); [cbn; lia|].
  rewrite ser_fvar by (exact HS || lia). pose proof (varint_len_mono s u32_max HS). lia.
Qed.

(** the endpoint's size assumptions hold for the real encoder *)
Theorem wire_sizes C W : c_enc C = wire_enc W -> encode_message W (MPing u32_max (lnode C) (lnode C)) <> None -> sizes C.
Proof.
  intros EC NE. unfold sizes, elen. rewrite EC. split; [|split].
  - intros m. pose proof (wire_size_bound W m). rewrite EC. unfold u32_max, u64_max in *. lia.
  - intros d L. apply user_size_8. unfold MTU_MAX in L. lia.
  - intros i HI. apply dead_le_ping; assumption.
Qed.
