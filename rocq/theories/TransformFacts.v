(** Proofs about the transform wrappers. *)
From Coq Require Import ZArith.
From Verif Require Import Base BaseFacts CodecModel CodecSpec CodecFacts LabelModel LabelSpec LabelFacts
  KeyringModel TransformModel TransformSpec.
Local Open Scope N_scope.

Lemma be_bytes_len n : forall v, blen (be_bytes n v) = N.of_nat n.
Proof.
  induction n as [|n IH]; intros v; [reflexivity|].
  cbn [be_bytes]. rewrite blen_app, IH, blen_cons. change (@blen N []) with 0. lia.
Qed.
Lemma be_bytes_wf n : forall v, wf_bytes (be_bytes n v).
Proof.
  induction n as [|n IH]; intros v; [constructor|].
  cbn [be_bytes]. apply wf_bytes_app. split; [apply IH|]. apply wf_bytes_cons.
  split; [apply N.mod_lt; discriminate|constructor].
Qed.
Lemma digest_len B t p : blen (digest B t p) = digest_size t.
Proof. unfold digest. rewrite be_bytes_len. lia. Qed.
Lemma digest_wf B t p : wf_bytes (digest B t p).
Proof. apply be_bytes_wf. Qed.

Lemma sum_known_range t : sum_known t = true <-> 1 <= t <= 5.
Proof. unfold sum_known. lia. Qed.
Lemma comp_known_range t : comp_known t = true <-> 1 <= t <= 25.
Proof. unfold comp_known. lia. Qed.

(** ** Checksum *)
Lemma checksum_roundtrip B t p f : encode_checksummed_frame B t p = Ok f ->
  decode_checksummed_frame B f = Ok p /\ hd 0 f = 15 /\ blen f = 2 + digest_size t + blen p.
Proof.
  unfold encode_checksummed_frame. destruct (sum_known t) eqn:K; [|discriminate].
  intros [= <-]. cbn [decode_checksummed_frame hd]. change (15 =? 15) with true. rewrite K. cbn [negb].
  rewrite !blen_cons, !blen_app, digest_len.
  destruct (N.ltb_spec (1 + (1 + (digest_size t + blen p))) (2 + digest_size t)); [lia|].
  rewrite bdrop_app_exact, btake_app_exact by (rewrite digest_len; reflexivity).
  destruct (bytes_eqb_spec (digest B t p) (digest B t p)); [|congruence].
  split; [reflexivity|]. split; [reflexivity|lia].
Qed.
Lemma checksum_decode_iff B f p :
  decode_checksummed_frame B f = Ok p <->
  exists t, 1 <= t <= 5 /\ f = [15; t] ++ digest B t p ++ p.
Proof.
  split.
  - destruct f as [|tag [|t rest]]; try discriminate. cbn [decode_checksummed_frame].
    destruct (N.eqb_spec tag 15) as [->|]; [|discriminate].
    destruct (sum_known t) eqn:K; [|discriminate]. cbn [negb].
    destruct (N.ltb_spec (blen (15 :: t :: rest)) (2 + digest_size t)); [discriminate|].
    destruct (bytes_eqb_spec (digest B t (bdrop (digest_size t) rest)) (btake (digest_size t) rest)) as [E|];
      [|discriminate].
    intros [= <-]. exists t. split; [apply sum_known_range, K|].
    rewrite E, btake_bdrop. reflexivity.
  - intros (t & Ht & ->). apply sum_known_range in Ht.
    apply (checksum_roundtrip B t p). unfold encode_checksummed_frame. rewrite Ht. reflexivity.
Qed.

(** ** Compression *)
Lemma decompress_ok B t x n y : decompress B t x n = Ok y <->
  (1 <= t <= 25 /\ b_decompress B t x n = Some y /\ blen y = n).
Proof.
  unfold decompress. rewrite <- comp_known_range. destruct (comp_known t); cbn [negb].
  - destruct (b_decompress B t x n) as [o|]; [|split; [discriminate|intros (_ & [=] & _)]].
    destruct (N.eqb_spec (blen o) n); split.
    + intros [= <-]. auto.
    + intros (_ & [= ->] & _). reflexivity.
    + discriminate.
    + intros (_ & [= ->] & ?). congruence.
  - split; [discriminate|intros ([=] & _)].
Qed.

Lemma decode_compressed_iff B f max y : wf_bytes f ->
  decode_compressed_frame B f max = Ok y <->
  exists t len body, 1 <= t <= 25 /\ f = [14; t] ++ len ++ body /\
    leb_complete len /\ blen len <= 5 /\ leb128 len = blen y /\ blen y <= max /\ blen y <= u32_max /\
    b_decompress B t body (blen y) = Some y.
Proof.
  intros Hw. split.
  - destruct f as [|tag [|t rest]]; try discriminate. cbn [decode_compressed_frame].
    apply wf_bytes_cons in Hw as [_ Hw]. apply wf_bytes_cons in Hw as [_ Hw].
    destruct (N.eqb_spec tag 14) as [->|]; [|discriminate].
    destruct (comp_known t) eqn:K; [|discriminate]. cbn [negb].
    destruct (decode_varint_u32 rest) as [[n vb]|e] eqn:D; [|discriminate].
    apply decode_varint_ok in D as (Hn & Hvb & Hle & Hc & Hv); [|assumption].
    destruct (N.ltb_spec max n); [discriminate|].
    intros E. apply decompress_ok in E as (Ht & Hd & Hy).
    exists t, (btake vb rest), (bdrop vb rest). rewrite btake_bdrop, blen_btake, Hy.
    repeat split; try assumption; try lia; apply Ht.
  - intros (t & len & body & Ht & -> & Hc & Hl & Hv & Hm & Hu & Hd).
    assert (comp_known t = true) as K by (apply comp_known_range, Ht).
    cbn [app decode_compressed_frame]. change (14 =? 14) with true. rewrite K. cbn [negb].
    cbn [app] in Hw. apply wf_bytes_cons in Hw as [_ Hw]. apply wf_bytes_cons in Hw as [_ Hw].
    destruct Hc as (i & l & -> & Hi & Hlast).
    rewrite blen_app, blen_cons in Hl. change (@blen N []) with 0 in Hl.
    rewrite <- app_assoc. cbn [app]. rewrite <- app_assoc in Hw. cbn [app] in Hw.
    rewrite decode_varint_complete; try assumption; try lia.
    rewrite Hv. destruct (N.ltb_spec max (blen y)); [lia|].
    apply decompress_ok. split; [assumption|]. split; [|reflexivity].
    change (l :: body) with ([l] ++ body). rewrite app_assoc. rewrite bdrop_app_exact; [assumption|].
    rewrite blen_app. reflexivity.
Qed.

Lemma compress_payload_cases B o x :
  compress_payload B o x = x \/
  exists t p, 1 <= t <= 25 /\ b_compress B t x = Some p /\
    compress_payload B o x = encode_compressed_frame t (blen x) p /\
    blen (compress_payload B o x) < blen x.
Proof.
  unfold compress_payload, comp_apply.
  destruct (c_algo o) as [t|]; [|left; reflexivity].
  destruct (blen x <? c_threshold o); [left; reflexivity|].
  destruct (comp_known t) eqn:K; [|left; reflexivity]. cbn [negb].
  destruct (b_compress B t x) as [p|] eqn:C; [|left; reflexivity].
  destruct (blen p <? blen x); [|left; reflexivity].
  destruct (N.ltb_spec (blen (encode_compressed_frame t (blen x) p)) (blen x)); [|left; reflexivity].
  right. exists t, p. rewrite comp_known_range in K. auto.
Qed.
Lemma compress_payload_le B o x : blen (compress_payload B o x) <= blen x.
Proof.
  destruct (compress_payload_cases B o x) as [->|(t & p & _ & _ & _ & ?)]; lia.
Qed.
Lemma compress_payload_wf B o x : wf_backends B -> wf_bytes x -> wf_bytes (compress_payload B o x).
Proof.
  intros (HB & _) Hx. destruct (compress_payload_cases B o x) as [->|(t & p & Ht & C & -> & _)]; [assumption|].
  unfold encode_compressed_frame. rewrite !wf_bytes_cons, wf_bytes_app.
  split; [reflexivity|]. split; [lia|]. split; [apply encode_varint_wf|eapply HB, C].
  pose proof (N.mod_lt (blen x) two32). unfold two32, u32_max in *. lia.
Qed.
Lemma compressed_roundtrip B t x p max : wf_backends B -> lossless B ->
  1 <= t <= 25 -> b_compress B t x = Some p -> blen x <= max -> blen x <= u32_max ->
  decode_compressed_frame B (encode_compressed_frame t (blen x) p) max = Ok x.
Proof.
  intros HB HL Ht C Hm Hu.
  unfold encode_compressed_frame. rewrite N.mod_small by (unfold two32, u32_max in *; lia).
  cbn [decode_compressed_frame]. change (14 =? 14) with true.
  assert (comp_known t = true) as -> by (apply comp_known_range, Ht). cbn [negb].
  rewrite varint_roundtrip; [|assumption|eapply (proj1 HB), C].
  destruct (N.ltb_spec max (blen x)); [lia|]. rewrite bdrop_app_exact by reflexivity.
  apply decompress_ok. repeat split; try apply Ht. apply HL, C.
Qed.

(** ** Unwrapping *)
Lemma unwrap_plain B max fuel stage p : plain_bytes p -> blen p <= max ->
  unwrap_loop (S fuel) B max stage p = Ok p.
Proof.
  intros (Hne & H13 & H14 & H15) Hl. destruct p as [|b r]; [congruence|]. cbn [hd] in *.
  cbn [unwrap_loop]. destruct (N.eqb_spec b 13); [lia|]. destruct (N.eqb_spec b 15); [lia|].
  destruct (N.eqb_spec b 14); [lia|]. destruct (N.ltb_spec max (blen (b :: r))); [lia|]. reflexivity.
Qed.

Lemma unwrap3_iff B max fuel buf pt : unwrap_loop (S fuel) B max 3 buf = Ok pt <->
  (buf = pt /\ plain_bytes pt /\ blen pt <= max).
Proof.
  split.
  - cbn [unwrap_loop]. destruct buf as [|b r]; [discriminate|].
    destruct (N.eqb_spec b 13); [discriminate|].
    destruct (N.eqb_spec b 15); [discriminate|].
    destruct (N.eqb_spec b 14); [discriminate|].
    destruct (N.ltb_spec max (blen (b :: r))); [discriminate|].
    intros [= <-]. repeat split; try assumption; try discriminate.
  - intros (-> & P & L). apply unwrap_plain; assumption.
Qed.

(** Sizes on a 32-bit length field: what the decompressor may be asked for. *)
Lemma compression_layer_u32 B max outer inner : compression_layer B max outer inner ->
  outer <> inner -> exists t len, 1 <= t <= 25 /\ leb_complete len /\ blen len <= 5 /\ leb128 len = blen inner.
Proof.
  intros [->|(t & len & body & ? & ? & ? & ? & ? & _)] Hne; [congruence|]. exists t, len. auto.
Qed.

Lemma unwrap2_iff B max fuel buf pt stage : wf_bytes buf -> max <= u32_max -> stage <= 2 ->
  hd 0 buf <> 15 \/ stage = 2 ->
  unwrap_loop (S (S fuel)) B max stage buf = Ok pt <->
  (compression_layer B max buf pt /\ plain_bytes pt /\ blen pt <= max).
Proof.
  intros Hw Hmax Hst Hc. split.
  - destruct buf as [|b r]; [discriminate|]. cbn [hd] in Hc.
    change (unwrap_loop (S (S fuel)) B max stage (b :: r)) with
      (if b =? 13 then Err TxNonCanonical
       else if b =? 15 then if 1 <? stage then Err TxNonCanonical
         else match decode_checksummed_frame B (b :: r) with
              | Err e => Err e | Ok inner => unwrap_loop (S fuel) B max 2 inner end
       else if b =? 14 then if 2 <? stage then Err TxNonCanonical
         else match decode_compressed_frame B (b :: r) max with
              | Err e => Err e | Ok inner => unwrap_loop (S fuel) B max 3 inner end
       else if max <? blen (b :: r) then Err (TxOversizePlaintext (blen (b :: r))) else Ok (b :: r)).
    destruct (N.eqb_spec b 13); [discriminate|].
    destruct (N.eqb_spec b 15).
    { destruct (N.ltb_spec 1 stage); [discriminate|]. exfalso. destruct Hc; lia. }
    destruct (N.eqb_spec b 14) as [->|].
    + destruct (N.ltb_spec 2 stage); [discriminate|].
      destruct (decode_compressed_frame B (14 :: r) max) as [y|] eqn:D; [|discriminate].
      intros E. apply unwrap3_iff in E as (<- & P & L). split; [|split; assumption].
      apply decode_compressed_iff in D as (t & len & body & ? & -> & ? & ? & ? & ? & ? & ?); [|assumption].
      right. exists t, len, body. auto 10.
    + destruct (N.ltb_spec max (blen (b :: r))); [discriminate|].
      intros [= <-]. split; [left; reflexivity|]. repeat split; try assumption; discriminate.
  - intros ([->|(t & len & body & Ht & E & Hcl & Hl & Hv & Hm & Hd)] & P & L); [apply unwrap_plain; assumption|].
    assert (decode_compressed_frame B buf max = Ok pt) as D.
    { apply decode_compressed_iff; [assumption|]. exists t, len, body.
      repeat split; try assumption; lia. }
    subst buf. remember (S fuel) as sf. cbn [app]. cbn [unwrap_loop]. cbn [app] in D.
    change (14 =? 13) with false. change (14 =? 15) with false. change (14 =? 14) with true. cbv iota.
    destruct (N.ltb_spec 2 stage); [lia|]. rewrite D. subst sf. apply unwrap3_iff. auto.
Qed.

Lemma unwrap_iff B max buf pt : wf_backends B -> wf_bytes buf -> max <= u32_max ->
  unwrap_transforms B max buf = Ok pt <-> canonical B max buf pt.
Proof.
  intros HB Hw Hmax. unfold unwrap_transforms, canonical. split.
  - intros E. destruct (N.eq_dec (hd 0 buf) 15) as [H15|H15].
    + destruct buf as [|b r]; [discriminate|]. cbn [hd] in H15. subst b.
      remember 2%nat as two. cbn [unwrap_loop] in E.
      change (15 =? 13) with false in E. change (15 =? 15) with true in E. change (1 <? 1) with false in E.
      cbv iota in E.
      destruct (decode_checksummed_frame B (15 :: r)) as [mid|] eqn:D; [|discriminate].
      apply checksum_decode_iff in D as (t & Ht & Eb).
      assert (wf_bytes mid) as Hwm.
      { rewrite Eb in Hw. cbn [app] in Hw. rewrite !wf_bytes_cons, wf_bytes_app in Hw. tauto. }
      subst two. rewrite unwrap2_iff in E by (auto; lia). destruct E as (C & P & L).
      exists mid. split; [right; exists t; auto|auto].
    + rewrite unwrap2_iff in E by (auto; lia). destruct E as (C & P & L).
      exists buf. split; [left; reflexivity|auto].
  - intros (mid & [->|(t & Ht & E)] & C & P & L).
    + apply unwrap2_iff; auto; try lia. left.
      destruct C as [->|(? & ? & ? & _ & -> & _)]; [apply P|discriminate].
    + assert (wf_bytes mid) as Hwm.
      { rewrite E in Hw. cbn [app] in Hw. rewrite !wf_bytes_cons, wf_bytes_app in Hw. tauto. }
      assert (decode_checksummed_frame B buf = Ok mid) as D by (apply checksum_decode_iff; eauto).
      rewrite E in D |- *. cbn [app] in D |- *. remember 2%nat as two. cbn [unwrap_loop].
      change (15 =? 13) with false. change (15 =? 15) with true. change (1 <? 1) with false. cbv iota.
      rewrite D. subst two. apply unwrap2_iff; auto; lia.
Qed.

Lemma decode_checksummed_no_fuel B f : decode_checksummed_frame B f <> Err TxFuel.
Proof.
  destruct f as [|a [|t r]]; cbn [decode_checksummed_frame]; try discriminate.
  repeat match goal with |- context [if ?c then _ else _] => destruct c end; discriminate.
Qed.
Lemma decode_compressed_no_fuel B f max : decode_compressed_frame B f max <> Err TxFuel.
Proof.
  destruct f as [|a [|t r]]; cbn [decode_compressed_frame]; try discriminate.
  destruct (negb (a =? 14)); [discriminate|]. destruct (negb (comp_known t)); [discriminate|].
  destruct (decode_varint_u32 r) as [[n vb]|]; [|discriminate].
  destruct (max <? n); [discriminate|]. unfold decompress.
  destruct (negb (comp_known t)); [discriminate|].
  destruct (b_decompress B t (bdrop vb r) n); [|discriminate].
  match goal with |- context [if ?c then _ else _] => destruct c end; discriminate.
Qed.
Lemma unwrap_no_fuel B max buf : unwrap_transforms B max buf <> Err TxFuel.
Proof.
  assert (forall b r fuel, unwrap_loop (S fuel) B max 3 (b :: r) <> Err TxFuel) as H3.
  { intros. cbn [unwrap_loop]. change (1 <? 3) with true. change (2 <? 3) with true.
    repeat match goal with |- context [if ?c then _ else _] => destruct c end; discriminate. }
  assert (forall buf fuel, unwrap_loop (S (S fuel)) B max 2 buf <> Err TxFuel) as H2.
  { intros [|b r] fuel; [discriminate|]. remember (S fuel) as sf. cbn [unwrap_loop].
    change (1 <? 2) with true. change (2 <? 2) with false.
    destruct (b =? 13); [discriminate|]. destruct (b =? 15); [discriminate|].
    destruct (b =? 14).
    - pose proof (decode_compressed_no_fuel B (b :: r) max).
      destruct (decode_compressed_frame B (b :: r) max) as [[|c l]|]; [subst; discriminate|subst; apply H3|].
      congruence.
    - destruct (max <? _); discriminate. }
  unfold unwrap_transforms. destruct buf as [|b r]; [discriminate|].
  remember 2%nat as two. cbn [unwrap_loop]. change (1 <? 1) with false. change (2 <? 1) with false.
  destruct (b =? 13); [discriminate|]. destruct (b =? 15).
  - pose proof (decode_checksummed_no_fuel B (b :: r)).
    destruct (decode_checksummed_frame B (b :: r)); [subst; apply H2|congruence].
  - destruct (b =? 14).
    + pose proof (decode_compressed_no_fuel B (b :: r) max).
      destruct (decode_compressed_frame B (b :: r) max) as [[|c l]|]; [subst; discriminate|subst; apply H3|].
      congruence.
    + destruct (max <? _); discriminate.
Qed.

(** The output bound needs no assumption on sizes or bytes. *)
Lemma unwrap_out B max : forall fuel stage buf pt, unwrap_loop fuel B max stage buf = Ok pt ->
  plain_bytes pt /\ blen pt <= max.
Proof.
  induction fuel as [|f IH]; [discriminate|]. intros stage [|b r] pt; [discriminate|].
  cbn [unwrap_loop].
  destruct (N.eqb_spec b 13); [discriminate|]. destruct (N.eqb_spec b 15).
  { destruct (1 <? stage); [discriminate|]. destruct (decode_checksummed_frame B (b :: r)); [apply IH|discriminate]. }
  destruct (N.eqb_spec b 14).
  { destruct (2 <? stage); [discriminate|]. destruct (decode_compressed_frame B (b :: r) max); [apply IH|discriminate]. }
  destruct (N.ltb_spec max (blen (b :: r))); [discriminate|]. intros [= <-].
  split; [|assumption]. repeat split; try assumption. discriminate.
Qed.

Lemma unwrap_mono B max max' : max <= max' -> forall fuel stage buf pt,
  unwrap_loop fuel B max stage buf = Ok pt -> unwrap_loop fuel B max' stage buf = Ok pt.
Proof.
  intros Hm. induction fuel as [|f IH]; [discriminate|]. intros stage [|b r] pt; [discriminate|].
  cbn [unwrap_loop].
  destruct (b =? 13); [discriminate|]. destruct (b =? 15).
  { destruct (1 <? stage); [discriminate|]. destruct (decode_checksummed_frame B (b :: r)); [apply IH|discriminate]. }
  destruct (b =? 14).
  { destruct (2 <? stage); [discriminate|].
    assert (forall y, decode_compressed_frame B (b :: r) max = Ok y ->
                      decode_compressed_frame B (b :: r) max' = Ok y) as G.
    { intros y. destruct r as [|t rest]; [discriminate|]. cbn [decode_compressed_frame].
      destruct (negb (b =? 14)); [discriminate|]. destruct (negb (comp_known t)); [discriminate|].
      destruct (decode_varint_u32 rest) as [[n vb]|]; [|discriminate].
      destruct (N.ltb_spec max n); [discriminate|]. destruct (N.ltb_spec max' n); [lia|]. auto. }
    destruct (decode_compressed_frame B (b :: r) max) as [y|]; [|discriminate].
    rewrite (G y eq_refl). apply IH. }
  destruct (N.ltb_spec max (blen (b :: r))); [discriminate|].
  destruct (N.ltb_spec max' (blen (b :: r))); [lia|]. auto.
Qed.

(** ** Encryption *)
Lemma enc_eqb_spec a b : reflect (a = b) (enc_eqb a b).
Proof.
  destruct a as [| |x], b as [| |y]; cbn; try (constructor; congruence).
  destruct (N.eqb_spec x y); constructor; congruence.
Qed.
Lemma key_matches_own k : key_matches (key_algorithm k) k = true.
Proof. destruct k; reflexivity. Qed.
Lemma decrypt_own B k n ct aad : decrypt B (key_algorithm k) k n ct aad =
  match b_open B k n ct aad with Some pt => Ok pt | None => Err TxAuthFailed end.
Proof. unfold decrypt. rewrite key_matches_own. destruct k; reflexivity. Qed.
Lemma enc_from_tag_own k : enc_from_tag (enc_tag (key_algorithm k)) = key_algorithm k.
Proof. destruct k; reflexivity. Qed.

Lemma try_keys_ok B a nonce ct aad keys : forall tried pt,
  try_keys B a nonce ct aad keys tried = Ok pt ->
  exists k, In k keys /\ key_algorithm k = a /\ b_open B k nonce ct aad = Some pt.
Proof.
  induction keys as [|k r IH]; intros tried pt; cbn [try_keys].
  - destruct (tried =? 1); discriminate.
  - destruct (enc_eqb_spec (key_algorithm k) a) as [Ea|Na].
    + subst a. rewrite decrypt_own. destruct (b_open B k nonce ct aad) as [p|] eqn:O.
      * intros [= <-]. exists k. cbn [In]. auto.
      * intros H. apply IH in H as (k' & ? & ? & ?). exists k'. cbn [In]. auto.
    + intros H. apply IH in H as (k' & ? & ? & ?). exists k'. cbn [In]. auto.
Qed.
Lemma try_keys_complete B a nonce ct aad pt k keys : forall tried,
  In k keys -> key_algorithm k = a -> b_open B k nonce ct aad = Some pt ->
  (forall k', In k' keys -> b_open B k' nonce ct aad = None \/ b_open B k' nonce ct aad = Some pt) ->
  try_keys B a nonce ct aad keys tried = Ok pt.
Proof.
  induction keys as [|x r IH]; intros tried Hin Ha Ho Hu; [contradiction|].
  cbn [try_keys]. destruct (enc_eqb_spec (key_algorithm x) a) as [Ex|Nx].
  - subst a. rewrite <- Ex, decrypt_own.
    destruct (Hu x (or_introl eq_refl)) as [E|E]; rewrite E; [|reflexivity].
    rewrite Ex. apply IH; auto.
    + destruct Hin as [->|]; [congruence|assumption].
    + intros k' Hk'. apply Hu. right. exact Hk'.
  - apply IH; auto.
    + destruct Hin as [->|]; [congruence|assumption].
    + intros k' Hk'. apply Hu. right. exact Hk'.
Qed.

Lemma enc_from_tag_inv t a : enc_from_tag t = a -> enc_tag a = t.
Proof.
  intros <-. destruct t as [|[[?|?|]|[?|?|]|]]; reflexivity.
Qed.

Lemma decode_encrypted_ok B kr buf max dec : decode_encrypted_frame B (Some kr) buf max = Ok dec ->
  authenticated B kr buf dec /\ 30 <= blen buf <= max + 30.
Proof.
  destruct buf as [|tag [|t rest]]; try discriminate. cbn [decode_encrypted_frame].
  unfold ENCRYPTED_TAG, NONCE_LEN, AUTH_TAG_LEN, WRAPPER_HEADER_LEN.
  destruct (N.eqb_spec tag 13) as [->|]; [|discriminate]. cbn [negb].
  destruct (enc_from_tag t) as [| |u] eqn:F; [| |discriminate];
  (destruct (N.ltb_spec (blen (13 :: t :: rest)) (14 + 16)); [discriminate|];
   rewrite !blen_cons in *;
   destruct (N.ltb_spec max (blen (bdrop 12 rest) - 16)); [discriminate|];
   rewrite blen_bdrop in *; intros T;
   apply try_keys_ok in T as (k & Hin & Ha & Ho);
   apply enc_from_tag_inv in F; split; [|lia];
   exists k, (btake 12 rest), (bdrop 12 rest);
   (split; [exact Hin|]); rewrite Ha, F, btake_bdrop;
   (split; [reflexivity|]); (split; [rewrite blen_btake; lia|]);
   rewrite <- F; exact Ho).
Qed.

Lemma decode_encrypted_none B buf max dec : decode_encrypted_frame B None buf max <> Ok dec.
Proof.
  destruct buf as [|tag [|t rest]]; try discriminate. cbn [decode_encrypted_frame].
  destruct (negb (tag =? ENCRYPTED_TAG)); [discriminate|].
  destruct (enc_from_tag t); try discriminate;
  repeat match goal with |- context [if ?c then _ else _] => destruct c end; discriminate.
Qed.

Lemma encrypted_roundtrip B kr k nonce pt f max : aead_correct B ->
  In k (ring_keys kr) -> unambiguous B kr k nonce pt -> blen nonce = 12 -> blen pt <= max ->
  encode_encrypted_frame B (key_algorithm k) k (Some nonce) pt = Ok f ->
  decode_encrypted_frame B (Some kr) f max = Ok pt /\ blen f = blen pt + 30 /\ hd 0 f = 13.
Proof.
  intros HA Hin Hu Hn Hm. unfold encode_encrypted_frame, encrypt. rewrite key_matches_own. cbn [negb].
  destruct (b_seal B k nonce pt [ENCRYPTED_TAG; enc_tag (key_algorithm k)]) as [ct|] eqn:S;
    [|destruct k; discriminate].
  intros E. assert (f = 13 :: enc_tag (key_algorithm k) :: nonce ++ ct) as ->.
  { destruct k; injection E as <-; reflexivity. }
  clear E. destruct (HA k nonce pt _ ct Hn S) as [Ho Hl].
  cbn [decode_encrypted_frame]. unfold ENCRYPTED_TAG in *. change (13 =? 13) with true. cbn [negb].
  rewrite enc_from_tag_own. unfold WRAPPER_HEADER_LEN, AUTH_TAG_LEN, NONCE_LEN.
  rewrite !blen_cons, blen_app, Hn, Hl.
  rewrite btake_app_exact, bdrop_app_exact by (symmetry; exact Hn).
  split; [|split; [lia|reflexivity]].
  destruct (N.ltb_spec (1 + (1 + (12 + (blen pt + 16)))) (14 + 16)); [lia|]. rewrite Hl.
  destruct (N.ltb_spec max (blen pt + 16 - 16)); [lia|].
  assert (try_keys B (key_algorithm k) nonce ct [13; enc_tag (key_algorithm k)] (primary kr :: secondaries kr) 0 = Ok pt) as T.
  { apply (try_keys_complete B (key_algorithm k) nonce ct _ pt k); auto.
    all: unfold ENCRYPTED_TAG in *; try assumption. }
  destruct (key_algorithm k) eqn:Ek; [exact T|exact T|destruct k; discriminate].
Qed.

Lemma unwrap_enc_some B kr max buf pt : unwrap_with_encryption B (Some kr) max buf = Ok pt ->
  exists dec, authenticated B kr buf dec /\ unwrap_transforms B max dec = Ok pt /\
    blen buf <= max + 40.
Proof.
  destruct buf as [|b r]; [discriminate|]. cbn [unwrap_with_encryption].
  destruct (N.eqb_spec b 13); [|discriminate]. cbn [negb].
  destruct (decode_encrypted_frame B (Some kr) (b :: r) _) as [dec|] eqn:D; [|discriminate].
  intros U. apply decode_encrypted_ok in D as [A L]. unfold CHECKSUMED_WRAPPER_OVERHEAD in L.
  exists dec. split; [exact A|]. split; [exact U|lia].
Qed.
Lemma unwrap_enc_none B max buf : match unwrap_with_encryption B None max buf with
  | Ok pt => unwrap_transforms B max buf = Ok pt
  | Err _ => forall pt, unwrap_transforms B max buf <> Ok pt
  end.
Proof.
  destruct buf as [|b r]; [cbn; congruence|]. cbn [unwrap_with_encryption].
  destruct (N.eqb_spec b 13) as [->|].
  - destruct (decode_encrypted_frame B None (13 :: r) _) as [d|] eqn:D.
    + exfalso. eapply decode_encrypted_none, D.
    + intros pt. discriminate.
  - destruct (unwrap_transforms B max (b :: r)); [reflexivity|congruence].
Qed.

Lemma unwrap_enc_out B kr max buf pt : unwrap_with_encryption B kr max buf = Ok pt ->
  plain_bytes pt /\ blen pt <= max.
Proof.
  destruct kr as [kr|]; intros U.
  - apply unwrap_enc_some in U as (dec & _ & U & _). exact (unwrap_out _ _ _ _ _ _ U).
  - pose proof (unwrap_enc_none B max buf) as H. rewrite U in H. exact (unwrap_out _ _ _ _ _ _ H).
Qed.

Lemma unwrap_enc_mono B kr max max' buf pt : max <= max' ->
  unwrap_with_encryption B kr max buf = Ok pt -> unwrap_with_encryption B kr max' buf = Ok pt.
Proof.
  intros Hm. destruct buf as [|b r]; [destruct kr; discriminate|]. cbn [unwrap_with_encryption].
  assert (forall d, decode_encrypted_frame B kr (b :: r) (max + CHECKSUMED_WRAPPER_OVERHEAD) = Ok d ->
                    decode_encrypted_frame B kr (b :: r) (max' + CHECKSUMED_WRAPPER_OVERHEAD) = Ok d) as G.
  { intros d. destruct r as [|t rest]; [discriminate|]. cbn [decode_encrypted_frame].
    destruct (negb (b =? ENCRYPTED_TAG)); [discriminate|].
    destruct (enc_from_tag t); try discriminate;
    (destruct (blen (b :: t :: rest) <? WRAPPER_HEADER_LEN + AUTH_TAG_LEN); [discriminate|];
     destruct (N.ltb_spec (max + CHECKSUMED_WRAPPER_OVERHEAD) (blen (bdrop NONCE_LEN rest) - AUTH_TAG_LEN));
       [discriminate|];
     destruct (N.ltb_spec (max' + CHECKSUMED_WRAPPER_OVERHEAD) (blen (bdrop NONCE_LEN rest) - AUTH_TAG_LEN));
       [lia|]; auto). }
  destruct kr as [kr|].
  - destruct (negb (b =? 13)); [discriminate|].
    destruct (decode_encrypted_frame B (Some kr) (b :: r) (max + _)) as [d|]; [|discriminate].
    rewrite (G d eq_refl). apply unwrap_mono, Hm.
  - destruct (b =? 13).
    + destruct (decode_encrypted_frame B None (b :: r) (max + _)) as [d|]; [|discriminate].
      rewrite (G d eq_refl). apply unwrap_mono, Hm.
    + apply unwrap_mono, Hm.
Qed.

(** ** Round trips *)
Lemma unwrap_compressed B o x max stage fuel : wf_backends B -> lossless B ->
  plain_bytes x -> blen x <= max -> blen x <= u32_max -> stage <= 2 ->
  unwrap_loop (S (S fuel)) B max stage (compress_payload B o x) = Ok x.
Proof.
  intros HB HL P Hm Hu Hs.
  destruct (compress_payload_cases B o x) as [->|(t & p & Ht & C & -> & _)]; [apply unwrap_plain; assumption|].
  pose proof (compressed_roundtrip B t x p max HB HL Ht C Hm Hu) as D.
  unfold encode_compressed_frame in *. remember (S fuel) as sf. cbn [unwrap_loop].
  change (14 =? 13) with false. change (14 =? 15) with false. change (14 =? 14) with true. cbv iota.
  destruct (N.ltb_spec 2 stage); [lia|]. rewrite D. subst sf. apply unwrap_plain; assumption.
Qed.
Lemma unwrap_summed B o s x w max : wf_backends B -> lossless B ->
  plain_bytes x -> blen x <= max -> blen x <= u32_max ->
  match s with None => Ok (compress_payload B o x)
             | Some t => encode_checksummed_frame B t (compress_payload B o x) end = Ok w ->
  unwrap_transforms B max w = Ok x /\ blen w <= blen x + 10.
Proof.
  intros HB HL P Hm Hu E. unfold unwrap_transforms. pose proof (compress_payload_le B o x).
  destruct s as [t|].
  - apply checksum_roundtrip in E as (D & Hh & Hlen).
    destruct w as [|b r]; [discriminate|]. cbn [hd] in Hh. subst b.
    split; [|assert (digest_size t <= 8) by (unfold digest_size; destruct (_ || _); lia); lia].
    remember 2%nat as two. cbn [unwrap_loop].
    change (15 =? 13) with false. change (15 =? 15) with true. change (1 <? 1) with false. cbv iota.
    rewrite D. subst two. apply unwrap_compressed; auto. lia.
  - injection E as <-. split; [|lia]. apply unwrap_compressed; auto. lia.
Qed.

Lemma unwrap_enc_roundtrip B ks kr nonce w f max x : aead_correct B ->
  ring_compatible B ks kr nonce w -> plain_bytes x -> unwrap_transforms B max w = Ok x ->
  blen w <= max + 10 ->
  encrypt_payload B ks nonce w = Ok f ->
  unwrap_with_encryption B kr max f = Ok x /\
  blen f = blen w + match ks with Some _ => 30 | None => 0 end.
Proof.
  intros HA HR P U L E. destruct ks as [s|], kr as [r|]; cbn [ring_compatible] in HR; try contradiction.
  - destruct HR as [Hin Hu]. cbn [encrypt_payload] in E.
    destruct nonce as [n|]; [|discriminate]. destruct (Hu n eq_refl) as [Hn Hu'].
    destruct (encrypted_roundtrip B r (primary s) n w f (max + CHECKSUMED_WRAPPER_OVERHEAD) HA Hin Hu' Hn) as (D & Hl & Hh);
      [unfold CHECKSUMED_WRAPPER_OVERHEAD; lia|exact E|].
    split; [|exact Hl]. destruct f as [|b t]; [discriminate|]. cbn [hd] in Hh. subst b.
    cbn [unwrap_with_encryption]. change (13 =? 13) with true. cbn [negb]. rewrite D. exact U.
  - cbn [encrypt_payload] in E. injection E as <-. split; [|lia].
    pose proof (unwrap_enc_none B max w) as H. destruct (unwrap_with_encryption B None max w); [congruence|].
    exfalso. eapply H, U.
Qed.

Lemma unit_payload_wf B ks nonce p f : wf_backends B -> wf_bytes p ->
  match nonce with Some n => wf_bytes n | None => True end ->
  encrypt_payload B ks nonce p = Ok f -> wf_bytes f.
Proof.
  intros (_ & _ & HS & _) Hp Hn. destruct ks as [s|]; cbn [encrypt_payload]; [|intros [= <-]; assumption].
  unfold encode_encrypted_frame. destruct nonce as [n|]; [|discriminate].
  unfold encrypt. rewrite key_matches_own. cbn [negb].
  destruct (b_seal B (primary s) n p _) as [ct|] eqn:S; [|destruct (primary s); discriminate].
  intros E. assert (f = 13 :: enc_tag (key_algorithm (primary s)) :: n ++ ct) as ->.
  { destruct (primary s); injection E as <-; reflexivity. }
  rewrite !wf_bytes_cons, wf_bytes_app.
  split; [reflexivity|]. split; [destruct (primary s); reflexivity|]. split; [assumption|eapply HS, S].
Qed.

Lemma take_unit_roundtrip B o ks kr nonce max x u rest :
  wf_backends B -> lossless B -> aead_correct B ->
  ring_compatible B ks kr nonce (compress_payload B o x) ->
  match nonce with Some n => wf_bytes n | None => True end ->
  plain_bytes x -> wf_bytes x -> wf_bytes rest -> blen x <= max -> max + 30 <= u32_max ->
  encode_reliable_unit B o ks nonce x = Ok u ->
  take_reliable_unit B kr max (u ++ rest) = Ok (Some (x, blen u)).
Proof.
  intros HB HL HA HR Hnw P Hx Hr Hm Hu. unfold encode_reliable_unit.
  destruct (encrypt_payload B ks nonce (compress_payload B o x)) as [p|] eqn:E; [|discriminate].
  intros [= <-].
  assert (wf_bytes p) as Hwp.
  { apply (unit_payload_wf B ks nonce (compress_payload B o x) p HB); auto. apply compress_payload_wf; assumption. }
  pose proof (compress_payload_le B o x) as Hle.
  destruct (unwrap_enc_roundtrip B ks kr nonce _ p max x HA HR P) as [U Hp]; try assumption; [|lia|].
  { apply unwrap_compressed; auto; lia. }
  assert (blen p <= blen x + 30) by (destruct ks; lia).
  rewrite N.mod_small by (unfold two32, u32_max in *; lia).
  unfold take_reliable_unit. rewrite <- app_assoc.
  rewrite varint_roundtrip by (try apply wf_bytes_app; auto; lia).
  unfold ENCRYPTED_WRAPPER_OVERHEAD.
  assert (blen p <= match kr with Some _ => max + 30 | None => max end) as Hb.
  { destruct ks, kr; cbn in HR; try contradiction; lia. }
  destruct (N.ltb_spec (match kr with Some _ => max + 30 | None => max end) (blen p)); [lia|].
  rewrite !blen_app.
  destruct (N.ltb_spec (blen (encode_varint_u32 (blen p)) + (blen p + blen rest))
              (blen (encode_varint_u32 (blen p)) + blen p)); [lia|].
  rewrite bdrop_app_exact, btake_app_exact by reflexivity. rewrite U. reflexivity.
Qed.

(** ** Fragmentation *)
Lemma take_extend B kr max buf more : wf_bytes buf -> wf_bytes more ->
  match take_reliable_unit B kr max buf with
  | Ok None => True
  | Ok (Some (pt, n)) => take_reliable_unit B kr max (buf ++ more) = Ok (Some (pt, n)) /\ 1 <= n <= blen buf
  | Err e => exists e', take_reliable_unit B kr max (buf ++ more) = Err e'
  end.
Proof.
  intros Hb Hm. unfold take_reliable_unit.
  destruct (decode_varint_u32 buf) as [[n vb]|e] eqn:D.
  - rewrite (varint_extend _ _ _ more Hb Hm D).
    apply decode_varint_ok in D as (_ & Hv & Hvl & _); [|assumption].
    set (um := match kr with Some _ => _ | None => _ end).
    destruct (um <? n); [eauto|].
    destruct (N.ltb_spec (blen buf) (vb + n)); [exact I|].
    rewrite blen_app. destruct (N.ltb_spec (blen buf + blen more) (vb + n)); [lia|].
    assert (btake n (bdrop vb (buf ++ more)) = btake n (bdrop vb buf)) as ->.
    { rewrite bdrop_app. replace (vb - blen buf) with 0 by lia. rewrite bdrop_0, btake_app, blen_bdrop.
      replace (n - (blen buf - vb)) with 0 by lia. rewrite btake_0, app_nil_r. reflexivity. }
    destruct (unwrap_with_encryption B kr max (btake n (bdrop vb buf))); [|eauto].
    split; [reflexivity|lia].
  - destruct (decode_varint_err _ _ Hb D) as [[-> _]|(-> & _)]; [|exact I].
    rewrite (varint_extend_overflow _ _ Hb Hm D). eauto.
Qed.

Lemma drain_loop_fuel B kr max : forall fuel buf, wf_bytes buf -> (length buf < fuel)%nat ->
  forall fuel', (length buf < fuel')%nat -> drain_loop fuel B kr max buf = drain_loop fuel' B kr max buf.
Proof.
  induction fuel as [|f IH]; intros buf Hw Hf fuel' Hf'; [lia|].
  destruct fuel' as [|f']; [lia|]. cbn [drain_loop].
  pose proof (take_extend B kr max buf [] Hw (Forall_nil _)) as T.
  destruct (take_reliable_unit B kr max buf) as [[[pt n]|]|]; try reflexivity.
  destruct T as [_ T].
  assert (length (bdrop n buf) < length buf)%nat.
  { pose proof (blen_bdrop n buf). unfold blen in *. lia. }
  rewrite (IH (bdrop n buf) (wf_bdrop n buf Hw)) with (fuel' := f') by lia. reflexivity.
Qed.

Definition drain (B : backends) (kr : option keyring) (max : N) (buf : bytes) : drain_state :=
  drain_loop (S (length buf)) B kr max buf.
Lemma drain_eq B kr max buf : wf_bytes buf -> drain B kr max buf =
  match take_reliable_unit B kr max buf with
  | Err _ => mkDrain [] buf true
  | Ok None => mkDrain [] buf false
  | Ok (Some (pt, n)) =>
    let r := drain B kr max (bdrop n buf) in mkDrain (pt :: d_units r) (d_buf r) (d_failed r)
  end.
Proof.
  intros Hw. unfold drain at 1. cbn [drain_loop].
  pose proof (take_extend B kr max buf [] Hw (Forall_nil _)) as T.
  destruct (take_reliable_unit B kr max buf) as [[[pt n]|]|]; try reflexivity.
  destruct T as [_ T].
  assert (length (bdrop n buf) < length buf)%nat.
  { pose proof (blen_bdrop n buf). unfold blen in *. lia. }
  unfold drain. rewrite (drain_loop_fuel B kr max (length buf) (bdrop n buf)) with (fuel' := S (length (bdrop n buf)));
    [reflexivity|apply wf_bdrop; assumption|lia|lia].
Qed.

Lemma drain_suffix B kr max : forall len buf, (length buf <= len)%nat -> wf_bytes buf ->
  exists pre, buf = pre ++ d_buf (drain B kr max buf).
Proof.
  induction len as [|len IH]; intros buf Hlen Hw.
  - destruct buf; [|cbn in Hlen; lia]. exists []. reflexivity.
  - rewrite drain_eq by assumption.
    pose proof (take_extend B kr max buf [] Hw (Forall_nil _)) as T.
    destruct (take_reliable_unit B kr max buf) as [[[pt n]|]|]; try (exists []; reflexivity).
    destruct T as [_ T]. cbn [d_buf].
    destruct (IH (bdrop n buf)) as (pre & E).
    { pose proof (blen_bdrop n buf). unfold blen in *. lia. }
    { apply wf_bdrop; assumption. }
    exists (btake n buf ++ pre). rewrite <- app_assoc, <- E. symmetry. apply btake_bdrop.
Qed.

(** Draining a prefix first and the rest later is the same as draining all. *)
Lemma drain_app B kr max : forall len buf more, (length buf <= len)%nat ->
  wf_bytes buf -> wf_bytes more ->
  let a := drain B kr max buf in
  let whole := drain B kr max (buf ++ more) in
  if d_failed a then d_units whole = d_units a /\ d_failed whole = true
  else let b := drain B kr max (d_buf a ++ more) in
       whole = mkDrain (d_units a ++ d_units b) (d_buf b) (d_failed b).
Proof.
  induction len as [|len IH]; intros buf more Hlen Hw Hm; cbv zeta.
  - destruct buf; [|cbn in Hlen; lia]. change (drain B kr max []) with (mkDrain [] [] false).
    cbn [d_failed d_buf d_units app]. destruct (drain B kr max more); reflexivity.
  - rewrite (drain_eq B kr max buf) by assumption.
    pose proof (take_extend B kr max buf more Hw Hm) as T.
    destruct (take_reliable_unit B kr max buf) as [[[pt n]|]|] eqn:E.
    + destruct T as [T Hn]. cbv zeta.
      rewrite (drain_eq B kr max (buf ++ more)) by (apply wf_bytes_app; auto). rewrite T.
      assert (bdrop n (buf ++ more) = bdrop n buf ++ more) as ->.
      { rewrite bdrop_app. replace (n - blen buf) with 0 by lia. rewrite bdrop_0. reflexivity. }
      assert (length (bdrop n buf) <= len)%nat as Hl.
      { pose proof (blen_bdrop n buf). unfold blen in *. lia. }
      specialize (IH (bdrop n buf) more Hl (wf_bdrop n buf Hw) Hm). cbv zeta in IH.
      cbn [d_failed d_units d_buf].
      destruct (d_failed (drain B kr max (bdrop n buf))) eqn:F.
      * destruct IH as [-> ->]. auto.
      * rewrite IH. cbn [d_units d_buf d_failed app]. reflexivity.
    + cbn [d_failed d_units d_buf app]. destruct (drain B kr max (buf ++ more)); reflexivity.
    + destruct T as [e' T]. cbn [d_failed d_units].
      rewrite (drain_eq B kr max (buf ++ more)) by (apply wf_bytes_app; auto). rewrite T. auto.
Qed.

Lemma drain_buf_wf B kr max buf : wf_bytes buf -> wf_bytes (d_buf (drain B kr max buf)).
Proof.
  intros Hw. destruct (drain_suffix B kr max _ buf (le_n _) Hw) as (pre & E).
  rewrite E in Hw. apply wf_bytes_app in Hw. tauto.
Qed.

Lemma drain_run_gen B kr max : forall chunks s pre, Forall wf_bytes chunks -> wf_bytes pre ->
  d_units s = d_units (drain B kr max pre) -> d_failed s = d_failed (drain B kr max pre) ->
  (d_failed s = false -> d_buf s = d_buf (drain B kr max pre)) ->
  let r := fold_left (drain_feed B kr max) chunks s in
  let w := drain B kr max (pre ++ concat chunks) in
  d_units r = d_units w /\ d_failed r = d_failed w /\ (d_failed r = false -> d_buf r = d_buf w).
Proof.
  induction chunks as [|c cs IH]; intros s pre Hc Hp Hu Hf Hb; cbn [fold_left concat].
  - rewrite app_nil_r. auto.
  - inversion Hc as [|? ? Hwc Hcs]; subst. rewrite app_assoc. apply IH; auto.
    + apply wf_bytes_app; auto.
    + pose proof (drain_app B kr max _ pre c (le_n _) Hp Hwc) as A. cbv zeta in A.
      unfold drain_feed. rewrite Hf. destruct (d_failed (drain B kr max pre)) eqn:F.
      * destruct A as [-> _]. exact Hu.
      * rewrite A. cbn [d_units]. rewrite Hu, Hb by congruence. reflexivity.
    + pose proof (drain_app B kr max _ pre c (le_n _) Hp Hwc) as A. cbv zeta in A.
      unfold drain_feed. rewrite Hf. destruct (d_failed (drain B kr max pre)) eqn:F.
      * destruct A as [_ ->]. rewrite Hf. reflexivity.
      * rewrite A. cbn [d_failed]. rewrite Hb by congruence. reflexivity.
    + pose proof (drain_app B kr max _ pre c (le_n _) Hp Hwc) as A. cbv zeta in A.
      unfold drain_feed. rewrite Hf. destruct (d_failed (drain B kr max pre)) eqn:F; [congruence|].
      rewrite A. cbn [d_buf d_failed]. rewrite Hb by congruence. reflexivity.
Qed.
Lemma drain_fragmentation B kr max chunks : Forall wf_bytes chunks ->
  let r := drain_run B kr max chunks in
  let w := drain_run B kr max [concat chunks] in
  d_units r = d_units w /\ d_failed r = d_failed w /\ (d_failed r = false -> d_buf r = d_buf w).
Proof.
  intros Hc. cbv zeta.
  pose proof (drain_run_gen B kr max chunks (mkDrain [] [] false) [] Hc (Forall_nil _)) as H.
  assert (wf_bytes (concat chunks)) as Hcc.
  { clear H; induction Hc; cbn [concat]; [constructor|apply wf_bytes_app; auto]. }
  cbv zeta in H. cbn [app] in H.
  assert (drain_run B kr max [concat chunks] = drain B kr max (concat chunks)) as ->.
  { unfold drain_run. cbn [fold_left drain_feed d_failed d_buf d_units app].
    unfold drain_feed. cbn [d_failed d_buf d_units app]. fold (drain B kr max (concat chunks)).
    destruct (drain B kr max (concat chunks)); reflexivity. }
  apply H; reflexivity.
Qed.

Lemma drain_units_roundtrip B o ks kr max : forall (items : list (option bytes * bytes)) units rest,
  wf_backends B -> lossless B -> aead_correct B -> max + 30 <= u32_max ->
  Forall2 (fun it u => encode_reliable_unit B o ks (fst it) (snd it) = Ok u /\
     ring_compatible B ks kr (fst it) (compress_payload B o (snd it)) /\
     match fst it with Some n => wf_bytes n | None => True end /\
     plain_bytes (snd it) /\ wf_bytes (snd it) /\ blen (snd it) <= max) items units ->
  wf_bytes rest ->
  wf_bytes (concat units) /\
  drain B kr max (concat units ++ rest) =
    let r := drain B kr max rest in mkDrain (map snd items ++ d_units r) (d_buf r) (d_failed r).
Proof.
  intros items units rest HB HL HA Hu H Hr. induction H as [|it u items units (E & HR & Hn & P & Hw & Hm) F [Hwc IH]].
  - split; [constructor|]. cbn [concat map app]. destruct (drain B kr max rest); reflexivity.
  - assert (wf_bytes u) as Hwu.
    { unfold encode_reliable_unit in E.
      destruct (encrypt_payload B ks (fst it) (compress_payload B o (snd it))) as [p|] eqn:Ep; [|discriminate].
      injection E as <-. apply wf_bytes_app. split.
      - apply encode_varint_wf. pose proof (N.mod_lt (blen p) two32). unfold two32, u32_max in *. lia.
      - apply (unit_payload_wf B ks (fst it) (compress_payload B o (snd it)) p HB); auto.
        apply compress_payload_wf; assumption. }
    split; [cbn [concat]; apply wf_bytes_app; auto|].
    cbn [concat map app]. rewrite <- app_assoc.
    rewrite drain_eq by (rewrite !wf_bytes_app; auto).
    rewrite (take_unit_roundtrip B o ks kr (fst it) max (snd it) u) by
      (auto; rewrite wf_bytes_app; auto).
    rewrite bdrop_app_exact by reflexivity. rewrite IH. reflexivity.
Qed.

(** ** Gossip end to end *)
Lemma egress_inv B c nonce frame raw : transform_egress B c nonce frame = Some raw ->
  exists plain w, wrap_label frame (t_label c) = Ok plain /\
    match t_sum c with None => Ok (compress_payload B (t_comp c) plain)
                     | Some t => encode_checksummed_frame B t (compress_payload B (t_comp c) plain) end = Ok w /\
    encrypt_payload B (t_ring c) nonce w = Ok raw.
Proof.
  unfold transform_egress. destruct (wrap_label frame (t_label c)) as [plain|] eqn:W; [|discriminate].
  destruct (match t_sum c with None => _ | Some t => _ end) as [w|] eqn:S; [|discriminate].
  destruct (encrypt_payload B (t_ring c) nonce w) as [f|] eqn:E; [|discriminate].
  intros [= <-]. eauto.
Qed.

Lemma label_header_len label inner raw : wrap_label inner label = Ok raw ->
  blen raw = match effective_label label with Some l => 2 + blen l | None => 0 end + blen inner.
Proof.
  unfold wrap_label. destruct (effective_label label) as [l|]; [|intros [= <-]; lia].
  destruct (validate_label l); [|discriminate]. intros [= <-].
  unfold encode_label_prefix. rewrite !blen_cons, blen_app. lia.
Qed.
Lemma wrap_label_plain label inner raw : plain_bytes inner -> wrap_label inner label = Ok raw -> plain_bytes raw.
Proof.
  intros P. unfold wrap_label. destruct (effective_label label) as [l|]; [|intros [= <-]; assumption].
  destruct (validate_label l); [|discriminate]. intros [= <-].
  unfold encode_label_prefix, LABELED_TAG. cbn [app]. repeat split; cbn [hd]; discriminate.
Qed.
Lemma gossip_roundtrip B cs cr nonce frame raw :
  wf_backends B -> lossless B -> aead_correct B ->
  (forall w, ring_compatible B (t_ring cs) (t_ring cr) nonce w) ->
  effective_label (t_label cs) = effective_label (t_label cr) ->
  wf_bytes (match t_label cs with Some l => l | None => [] end) ->
  plain_bytes frame -> hd 0 frame <> 12 ->
  match effective_label (t_label cs) with Some l => 2 + blen l | None => 0 end + blen frame <= t_mtu cr ->
  t_mtu cr <= u32_max ->
  transform_egress B cs nonce frame = Some raw ->
  transform_ingress B cr raw = Some frame /\
  blen raw <= match effective_label (t_label cs) with Some l => 2 + blen l | None => 0 end + blen frame
              + match t_sum cs with Some _ => 10 | None => 0 end
              + match t_ring cs with Some _ => 30 | None => 0 end.
Proof.
  intros HB HL HA HR Hlab Hwl P H12 Hm Hu E.
  apply egress_inv in E as (plain & w & W & S & Enc).
  pose proof (label_header_len _ _ _ W) as Hlen.
  pose proof (wrap_label_plain _ _ _ P W) as Pp.
  destruct (unwrap_summed B (t_comp cs) (t_sum cs) plain w (t_mtu cr) HB HL Pp) as [U Lw]; try lia; [exact S|].
  assert (blen w <= blen plain + match t_sum cs with Some _ => 10 | None => 0 end) as Lw'.
  { pose proof (compress_payload_le B (t_comp cs) plain). destruct (t_sum cs); [lia|]. injection S as <-. lia. }
  destruct (unwrap_enc_roundtrip B (t_ring cs) (t_ring cr) nonce w raw (t_mtu cr) plain HA (HR w) Pp U)
    as [D Lf]; [lia|exact Enc|].
  split.
  - unfold transform_ingress. rewrite D.
    rewrite (datagram_label_matrix (t_label cs) (t_label cr) frame plain) by (auto; apply P).
    rewrite Hlab. destruct (effective_label (t_label cr)) as [l|]; [|reflexivity].
    destruct (bytes_eqb_spec l l); [reflexivity|congruence].
  - rewrite Hlen in Lw'. destruct (t_ring cs); lia.
Qed.

(** What ingress lets through, against any bytes. *)
Lemma ingress_sound B c raw inner : transform_ingress B c raw = Some inner ->
  inner <> [] /\ blen inner <= t_mtu c /\
  exists plain, unwrap_with_encryption B (t_ring c) (t_mtu c) raw = Ok plain /\
    match effective_label (t_label c) with
    | Some l => plain = header l ++ inner
    | None => plain = inner /\ hd 0 plain <> 12
    end.
Proof.
  unfold transform_ingress. destruct (unwrap_with_encryption B (t_ring c) (t_mtu c) raw) as [plain|] eqn:U; [|discriminate].
  destruct (decode_incoming plain (t_label c)) as [i|] eqn:D; [|discriminate].
  intros [= <-]. apply decode_incoming_ok in D as [Hne D]. apply unwrap_enc_out in U as U'. destruct U' as [_ L].
  split; [exact Hne|]. split; [|exists plain; split; [reflexivity|exact D]].
  destruct (effective_label (t_label c)) as [l|].
  - rewrite D, !blen_cons, blen_app in L. lia.
  - destruct D as [-> _]. exact L.
Qed.

(** ** Units: authentication, size, early rejection *)
Lemma unit_authenticated B kr max buf pt n : wf_bytes buf ->
  take_reliable_unit B (Some kr) max buf = Ok (Some (pt, n)) ->
  exists len body rest dec, buf = len ++ body ++ rest /\ n = blen len + blen body /\
    authenticated B kr body dec /\ unwrap_transforms B max dec = Ok pt.
Proof.
  intros Hw. unfold take_reliable_unit.
  destruct (decode_varint_u32 buf) as [[ul vb]|e] eqn:D; [|destruct e; discriminate].
  apply decode_varint_ok in D as (_ & _ & Hv & _); [|assumption].
  destruct (_ <? ul); [discriminate|]. destruct (N.ltb_spec (blen buf) (vb + ul)); [discriminate|].
  destruct (unwrap_with_encryption B (Some kr) max (btake ul (bdrop vb buf))) as [p|] eqn:U; [|discriminate].
  intros [= <- <-]. apply unwrap_enc_some in U as (dec & A & U & _).
  exists (btake vb buf), (btake ul (bdrop vb buf)), (bdrop ul (bdrop vb buf)), dec.
  rewrite !btake_bdrop, !blen_btake, blen_bdrop. repeat split; try assumption; lia.
Qed.

Lemma varint_len_mono a b : a <= b -> b <= u32_max ->
  blen (encode_varint_u32 a) <= blen (encode_varint_u32 b).
Proof.
  intros H Hb. rewrite !encode_varint_len by lia. unfold varint_len.
  repeat match goal with |- context [?x <? ?y] => destruct (N.ltb_spec x y) end; lia.
Qed.
Lemma unit_never_grows B o x u : blen x <= u32_max ->
  encode_reliable_unit B o None None x = Ok u ->
  exists v, encode_reliable_unit B (mkComp None 0) None None x = Ok v /\ blen u <= blen v.
Proof.
  intros Hx. unfold encode_reliable_unit. cbn [encrypt_payload]. intros [= <-].
  eexists. split; [reflexivity|]. change (compress_payload B (mkComp None 0) x) with x.
  pose proof (compress_payload_le B o x).
  rewrite !N.mod_small by (unfold two32, u32_max in *; lia). rewrite !blen_app.
  pose proof (varint_len_mono (blen (compress_payload B o x)) (blen x)). lia.
Qed.

Lemma overlong_rejected B kr max len rest :
  wf_bytes len -> wf_bytes rest -> leb_complete len -> blen len <= 5 -> leb128 len <= u32_max ->
  max + match kr with Some _ => 30 | None => 0 end < leb128 len ->
  exists e, take_reliable_unit B kr max (len ++ rest) = Err e.
Proof.
  intros Hw Hr (init & last & -> & Ha & Hl) Hlen Hv Hm.
  unfold take_reliable_unit. rewrite <- app_assoc. cbn [app].
  rewrite blen_app, blen_cons, blen_nil in Hlen.
  rewrite decode_varint_complete; auto; [|rewrite wf_bytes_app, wf_bytes_cons in *; tauto|lia].
  unfold ENCRYPTED_WRAPPER_OVERHEAD.
  destruct (N.ltb_spec (match kr with Some _ => max + 30 | None => max end) (leb128 (init ++ [last]))); [eauto|].
  destruct kr; lia.
Qed.

Lemma take_none_short B kr max buf : wf_bytes buf -> take_reliable_unit B kr max buf = Ok None ->
  blen buf < 5 + max + match kr with Some _ => 30 | None => 0 end.
Proof.
  intros Hw. unfold take_reliable_unit, ENCRYPTED_WRAPPER_OVERHEAD.
  destruct (decode_varint_u32 buf) as [[ul vb]|e] eqn:D.
  - apply decode_varint_ok in D as (_ & Hv & _); [|assumption].
    destruct (N.ltb_spec (match kr with Some _ => max + 30 | None => max end) ul); [discriminate|].
    destruct (N.ltb_spec (blen buf) (vb + ul)).
    + intros _. destruct kr; lia.
    + destruct (unwrap_with_encryption _ _ _ _); discriminate.
  - destruct (decode_varint_err _ _ Hw D) as [[-> _]|(-> & ? & _)]; [discriminate|]. intros _. lia.
Qed.
Lemma drain_short B kr max : forall len buf, (length buf <= len)%nat -> wf_bytes buf ->
  d_failed (drain B kr max buf) = false ->
  blen (d_buf (drain B kr max buf)) < 5 + max + match kr with Some _ => 30 | None => 0 end.
Proof.
  induction len as [|len IH]; intros buf Hlen Hw; rewrite drain_eq by assumption;
    pose proof (take_extend B kr max buf [] Hw (Forall_nil _)) as T;
    destruct (take_reliable_unit B kr max buf) as [[[pt n]|]|] eqn:E; cbn [d_failed d_buf]; try discriminate.
  - destruct T as [_ T]. exfalso. unfold blen in T. lia.
  - intros _. apply (take_none_short B); assumption.
  - destruct T as [_ T]. apply IH; [|apply wf_bdrop; assumption].
    pose proof (blen_bdrop n buf). unfold blen in *. lia.
  - intros _. apply (take_none_short B); assumption.
Qed.
Lemma drain_run_one B kr max s : drain_run B kr max [s] = drain B kr max s.
Proof.
  unfold drain_run. cbn [fold_left]. unfold drain_feed. cbn [d_failed d_buf d_units app].
  fold (drain B kr max s). destruct (drain B kr max s); reflexivity.
Qed.
Lemma concat_wf chunks : Forall wf_bytes chunks -> wf_bytes (concat chunks).
Proof. intros H. induction H; cbn [concat]; [constructor|apply wf_bytes_app; auto]. Qed.
Lemma concat_wf_inv chunks : wf_bytes (concat chunks) -> Forall wf_bytes chunks.
Proof.
  induction chunks as [|c cs IH]; [constructor|]. cbn [concat]. rewrite wf_bytes_app. intros [? ?].
  constructor; auto.
Qed.
Lemma drain_buffer_bounded B kr max chunks : Forall wf_bytes chunks ->
  let r := drain_run B kr max chunks in
  d_failed r = false ->
  blen (d_buf r) < 5 + max + match kr with Some _ => 30 | None => 0 end.
Proof.
  intros Hc r Hf. destruct (drain_fragmentation B kr max chunks Hc) as (_ & F & Hb).
  fold r in F, Hb. rewrite (Hb Hf). rewrite drain_run_one in *.
  apply (drain_short B kr max _ _ (le_n _)); [apply concat_wf, Hc|congruence].
Qed.

Lemma drain_units_fragmented B o ks kr max items units chunks :
  wf_backends B -> lossless B -> aead_correct B -> max + 30 <= u32_max ->
  Forall2 (fun (it : option bytes * bytes) u =>
     encode_reliable_unit B o ks (fst it) (snd it) = Ok u /\
     ring_compatible B ks kr (fst it) (compress_payload B o (snd it)) /\
     match fst it with Some n => wf_bytes n | None => True end /\
     plain_bytes (snd it) /\ wf_bytes (snd it) /\ blen (snd it) <= max) items units ->
  concat chunks = concat units ->
  drain_run B kr max chunks = mkDrain (map snd items) [] false.
Proof.
  intros HB HL HA Hm F E.
  destruct (drain_units_roundtrip B o ks kr max items units [] HB HL HA Hm F (Forall_nil _)) as [Hw D].
  rewrite app_nil_r in D. change (drain B kr max []) with (mkDrain [] [] false) in D.
  cbv zeta in D. cbn [d_units d_buf d_failed] in D. rewrite app_nil_r in D.
  assert (Forall wf_bytes chunks) as Hc by (apply concat_wf_inv; rewrite E; exact Hw).
  destruct (drain_fragmentation B kr max chunks Hc) as (U & Fl & Hb).
  rewrite drain_run_one, E, D in *. cbn [d_units d_buf d_failed] in *.
  destruct (drain_run B kr max chunks) as [us bf fl]. cbn [d_units d_buf d_failed] in *.
  subst us fl. rewrite (Hb eq_refl). reflexivity.
Qed.

(** A frame of exactly the MTU, sent and received under one label. *)
Lemma label_mtu_witness : exists c frame raw,
  t_comp c = mkComp None 0 /\ t_ring c = None /\ t_sum c = None /\ 512 <= t_mtu c /\
  (exists body, encode_plain_frame TUserData body = Ok frame) /\ blen frame <= t_mtu c /\
  (forall B, transform_egress B c None frame = Some raw) /\
  (forall B, transform_ingress B c raw = None).
Proof.
  exists (mkTctx (mkComp None 0) None None 512 (Some [97])).
  eexists. eexists. split; [reflexivity|]. split; [reflexivity|]. split; [reflexivity|].
  split; [cbn; lia|]. split; [exists (repeat 0 509); vm_compute; reflexivity|].
  split; [vm_compute; congruence|]. split; [intros B; vm_compute; reflexivity|].
  intros B. vm_compute. reflexivity.
Qed.
