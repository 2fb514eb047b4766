(** Proofs about the framing layer. *)
From Coq Require Import ZArith.
From Verif Require Import Base BaseFacts CodecModel CodecSpec.
Local Open Scope N_scope.
Ltac Zify.zify_post_hook ::= Z.div_mod_to_equations.

(** * Varints *)

Lemma leb128_app l1 l2 : leb128 (l1 ++ l2) = leb128 l1 + 2 ^ (7 * blen l1) * leb128 l2.
Proof.
  induction l1 as [|b l1 IH].
  - cbn [leb128 app]. change (2 ^ (7 * blen [])) with 1. lia.
  - cbn [leb128 app]. rewrite IH, blen_cons.
    replace (7 * (1 + blen l1)) with (7 + 7 * blen l1) by lia.
    rewrite N.pow_add_r. change (2 ^ 7) with 128. nia.
Qed.

Lemma leb128_bound l : leb128 l < 2 ^ (7 * blen l).
Proof.
  induction l as [|b l IH]; [vm_compute; reflexivity|].
  cbn [leb128]. rewrite blen_cons.
  replace (7 * (1 + blen l)) with (7 + 7 * blen l) by lia.
  rewrite N.pow_add_r. change (2 ^ 7) with 128.
  pose proof (N.mod_upper_bound b 128 ltac:(lia)). nia.
Qed.

(** The fuel runs out only after the fifth byte, which always decides. *)
Lemma varint_loop_spec fuel : forall i value buf,
  i + N.of_nat fuel = 5 -> fuel <> O -> value < 2 ^ (7 * i) -> wf_bytes buf ->
  match decode_varint_loop fuel i value (7 * i) buf with
  | Some (Ok (v, n)) =>
      exists init last rest, buf = init ++ last :: rest /\
        Forall (fun b => 128 <= b) init /\ last < 128 /\
        v = value + 2 ^ (7 * i) * leb128 (init ++ [last]) /\
        n = i + blen init + 1 /\ v <= u32_max /\ blen init < N.of_nat fuel
  | Some (Err e) =>
      e = EVarintOverflow /\
      exists init b rest, buf = init ++ b :: rest /\
        Forall (fun b => 128 <= b) init /\ i + blen init = 4 /\ 15 < b
  | None => blen buf < N.of_nat fuel /\ Forall (fun b => 128 <= b) buf
  end.
Proof.
  induction fuel as [|fuel IH]; intros i value buf Hi Hf Hv Hwf; [congruence|].
  cbn [decode_varint_loop].
  destruct buf as [|b rest].
  { split; [rewrite blen_nil; lia|constructor]. }
  apply wf_bytes_cons in Hwf as [Hb Hwf].
  destruct ((i =? 4) && (15 <? b)) eqn:Hg.
  { split; [reflexivity|]. exists [], b, rest. rewrite blen_nil.
    split; [reflexivity|]. split; [constructor|]. lia. }
  rewrite land127_mod, land128_byte by assumption.
  assert (b mod 128 < 128) as Hm by (apply N.mod_upper_bound; lia).
  assert (N.shiftl (b mod 128) (7 * i) < two32) as Hsm.
  { rewrite N.shiftl_mul_pow2.
    assert (i = 0 \/ i = 1 \/ i = 2 \/ i = 3 \/ i = 4) as Hcases by lia.
    destruct Hcases as [->|[->|[->|[->| ->]]]].
    - change (2 ^ (7 * 0)) with 1. unfold two32. lia.
    - change (2 ^ (7 * 1)) with 128. unfold two32. lia.
    - change (2 ^ (7 * 2)) with 16384. unfold two32. lia.
    - change (2 ^ (7 * 3)) with 2097152. unfold two32. lia.
    - change (2 ^ (7 * 4)) with 268435456. unfold two32.
      assert (b <= 15) by lia. assert (b mod 128 = b) as -> by (apply N.mod_small; lia). lia. }
  rewrite (N.mod_small _ _ Hsm).
  rewrite lor_shiftl_add by assumption.
  destruct (N.ltb_spec b 128) as [Hlt|Hge].
  - exists [], b, rest. rewrite blen_nil. cbn [app leb128].
    split; [reflexivity|]. split; [constructor|]. split; [assumption|].
    assert (b mod 128 = b) as Hbm by (apply N.mod_small; lia).
    split; [lia|]. split; [lia|]. split; [|lia].
    rewrite Hbm.
    assert (i = 0 \/ i = 1 \/ i = 2 \/ i = 3 \/ i = 4) as Hcases by lia.
    unfold u32_max.
    destruct Hcases as [->|[->|[->|[->| ->]]]].
    + change (2 ^ (7 * 0)) with 1 in *. lia.
    + change (2 ^ (7 * 1)) with 128 in *. lia.
    + change (2 ^ (7 * 2)) with 16384 in *. lia.
    + change (2 ^ (7 * 3)) with 2097152 in *. lia.
    + change (2 ^ (7 * 4)) with 268435456 in *. lia.
  - assert (fuel <> O) as Hf'.
    { intros ->. assert (i = 4) by lia. subst i.
      rewrite N.eqb_refl in Hg. simpl in Hg. lia. }
    replace (7 * i + 7) with (7 * (i + 1)) by lia.
    assert (2 ^ (7 * (i + 1)) = 2 ^ (7 * i) * 128) as Hpow.
    { replace (7 * (i + 1)) with (7 * i + 7) by lia. rewrite N.pow_add_r. reflexivity. }
    specialize (IH (i + 1) (value + b mod 128 * 2 ^ (7 * i)) rest).
    destruct (decode_varint_loop fuel (i + 1) (value + b mod 128 * 2 ^ (7 * i)) (7 * (i + 1)) rest)
      as [[[v n]|e]|].
    + destruct IH as (init & last & rest' & -> & Hall & Hlast & Hval & Hn & Hmax & Hlen);
        [lia|assumption|nia|assumption|].
      exists (b :: init), last, rest'. rewrite blen_cons. cbn [app leb128].
      split; [reflexivity|]. split; [constructor; assumption|]. split; [assumption|].
      split; [|split; [lia|split; [assumption|lia]]].
      rewrite Hval, Hpow. nia.
    + destruct IH as (-> & init & b' & rest' & -> & Hall & Hlen & Hb');
        [lia|assumption|nia|assumption|].
      split; [reflexivity|]. exists (b :: init), b', rest'. rewrite blen_cons.
      split; [reflexivity|]. split; [constructor; assumption|]. lia.
    + destruct IH as (Hlen & Hall); [lia|assumption|nia|assumption|].
      rewrite blen_cons. split; [lia|]. constructor; assumption.
Qed.

(** Case analysis of the reader on any buffer. *)
Lemma decode_varint_cases buf : wf_bytes buf ->
  (exists init last rest, buf = init ++ last :: rest /\
     Forall (fun b => 128 <= b) init /\ last < 128 /\ blen init < 5 /\
     leb128 (init ++ [last]) <= u32_max /\
     decode_varint_u32 buf = Ok (leb128 (init ++ [last]), blen init + 1))
  \/ (exists init b rest, buf = init ++ b :: rest /\
     Forall (fun b => 128 <= b) init /\ blen init = 4 /\ 15 < b /\
     decode_varint_u32 buf = Err EVarintOverflow)
  \/ (blen buf < 5 /\ Forall (fun b => 128 <= b) buf /\
     decode_varint_u32 buf = Err (EIncomplete (blen buf) (blen buf + 1))).
Proof.
  intros Hwf. unfold decode_varint_u32.
  pose proof (varint_loop_spec 5 0 0 buf ltac:(lia) ltac:(lia) ltac:(vm_compute; reflexivity) Hwf) as H.
  change (7 * 0) with 0 in H.
  destruct (decode_varint_loop 5 0 0 0 buf) as [[[v n]|e]|].
  - left. destruct H as (init & last & rest & -> & Ha & Hl & Hv & Hn & Hm & Hlen).
    exists init, last, rest. change (2 ^ 0) with 1 in Hv.
    assert (v = leb128 (init ++ [last])) as -> by lia.
    repeat (split; [first [assumption|reflexivity|lia]|]).
    do 2 f_equal. lia.
  - right; left. destruct H as (-> & init & b & rest & -> & Ha & Hl & Hb).
    exists init, b, rest. repeat (split; [first [assumption|reflexivity|lia]|]). reflexivity.
  - right; right. destruct H as (Hl & Ha). split; [lia|]. split; [assumption|reflexivity].
Qed.

(** First terminal byte is unique. *)
Lemma leb_split_unique (i1 i2 : bytes) l1 l2 r1 r2 :
  i1 ++ l1 :: r1 = i2 ++ l2 :: r2 ->
  Forall (fun b => 128 <= b) i1 -> Forall (fun b => 128 <= b) i2 ->
  l1 < 128 -> l2 < 128 -> i1 = i2 /\ l1 = l2 /\ r1 = r2.
Proof.
  revert i2. induction i1 as [|x i1 IH]; intros [|y i2] E H1 H2 L1 L2; simpl in E.
  - injection E as -> ->. auto.
  - injection E as E1 E2. inversion H2; subst. lia.
  - injection E as E1 E2. inversion H1; subst. lia.
  - injection E as -> E. inversion H1; inversion H2; subst.
    destruct (IH i2 E) as (-> & -> & ->); auto.
Qed.

Lemma decode_varint_complete init last rest :
  wf_bytes (init ++ last :: rest) ->
  Forall (fun b => 128 <= b) init -> last < 128 ->
  leb128 (init ++ [last]) <= u32_max -> blen init < 5 ->
  decode_varint_u32 (init ++ last :: rest) = Ok (leb128 (init ++ [last]), blen init + 1).
Proof.
  intros Hwf Ha Hl Hv Hlen.
  destruct (decode_varint_cases _ Hwf) as
    [(i2 & l2 & r2 & E & Ha2 & Hl2 & _ & _ & D)|[(i2 & b2 & r2 & E & Ha2 & Hl2 & Hb & D)|(Hs & Ha2 & D)]].
  - destruct (leb_split_unique _ _ _ _ _ _ E Ha Ha2 Hl Hl2) as (-> & -> & ->). assumption.
  - exfalso.
    (* the fifth byte exceeds 15 while the first four continue *)
    assert (i2 = init /\ b2 = last) as [-> ->].
    { revert i2 E Ha2 Hl2. clear - Ha Hl Hlen Hb.
      assert (blen init <= 4) as Hi by lia. clear Hlen.
      intros i2 E Ha2 Hl2.
      assert (forall (init i2 : bytes), Forall (fun b => 128 <= b) init ->
               Forall (fun b => 128 <= b) i2 -> blen init <= blen i2 ->
               init ++ last :: rest = i2 ++ b2 :: r2 -> i2 = init /\ b2 = last) as G.
      { clear - Hl. induction init as [|x init IH]; intros [|y i2] H1 H2 Hle E; simpl in E.
        - injection E as -> _. auto.
        - injection E as -> _. inversion H2; subst. lia.
        - rewrite blen_cons, blen_nil in Hle. lia.
        - injection E as -> E. inversion H1; inversion H2; subst. rewrite !blen_cons in Hle.
          destruct (IH i2) as [-> ->]; auto. lia. }
      apply (G init i2); auto. lia. }
    rewrite leb128_app, Hl2 in Hv. change (2 ^ (7 * 4)) with 268435456 in Hv.
    cbn [leb128] in Hv. unfold u32_max in Hv.
    assert (last mod 128 = last) by (apply N.mod_small; lia). lia.
  - exfalso. rewrite Forall_app in Ha2. destruct Ha2 as [_ Ha2]. inversion Ha2; subst. lia.
Qed.

Lemma encode_varint_fuel_shape fuel : forall v, v < 2 ^ (7 * (1 + N.of_nat fuel)) ->
  exists init last, encode_varint_fuel fuel v = init ++ [last] /\
    Forall (fun b => 128 <= b) init /\ last < 128 /\ leb128 (init ++ [last]) = v /\
    blen init <= N.of_nat fuel /\ wf_bytes (init ++ [last]) /\
    (init <> [] -> 128 <= v).
Proof.
  induction fuel as [|fuel IH]; intros v Hv; cbn [encode_varint_fuel].
  - change (2 ^ (7 * (1 + N.of_nat 0))) with 128 in Hv.
    exists [], v. cbn [app leb128]. change (@blen byte []) with 0.
    repeat split; try constructor; try lia; try (constructor); unfold is_byte; try lia.
    congruence.
  - destruct (N.leb_spec 128 v) as [Hge|Hlt].
    + rewrite lor128_mod, shiftr7_div.
      destruct (IH (v / 128)) as (init & last & -> & Ha & Hl & Hval & Hlen & Hwf & _).
      { replace (7 * (1 + N.of_nat (S fuel))) with (7 * (1 + N.of_nat fuel) + 7) in Hv by lia.
        rewrite N.pow_add_r in Hv. change (2 ^ 7) with 128 in Hv.
        apply N.div_lt_upper_bound; lia. }
      exists (v mod 128 + 128 :: init), last. cbn [app leb128]. rewrite blen_cons, Hval.
      assert (v mod 128 < 128) by (apply N.mod_upper_bound; lia).
      split; [reflexivity|]. split; [constructor; [lia|assumption]|]. split; [assumption|].
      split; [|split; [lia|split]].
      * lia.
      * constructor; [unfold is_byte; lia|assumption].
      * intros _. assumption.
    + exists [], v. cbn [app leb128]. change (@blen byte []) with 0.
      repeat split; try constructor; try lia; try (constructor); unfold is_byte; try lia.
      congruence.
Qed.

Lemma encode_varint_shape v : v <= u32_max ->
  exists init last, encode_varint_u32 v = init ++ [last] /\
    Forall (fun b => 128 <= b) init /\ last < 128 /\ leb128 (init ++ [last]) = v /\
    blen init < 5 /\ wf_bytes (init ++ [last]).
Proof.
  intros Hv. unfold encode_varint_u32.
  (* four continuation bytes suffice: run the last fuel unit by hand *)
  assert (forall fuel v, v < 2 ^ (7 * (1 + N.of_nat fuel)) ->
            encode_varint_fuel (S fuel) v = encode_varint_fuel fuel v) as Hext.
  { induction fuel as [|fuel IH]; intros w Hw.
    - change (2 ^ (7 * (1 + N.of_nat 0))) with 128 in Hw.
      cbn [encode_varint_fuel]. destruct (N.leb_spec 128 w); [lia|reflexivity].
    - change (encode_varint_fuel (S (S fuel)) w) with
        (if 128 <=? w then N.lor (N.land w 127) 128 :: encode_varint_fuel (S fuel) (N.shiftr w 7) else [w]).
      change (encode_varint_fuel (S fuel) w) with
        (if 128 <=? w then N.lor (N.land w 127) 128 :: encode_varint_fuel fuel (N.shiftr w 7) else [w]).
      destruct (N.leb_spec 128 w); [|reflexivity]. f_equal. apply IH.
      rewrite shiftr7_div.
      replace (7 * (1 + N.of_nat (S fuel))) with (7 * (1 + N.of_nat fuel) + 7) in Hw by lia.
      rewrite N.pow_add_r in Hw. change (2 ^ 7) with 128 in Hw.
      apply N.div_lt_upper_bound; lia. }
  assert (v < 2 ^ (7 * (1 + N.of_nat 4))) as Hb.
  { change (2 ^ (7 * (1 + N.of_nat 4))) with 34359738368. unfold u32_max in Hv. lia. }
  rewrite (Hext 4%nat v Hb).
  destruct (encode_varint_fuel_shape 4 v Hb) as (init & last & H1 & H2 & H3 & H4 & H5 & H6 & _).
  exists init, last. repeat (split; [first [assumption|lia]|]). assumption.
Qed.

Lemma encode_varint_wf v : v <= u32_max -> wf_bytes (encode_varint_u32 v).
Proof. intros H. destruct (encode_varint_shape v H) as (i & l & -> & _ & _ & _ & _ & W). exact W. Qed.

Lemma encode_varint_len_bounds v : v <= u32_max -> 1 <= blen (encode_varint_u32 v) <= 5.
Proof.
  intros H. destruct (encode_varint_shape v H) as (i & l & -> & _ & _ & _ & Hl & _).
  rewrite blen_app, blen_cons. change (@blen byte []) with 0. lia.
Qed.

Lemma varint_roundtrip v rest : v <= u32_max -> wf_bytes rest ->
  decode_varint_u32 (encode_varint_u32 v ++ rest) = Ok (v, blen (encode_varint_u32 v)).
Proof.
  intros Hv Hr. destruct (encode_varint_shape v Hv) as (i & l & E & Ha & Hl & Hval & Hlen & Hwf).
  rewrite E. rewrite <- app_assoc. cbn [app].
  rewrite decode_varint_complete; try assumption.
  - rewrite Hval, blen_app, blen_cons. reflexivity.
  - rewrite wf_bytes_app, wf_bytes_cons. rewrite wf_bytes_app, wf_bytes_cons in Hwf. tauto.
  - lia.
Qed.

Lemma encode_varint_len v : v <= u32_max -> blen (encode_varint_u32 v) = varint_len v.
Proof.
  intros Hv. unfold encode_varint_u32, varint_len.
  cbn [encode_varint_fuel]. rewrite !shiftr7_div.
  unfold u32_max in Hv.
  repeat match goal with |- context [?a <=? ?b] => destruct (N.leb_spec a b) end;
  repeat match goal with |- context [?a <? ?b] => destruct (N.ltb_spec a b) end;
  try (unfold blen; cbn [length]; reflexivity); exfalso; lia.
Qed.

Lemma decode_varint_ok buf v n : wf_bytes buf -> decode_varint_u32 buf = Ok (v, n) ->
  v <= u32_max /\ 1 <= n <= 5 /\ n <= blen buf /\
  leb_complete (btake n buf) /\ leb128 (btake n buf) = v.
Proof.
  intros Hwf D.
  destruct (decode_varint_cases buf Hwf) as
    [(i & l & r & -> & Ha & Hl & Hlen & Hm & D')|[(i & b & r & _ & _ & _ & _ & D')|(_ & _ & D')]];
    rewrite D' in D; try discriminate.
  injection D as <- <-.
  assert (btake (blen i + 1) (i ++ l :: r) = i ++ [l]) as Ht.
  { change (l :: r) with ([l] ++ r). rewrite app_assoc. apply btake_app_exact.
    rewrite blen_app. reflexivity. }
  rewrite Ht. split; [assumption|]. split; [lia|]. split.
  - rewrite blen_app, blen_cons. lia.
  - split; [|reflexivity]. exists i, l. auto.
Qed.

Lemma decode_varint_err buf e : wf_bytes buf -> decode_varint_u32 buf = Err e ->
  (e = EVarintOverflow /\ 5 <= blen buf) \/ (e = EIncomplete (blen buf) (blen buf + 1) /\ blen buf < 5
     /\ Forall (fun b => 128 <= b) buf).
Proof.
  intros Hwf D.
  destruct (decode_varint_cases buf Hwf) as
    [(i & l & r & -> & Ha & Hl & Hlen & Hm & D')|[(i & b & r & -> & _ & Hl & _ & D')|(Hl & Ha & D')]];
    rewrite D' in D; try discriminate; injection D as <-.
  - left. split; [reflexivity|]. rewrite blen_app, blen_cons. lia.
  - right. auto.
Qed.

(** * Tags *)
Lemma tag_roundtrip t : tag_of_byte (tag_byte t) = Ok t.
Proof. destruct t; reflexivity. Qed.
Lemma tag_of_byte_ok b t : tag_of_byte b = Ok t -> b = tag_byte t.
Proof.
  unfold tag_of_byte.
  destruct b as [|p]; [discriminate|].
  do 4 (try destruct p as [p|p|]); try discriminate; intros H; injection H as <-; reflexivity.
Qed.
Lemma tag_byte_is_byte t : is_byte (tag_byte t).
Proof. destruct t; vm_compute; reflexivity. Qed.

(** * Plain frames *)
Lemma encode_plain_ok t body f : encode_plain_frame t body = Ok f ->
  blen body <= u32_max /\ f = tag_byte t :: encode_varint_u32 (blen body) ++ body.
Proof.
  unfold encode_plain_frame. destruct (N.ltb_spec u32_max (blen body)); [discriminate|].
  intros E. injection E as <-. auto.
Qed.

Lemma plain_roundtrip t body f rest : wf_bytes body -> wf_bytes rest ->
  encode_plain_frame t body = Ok f ->
  decode_plain_frame (f ++ rest) = Ok (t, body, blen f).
Proof.
  intros Hb Hr E. apply encode_plain_ok in E as [Hl ->].
  cbn [app decode_plain_frame]. rewrite tag_roundtrip.
  rewrite <- app_assoc. rewrite varint_roundtrip; [|assumption|apply wf_bytes_app; auto].
  remember (encode_varint_u32 (blen body)) as vi.
  assert (blen (tag_byte t :: vi ++ body ++ rest) = 1 + blen vi + blen body + blen rest) as Hlen.
  { rewrite blen_cons, !blen_app. lia. }
  rewrite Hlen.
  destruct (N.ltb_spec (1 + blen vi + blen body + blen rest) (1 + blen vi + blen body)) as [?|_]; [lia|].
  do 2 f_equal; [f_equal|].
  - rewrite bdrop_cons by lia. replace (1 + blen vi - 1) with (blen vi) by lia.
    rewrite bdrop_app_exact by reflexivity. apply btake_app_exact. reflexivity.
  - rewrite blen_cons, blen_app. lia.
Qed.

(** What a successful decode says about the buffer. *)
Lemma decode_plain_ok buf t body total : wf_bytes buf ->
  decode_plain_frame buf = Ok (t, body, total) ->
  exists vi rest, buf = tag_byte t :: vi ++ body ++ rest /\ leb_complete vi /\
    leb128 vi = blen body /\ blen vi <= 5 /\ blen body <= u32_max /\
    total = 1 + blen vi + blen body.
Proof.
  intros Hwf D. destruct buf as [|b0 rest]; [discriminate|].
  cbn [decode_plain_frame] in D.
  destruct (tag_of_byte b0) as [t'|e] eqn:Ht; [|discriminate].
  apply tag_of_byte_ok in Ht. apply wf_bytes_cons in Hwf as [_ Hwf].
  destruct (decode_varint_u32 rest) as [[bl vb]|e] eqn:Hv; [|destruct e; discriminate].
  apply decode_varint_ok in Hv as (Hmax & Hvb & Hle & Hc & Hval); [|assumption].
  destruct (N.ltb_spec (blen (b0 :: rest)) (1 + vb + bl)) as [?|Hge]; [discriminate|].
  injection D as <- Hbody <-. rewrite blen_cons in Hge.
  exists (btake vb rest), (bdrop (1 + vb + bl) (b0 :: rest)).
  rewrite bdrop_cons in Hbody by lia. replace (1 + vb - 1) with vb in Hbody by lia.
  rewrite bdrop_cons by lia. replace (1 + vb + bl - 1) with (vb + bl) by lia.
  rewrite <- bdrop_bdrop, <- Hbody, !btake_bdrop. rewrite <- Ht.
  assert (blen (btake bl (bdrop vb rest)) = bl) as Hbl.
  { rewrite blen_btake, blen_bdrop. lia. }
  assert (blen (btake vb rest) = vb) as Hvbl by (rewrite blen_btake; lia).
  rewrite Hbl, Hvbl.
  repeat (split; [first [reflexivity|assumption|lia]|]). lia.
Qed.

(** Every strict prefix of a frame is incomplete. *)
Lemma plain_prefix_incomplete t body f k : wf_bytes body ->
  encode_plain_frame t body = Ok f -> k < blen f ->
  (k = 0 /\ decode_plain_frame (btake k f) = Err EEmpty) \/
  (0 < k /\ exists need, decode_plain_frame (btake k f) = Err (EIncomplete k need) /\ k < need <= blen f).
Proof.
  intros Hb E Hk. apply encode_plain_ok in E as [Hl Hf].
  destruct (N.eq_dec k 0) as [->|Hk0]; [left; split; [reflexivity|]; rewrite btake_0; reflexivity|].
  right. split; [lia|].
  assert (Hf' := Hf).
  destruct (encode_varint_shape (blen body) Hl) as (init & last & Ev & Ha & Hla & Hval & Hlen5 & Hwfv).
  assert (blen (btake k f) = k) as Hkl by (rewrite blen_btake; lia).
  assert (wf_bytes (btake (k - 1) (encode_varint_u32 (blen body) ++ body))) as Hwfr.
  { apply wf_btake, wf_bytes_app. split; [apply encode_varint_wf; assumption|assumption]. }
  rewrite Hf in Hkl |- *. rewrite btake_cons in Hkl |- * by lia.
  cbn [decode_plain_frame]. rewrite tag_roundtrip. rewrite Hkl.
  remember (encode_varint_u32 (blen body)) as vi eqn:Hvi.
  assert (blen f = 1 + blen vi + blen body) as Hlf.
  { rewrite Hf, blen_cons, blen_app. lia. }
  rewrite blen_cons, blen_app.
  destruct (N.ltb_spec (k - 1) (blen vi)) as [Hcut|Hcut].
  - (* cut inside the length prefix *)
    rewrite btake_app. replace (k - 1 - blen vi) with 0 by lia. rewrite btake_0, app_nil_r.
    assert (Forall (fun b => 128 <= b) (btake (k - 1) vi)) as Hcont.
    { rewrite Ev, btake_app.
      assert (k - 1 <= blen init) as Hle.
      { rewrite Ev, blen_app, blen_cons in Hcut. change (@blen byte []) with 0 in Hcut. lia. }
      replace (k - 1 - blen init) with 0 by lia. rewrite btake_0, app_nil_r.
      rewrite <- (btake_bdrop (k - 1) init) in Ha. apply Forall_app in Ha. tauto. }
    assert (blen (btake (k - 1) vi) < 5) as Hl5.
    { rewrite blen_btake. pose proof (encode_varint_len_bounds (blen body) Hl) as Hb5.
      rewrite <- Hvi in Hb5. lia. }
    assert (wf_bytes (btake (k-1) vi)) as Hwc.
    { apply wf_btake. rewrite Hvi. apply encode_varint_wf. assumption. }
    destruct (decode_varint_cases _ Hwc) as
      [(i & l & r & Ei & _ & Hl' & _)|[(i & b & r & Ei & _ & Hl4 & _ & _)|(_ & _ & D)]].
    + exfalso. rewrite Ei in Hcont. apply Forall_app in Hcont as [_ Hcont].
      inversion Hcont; subst. lia.
    + exfalso. rewrite Ei, blen_app, blen_cons in Hl5. lia.
    + rewrite D. exists (k + 1). split; [reflexivity|]. lia.
  - rewrite btake_app. rewrite (btake_all vi) by lia. rewrite Hvi.
    rewrite varint_roundtrip; [|assumption|apply wf_btake; assumption].
    rewrite <- Hvi.
    destruct (N.ltb_spec k (1 + blen vi + blen body)) as [_|?]; [|lia].
    exists (1 + blen vi + blen body). split; [reflexivity|]. lia.
Qed.

(** * The stream probe *)

(** The probe's loop equals a header interpretation. *)
Lemma probe_loop_spec fuel : forall i tag max blen0 value rest,
  i + N.of_nat fuel = 5 -> fuel <> O -> value < 2 ^ (7 * i) -> wf_bytes rest ->
  probe_loop fuel tag max blen0 value (7 * i) i rest =
    match decode_varint_loop fuel i value (7 * i) rest with
    | Some (Ok (v, n)) =>
        if max <? 1 + n + v then PReject
        else if 1 + n + v <=? blen0 then PFrame tag (1 + n + v) else PNeedMore
    | Some (Err _) => PReject
    | None => PNeedMore
    end.
Proof.
  induction fuel as [|fuel IH]; intros i tag max bl value rest Hi Hf Hv Hwf; [congruence|].
  pose proof (varint_loop_spec (S fuel) i value rest Hi Hf Hv Hwf) as Hspec.
  cbn [probe_loop decode_varint_loop] in *.
  destruct rest as [|b rest]; [reflexivity|].
  apply wf_bytes_cons in Hwf as [Hb Hwf].
  destruct ((i =? 4) && (15 <? b)) eqn:Hg.
  - (* fifth byte too large *)
    apply andb_prop in Hg as [Hi4 Hb15].
    assert (i = 4) by lia. subst i. assert (15 < b) by lia.
    rewrite land128_byte by assumption. rewrite land127_mod.
    destruct (N.ltb_spec b 128) as [Hlt|Hge].
    + rewrite lor_shiftl_add by assumption.
      change (2 ^ (7 * 4)) with 268435456. assert (b mod 128 = b) as -> by (apply N.mod_small; lia).
      destruct (N.ltb_spec u32_max (value + b * 268435456)) as [_|Hle]; [reflexivity|].
      unfold u32_max in Hle. lia.
    + change (35 <=? 7 * 4 + 7) with true. reflexivity.
  - rewrite land128_byte in * by assumption. rewrite land127_mod in *.
    assert (b mod 128 < 128) as Hm by (apply N.mod_upper_bound; lia).
    assert (N.shiftl (b mod 128) (7 * i) < two32) as Hsm.
    { rewrite N.shiftl_mul_pow2.
      assert (i = 0 \/ i = 1 \/ i = 2 \/ i = 3 \/ i = 4) as Hcases by lia.
      destruct Hcases as [->|[->|[->|[->| ->]]]].
      - change (2 ^ (7 * 0)) with 1. unfold two32. lia.
      - change (2 ^ (7 * 1)) with 128. unfold two32. lia.
      - change (2 ^ (7 * 2)) with 16384. unfold two32. lia.
      - change (2 ^ (7 * 3)) with 2097152. unfold two32. lia.
      - change (2 ^ (7 * 4)) with 268435456. unfold two32.
        assert (b <= 15) by lia. assert (b mod 128 = b) as -> by (apply N.mod_small; lia). lia. }
    rewrite (N.mod_small _ _ Hsm) in *.
    destruct (N.ltb_spec b 128) as [Hlt|Hge].
    + destruct Hspec as (_ & _ & _ & _ & _ & _ & _ & _ & Hmax & _).
      destruct (N.ltb_spec u32_max (N.lor value (N.shiftl (b mod 128) (7 * i)))); [lia|].
      reflexivity.
    + assert (fuel <> O) as Hf'.
      { intros ->. assert (i = 4) by lia. subst i. rewrite N.eqb_refl in Hg. simpl in Hg. lia. }
      destruct (N.leb_spec 35 (7 * i + 7)) as [Hbad|_]; [lia|].
      replace (7 * i + 7) with (7 * (i + 1)) by lia.
      rewrite IH; [reflexivity|lia|assumption| |assumption].
      rewrite lor_shiftl_add by assumption.
      replace (7 * (i + 1)) with (7 * i + 7) by lia. rewrite N.pow_add_r.
      change (2 ^ 7) with 128. nia.
Qed.

Lemma probe_frame_spec max tag rest : wf_bytes rest ->
  probe_frame max (tag :: rest) =
    match decode_varint_u32 rest with
    | Ok (v, n) =>
        if max <? 1 + n + v then PReject
        else if 1 + n + v <=? blen (tag :: rest) then PFrame tag (1 + n + v) else PNeedMore
    | Err (EIncomplete _ _) => PNeedMore
    | Err _ => PReject
    end.
Proof.
  intros Hwf. cbn [probe_frame]. unfold decode_varint_u32.
  change 0 with (7 * 0) at 2.
  rewrite (probe_loop_spec 5 0); [|lia|lia|vm_compute; reflexivity|assumption].
  pose proof (varint_loop_spec 5 0 0 rest ltac:(lia) ltac:(lia) ltac:(vm_compute; reflexivity) Hwf) as H.
  change (7 * 0) with 0 in *.
  destruct (decode_varint_loop 5 0 0 0 rest) as [[[v n]|e]|]; try reflexivity.
  destruct H as [-> _]. reflexivity.
Qed.

(** * Compound datagrams *)
Lemma encode_parts_ok parts : Forall (fun p => blen p <= u32_max) parts ->
  exists r, encode_parts parts = Ok r /\
    r = concat (map (fun p => encode_varint_u32 (blen p) ++ p) parts).
Proof.
  induction parts as [|p ps IH]; intros H; cbn [encode_parts map concat].
  - eauto.
  - inversion H; subst. destruct (N.ltb_spec u32_max (blen p)); [lia|].
    destruct IH as (r & -> & ->); [assumption|]. eexists. split; [reflexivity|].
    rewrite <- app_assoc. reflexivity.
Qed.
Lemma encode_parts_inv parts r : encode_parts parts = Ok r ->
  Forall (fun p => blen p <= u32_max) parts /\
  r = concat (map (fun p => encode_varint_u32 (blen p) ++ p) parts).
Proof.
  revert r. induction parts as [|p ps IH]; intros r E; cbn [encode_parts map concat] in *.
  - injection E as <-. auto.
  - destruct (N.ltb_spec u32_max (blen p)); [discriminate|].
    destruct (encode_parts ps) as [r'|]; [|discriminate]. injection E as <-.
    destruct (IH r' eq_refl) as [H1 ->]. split; [constructor; assumption|].
    rewrite <- app_assoc. reflexivity.
Qed.

Lemma decode_parts_concat parts : forall pre,
  Forall (fun p => blen p <= u32_max /\ wf_bytes p) parts ->
  let r := concat (map (fun p => encode_varint_u32 (blen p) ++ p) parts) in
  decode_parts (length parts) (pre ++ r) (blen pre) = Ok (parts, blen (pre ++ r)).
Proof.
  induction parts as [|p ps IH]; intros pre H; cbn [map concat length decode_parts].
  - rewrite app_nil_r. reflexivity.
  - inversion H as [|? ? [Hp Hwp] Hps]; subst.
    set (r := concat (map (fun p => encode_varint_u32 (blen p) ++ p) ps)) in *.
    assert (wf_bytes r) as Hwr.
    { subst r. clear IH H Hp Hwp. induction Hps as [|q qs [Hq Hwq] Hqs IHq]; cbn [map concat].
      - constructor.
      - rewrite !wf_bytes_app. split; [split; [apply encode_varint_wf|]; assumption|assumption]. }
    rewrite bdrop_app_exact by reflexivity.
    rewrite <- app_assoc.
    rewrite varint_roundtrip; [|assumption|apply wf_bytes_app; auto].
    set (vi := encode_varint_u32 (blen p)) in *.
    destruct (N.ltb_spec (blen (pre ++ vi ++ p ++ r)) (blen pre + blen vi + blen p)) as [Hbad|_].
    { rewrite !blen_app in Hbad. lia. }
    specialize (IH (pre ++ vi ++ p) Hps). cbn zeta in IH.
    replace (pre ++ vi ++ p ++ r) with ((pre ++ vi ++ p) ++ r) by (rewrite <- !app_assoc; reflexivity).
    replace (blen pre + blen vi + blen p) with (blen (pre ++ vi ++ p)) by (rewrite !blen_app; lia).
    rewrite IH. do 2 f_equal. f_equal.
    replace ((pre ++ vi ++ p) ++ r) with ((pre ++ vi) ++ (p ++ r)) by (rewrite <- !app_assoc; reflexivity).
    rewrite bdrop_app_exact by (rewrite blen_app; reflexivity).
    apply btake_app_exact. reflexivity.
Qed.

Lemma compound_roundtrip parts f : Forall wf_bytes parts ->
  encode_compound parts = Ok f -> decode_compound f = Ok parts.
Proof.
  intros Hwf E. unfold encode_compound in E.
  destruct (N.ltb_spec (blen parts) 2); [discriminate|].
  destruct (N.ltb_spec u32_max (blen parts)); [discriminate|].
  destruct (encode_parts parts) as [r|] eqn:Er; [|discriminate].
  injection E as <-. apply encode_parts_inv in Er as [Hl ->].
  set (r := concat (map (fun p => encode_varint_u32 (blen p) ++ p) parts)) in *.
  assert (Forall (fun p => blen p <= u32_max /\ wf_bytes p) parts) as Hall.
  { clear - Hwf Hl. induction parts; constructor; inversion Hwf; inversion Hl; subst; auto. }
  assert (wf_bytes r) as Hwr.
  { subst r. clear - Hall. induction Hall as [|q qs [Hq Hwq] Hqs IHq]; cbn [map concat].
    - constructor.
    - rewrite !wf_bytes_app. split; [split; [apply encode_varint_wf|]; assumption|assumption]. }
  assert (blen parts <= blen r) as Hrem.
  { subst r. clear - Hall. induction Hall as [|q qs [Hq Hwq] Hqs IHq]; cbn [map concat].
    - reflexivity.
    - rewrite blen_cons, !blen_app. pose proof (encode_varint_len_bounds (blen q) Hq). lia. }
  cbn [decode_compound].
  rewrite varint_roundtrip by assumption.
  set (vi := encode_varint_u32 (blen parts)) in *.
  destruct (N.ltb_spec (blen parts) 2); [lia|].
  rewrite blen_cons, blen_app.
  destruct (N.ltb_spec (1 + (blen vi + blen r) - (1 + blen vi)) (blen parts)); [lia|].
  pose proof (decode_parts_concat parts (tag_byte TCompound :: vi) Hall) as HD.
  cbn zeta in HD. fold r in HD.
  replace (N.to_nat (blen parts)) with (length parts) by (unfold blen; lia).
  change (tag_byte TCompound) with 1 in HD.
  cbn [app] in HD. rewrite blen_cons in HD.
  change (tag_of_byte 1) with (@Ok frame_error _ TCompound). cbv iota beta. cbn [app].
  match goal with |- match ?x with _ => _ end = _ =>
    assert (x = Ok (parts, blen (1 :: vi ++ r))) as -> by exact HD end.
  rewrite blen_cons, blen_app, N.eqb_refl. reflexivity.
Qed.

(** Slices returned by a successful split account for every byte. *)
Lemma decode_parts_ok n : forall buf cursor ps c, wf_bytes buf -> cursor <= blen buf ->
  decode_parts n buf cursor = Ok (ps, c) ->
  length ps = n /\ c <= blen buf /\
  exists vis, length vis = n /\
    bdrop cursor buf = concat (map (fun '(v, p) => v ++ p) (combine vis ps)) ++ bdrop c buf /\
    Forall2 (fun v p => leb_complete v /\ blen v <= 5 /\ leb128 v = blen p) vis ps /\
    c = cursor + blen (concat (map (fun '(v, p) => v ++ p) (combine vis ps))).
Proof.
  induction n as [|n IH]; intros buf cursor ps c Hwf Hc D; cbn [decode_parts] in D.
  - injection D as <- <-. split; [reflexivity|]. split; [assumption|]. exists [].
    cbn [length combine map concat app]. change (@blen byte []) with 0.
    repeat split; try constructor. lia.
  - destruct (decode_varint_u32 (bdrop cursor buf)) as [[il lb]|e] eqn:Hv;
      [|destruct e; discriminate].
    apply decode_varint_ok in Hv as (Hm & Hlb & Hle & Hcm & Hval); [|apply wf_bdrop; assumption].
    rewrite blen_bdrop in Hle.
    destruct (N.ltb_spec (blen buf) (cursor + lb + il)) as [?|Hfit]; [discriminate|].
    destruct (decode_parts n buf (cursor + lb + il)) as [[ps' c']|] eqn:Hrec; [|discriminate].
    injection D as <- <-.
    apply IH in Hrec as (Hlen & Hcc & vis & Hvl & Hbuf & HF & Hceq); [|assumption|lia].
    set (p := btake il (bdrop (cursor + lb) buf)).
    set (v := btake lb (bdrop cursor buf)).
    assert (blen p = il) as Hpl. { subst p. rewrite blen_btake, blen_bdrop. lia. }
    assert (blen v = lb) as Hvl'. { subst v. rewrite blen_btake, blen_bdrop. lia. }
    split; [cbn [length]; congruence|]. split; [assumption|].
    exists (v :: vis). cbn [length combine map concat].
    split; [congruence|]. split; [|split].
    + rewrite <- app_assoc, <- Hbuf. subst p v.
      rewrite <- app_assoc. replace (cursor + lb + il) with (cursor + lb + il) by lia.
      rewrite <- (bdrop_bdrop il (cursor + lb)). rewrite btake_bdrop.
      rewrite <- (bdrop_bdrop lb cursor). rewrite btake_bdrop. reflexivity.
    + constructor; [|assumption]. subst v p. split; [assumption|]. split; [lia|]. lia.
    + rewrite !blen_app, Hpl, Hvl'. rewrite Hceq. lia.
Qed.

Lemma decode_compound_ok buf ps : wf_bytes buf -> decode_compound buf = Ok ps ->
  exists vc vis, 2 <= blen ps /\ leb_complete vc /\ blen vc <= 5 /\ leb128 vc = blen ps /\
    length vis = length ps /\
    Forall2 (fun v p => leb_complete v /\ blen v <= 5 /\ leb128 v = blen p) vis ps /\
    buf = tag_byte TCompound :: vc ++ concat (map (fun '(v, p) => v ++ p) (combine vis ps)).
Proof.
  intros Hwf D. destruct buf as [|b0 rest]; [discriminate|].
  cbn [decode_compound] in D.
  destruct (tag_of_byte b0) as [t|] eqn:Ht; [|discriminate].
  apply tag_of_byte_ok in Ht.
  destruct t; try discriminate. subst b0.
  assert (Hwf0 := Hwf). apply wf_bytes_cons in Hwf as [_ Hwf].
  destruct (decode_varint_u32 rest) as [[count cb]|e] eqn:Hv; [|destruct e; discriminate].
  apply decode_varint_ok in Hv as (Hm & Hcb & Hle & Hcm & Hval); [|assumption].
  destruct (N.ltb_spec count 2) as [?|Hc2]; [discriminate|].
  destruct (N.ltb_spec (blen (tag_byte TCompound :: rest) - (1 + cb)) count); [discriminate|].
  destruct (decode_parts _ _ _) as [[ps' c]|] eqn:Hp; [|discriminate].
  destruct (N.eqb_spec c (blen (tag_byte TCompound :: rest))) as [Hce|]; [|discriminate].
  injection D as <-.
  apply decode_parts_ok in Hp as (Hlen & _ & vis & Hvl & Hbuf & HF & _);
    [|assumption|rewrite blen_cons; lia].
  exists (btake cb rest), vis.
  assert (blen (btake cb rest) = cb) as Hvc by (rewrite blen_btake; lia).
  assert (blen ps' = count) as Hpsl by (unfold blen; lia).
  rewrite Hpsl, Hvc. repeat (split; [first [assumption|lia|congruence]|]).
  f_equal. rewrite (bdrop_all _ c), app_nil_r in Hbuf by lia.
  rewrite bdrop_cons in Hbuf by lia. replace (1 + cb - 1) with cb in Hbuf by lia.
  transitivity (btake cb rest ++ bdrop cb rest); [symmetry; apply btake_bdrop|].
  f_equal. exact Hbuf.
Qed.

(** * Socket addresses *)
Lemma u16_be_roundtrip p : p < 65536 -> u16_of_be (N.shiftr p 8) (N.land p 255) = p.
Proof.
  intros H. unfold u16_of_be. rewrite land255_mod, N.shiftr_div_pow2, N.shiftl_mul_pow2.
  change (2 ^ 8) with 256. lia.
Qed.
Lemma u16_be_bytes p : p < 65536 -> wf_bytes (u16_to_be p).
Proof.
  intros H. unfold u16_to_be. rewrite land255_mod, N.shiftr_div_pow2. change (2 ^ 8) with 256.
  repeat constructor; unfold is_byte; lia.
Qed.
Lemma u16_of_be_inv hi lo : hi < 256 -> lo < 256 ->
  u16_of_be hi lo < 65536 /\ u16_to_be (u16_of_be hi lo) = [hi; lo].
Proof.
  intros H1 H2. unfold u16_to_be, u16_of_be. rewrite land255_mod, N.shiftr_div_pow2, N.shiftl_mul_pow2.
  change (2 ^ 8) with 256. split; [lia|].
  assert ((hi * 256 + lo) / 256 = hi) as -> by lia.
  assert ((hi * 256 + lo) mod 256 = lo) as -> by lia. reflexivity.
Qed.

Lemma addr_roundtrip a b : wf_socket_addr a ->
  socket_addr_to_bytes a = Ok b -> wf_bytes b /\ socket_addr_from_bytes b = Ok a.
Proof.
  destruct a as [o p|o p fl sc]; cbn [wf_socket_addr socket_addr_to_bytes].
  - intros (Hw & Hl & Hp) E. injection E as <-.
    destruct o as [|o1 [|o2 [|o3 [|o4 [|]]]]]; try discriminate.
    split.
    + constructor; [vm_compute; reflexivity|]. apply wf_bytes_app. split; [assumption|].
      apply u16_be_bytes. assumption.
    + cbn. rewrite u16_be_roundtrip by assumption. reflexivity.
  - intros (Hw & Hl & Hp).
    destruct (N.eqb_spec fl 0) as [->|]; cbn [negb orb]; [|discriminate].
    destruct (N.eqb_spec sc 0) as [->|]; cbn [negb]; [|discriminate].
    intros E. injection E as <-.
    do 16 (destruct o as [|? o]; [discriminate|]). destruct o; [|discriminate].
    split.
    + constructor; [vm_compute; reflexivity|]. apply wf_bytes_app. split; [assumption|].
      apply u16_be_bytes. assumption.
    + cbn. rewrite u16_be_roundtrip by assumption. reflexivity.
Qed.

Lemma addr_from_bytes_inv b a : wf_bytes b -> socket_addr_from_bytes b = Ok a ->
  wf_socket_addr a /\ socket_addr_to_bytes a = Ok b.
Proof.
  intros Hw D. destruct b as [|b0 r]; [discriminate|].
  assert (b0 = 0 \/ b0 = 1) as Hb0.
  { unfold socket_addr_from_bytes in D. destruct b0 as [|[?|?|]]; try discriminate D; auto. }
  destruct Hb0 as [-> | ->].
  - cbn [socket_addr_from_bytes] in D.
    destruct (N.eqb_spec (blen (0 :: r)) 7) as [Hl|]; cbn [negb] in D; [|discriminate].
    apply wf_bytes_cons in Hw as [_ Hw].
    assert (length r = 6%nat) as Hlr. { rewrite blen_cons in Hl. unfold blen in Hl. lia. }
    do 6 (destruct r as [|? r]; [discriminate|]). destruct r; [|discriminate].
    cbn in D. injection D as <-.
    repeat (apply wf_bytes_cons in Hw as [? Hw]).
    match goal with |- context [u16_of_be ?x ?y] => destruct (u16_of_be_inv x y) as [Hr Hi]; [assumption..|] end.
    split.
    + cbn. repeat split; try assumption. repeat constructor; assumption.
    + cbn [socket_addr_to_bytes]. rewrite Hi. reflexivity.
  - cbn [socket_addr_from_bytes] in D.
    destruct (N.eqb_spec (blen (1 :: r)) 19) as [Hl|]; cbn [negb] in D; [|discriminate].
    apply wf_bytes_cons in Hw as [_ Hw].
    assert (length r = 18%nat) as Hlr. { rewrite blen_cons in Hl. unfold blen in Hl. lia. }
    do 18 (destruct r as [|? r]; [discriminate|]). destruct r; [|discriminate].
    cbn in D. injection D as <-.
    repeat (apply wf_bytes_cons in Hw as [? Hw]).
    match goal with |- context [u16_of_be ?x ?y] => destruct (u16_of_be_inv x y) as [Hr Hi]; [assumption..|] end.
    split.
    + cbn. repeat split; try assumption. repeat constructor; assumption.
    + cbn [socket_addr_to_bytes]. cbn [N.eqb negb orb]. rewrite Hi. reflexivity.
Qed.

(** * Probe versus decoder, in terms of buffers *)
Lemma probe_agrees max buf : wf_bytes buf ->
  match decode_plain_frame buf with
  | Ok (t, body, total) =>
      probe_frame max buf = if max <? total then PReject else PFrame (tag_byte t) total
  | Err EEmpty => probe_frame max buf = PNeedMore
  | Err (EIncomplete have need) =>
      have = blen buf /\ blen buf < need /\
      (probe_frame max buf = PNeedMore \/ (probe_frame max buf = PReject /\ max < need))
  | Err EVarintOverflow => probe_frame max buf = PReject
  | Err (EUnknownTag b) => exists r, buf = b :: r /\ forall t, tag_byte t <> b
  | Err _ => False
  end.
Proof.
  intros Hwf. destruct buf as [|b0 rest]; [reflexivity|].
  apply wf_bytes_cons in Hwf as [_ Hwf].
  cbn [decode_plain_frame]. destruct (tag_of_byte b0) as [t|e] eqn:Ht.
  2:{ assert (e = EUnknownTag b0) as ->.
      { unfold tag_of_byte in Ht. destruct b0 as [|p]; [congruence|].
        do 4 (try destruct p as [p|p|]); try discriminate Ht; congruence. }
      exists rest. split; [reflexivity|]. intros t E.
      rewrite <- E, tag_roundtrip in Ht. discriminate. }
  apply tag_of_byte_ok in Ht. rewrite probe_frame_spec by assumption.
  destruct (decode_varint_u32 rest) as [[v n]|e] eqn:Hv.
  - destruct (N.ltb_spec (blen (b0 :: rest)) (1 + n + v)) as [Hs|Hs].
    + split; [reflexivity|]. split; [assumption|].
      destruct (N.ltb_spec max (1 + n + v)); [right; split; [reflexivity|assumption]|left].
      destruct (N.leb_spec (1 + n + v) (blen (b0 :: rest))); [lia|reflexivity].
    + destruct (N.ltb_spec max (1 + n + v)); [reflexivity|].
      destruct (N.leb_spec (1 + n + v) (blen (b0 :: rest))); [|lia].
      rewrite Ht. reflexivity.
  - apply decode_varint_err in Hv as [[-> _]|[-> [_ _]]]; [| |assumption].
    + reflexivity.
    + split; [reflexivity|]. split; [lia|]. left. reflexivity.
Qed.

Lemma decode_plain_total_le buf t body total : wf_bytes buf ->
  decode_plain_frame buf = Ok (t, body, total) -> total <= blen buf.
Proof.
  intros Hwf D. apply decode_plain_ok in D as (vi & rest & -> & _ & _ & _ & _ & ->); [|assumption].
  rewrite blen_cons, !blen_app. lia.
Qed.

Lemma varint_extend buf v n more : wf_bytes buf -> wf_bytes more ->
  decode_varint_u32 buf = Ok (v, n) -> decode_varint_u32 (buf ++ more) = Ok (v, n).
Proof.
  intros Hwf Hwm D.
  destruct (decode_varint_cases buf Hwf) as
    [(i & l & r & -> & Ha & Hl & Hlen & Hm & D')|[(i & b & r & _ & _ & _ & _ & D')|(_ & _ & D')]];
    rewrite D' in D; try discriminate.
  injection D as <- <-. rewrite <- app_assoc. cbn [app].
  apply decode_varint_complete; try assumption.
  rewrite wf_bytes_app, wf_bytes_cons in *. rewrite wf_bytes_app. tauto.
Qed.
Lemma varint_extend_overflow buf more : wf_bytes buf -> wf_bytes more ->
  decode_varint_u32 buf = Err EVarintOverflow -> decode_varint_u32 (buf ++ more) = Err EVarintOverflow.
Proof.
  intros Hwf Hwm D.
  destruct (decode_varint_cases buf Hwf) as
    [(i & l & r & -> & Ha & Hl & Hlen & Hm & D')|[(i & b & r & E & Ha & Hi & Hb & D')|(_ & _ & D')]];
    rewrite D' in D; try discriminate.
  subst buf. rewrite <- app_assoc. cbn [app].
  assert (wf_bytes (i ++ b :: r ++ more)) as Hw.
  { rewrite wf_bytes_app, wf_bytes_cons in *. rewrite wf_bytes_app. tauto. }
  destruct (decode_varint_cases _ Hw) as
    [(i2 & l2 & r2 & E2 & Ha2 & Hl2 & Hlen2 & Hm2 & D2)|[(i2 & b2 & r2 & _ & _ & _ & _ & D2)|(Hs & _ & D2)]].
  - exfalso.
    assert (blen i2 = blen i /\ l2 = b) as [El ->].
    { assert (forall (i i2 : bytes) b l2 r r2, i ++ b :: r = i2 ++ l2 :: r2 ->
         Forall (fun b => 128 <= b) i -> Forall (fun b => 128 <= b) i2 -> l2 < 128 ->
         blen i2 <= blen i -> blen i2 = blen i /\ l2 = b) as G.
      { clear. induction i as [|x i IH]; intros [|y i2] b l2 r r2 E H1 H2 L Hle; cbn [app] in E.
        - injection E as -> _. auto.
        - rewrite blen_cons, blen_nil in Hle. lia.
        - injection E as -> _. inversion H1; subst. lia.
        - injection E as -> E. rewrite !blen_cons in *. inversion H1; inversion H2; subst.
          destruct (IH i2 b l2 r r2 E) as [-> ->]; auto. lia. }
      apply (G i i2 b l2 (r ++ more) r2); auto. lia. }
    rewrite leb128_app, El, Hi in Hm2. change (2 ^ (7 * 4)) with 268435456 in Hm2.
    cbn [leb128] in Hm2. unfold u32_max in Hm2.
    assert (b mod 128 = b) by (apply N.mod_small; lia). lia.
  - exact D2.
  - exfalso. rewrite blen_app, blen_cons in Hs. lia.
Qed.

(** A rejected buffer can never grow into an acceptable frame. *)
Lemma probe_reject_final max buf more t body total : wf_bytes buf -> wf_bytes more ->
  probe_frame max buf = PReject ->
  decode_plain_frame (buf ++ more) = Ok (t, body, total) -> max < total.
Proof.
  intros Hw Hm P D. destruct buf as [|b0 rest]; [discriminate|].
  apply wf_bytes_cons in Hw as [_ Hw].
  rewrite probe_frame_spec in P by assumption.
  cbn [app decode_plain_frame] in D.
  destruct (tag_of_byte b0); [|discriminate].
  destruct (decode_varint_u32 rest) as [[v n]|e] eqn:Hv.
  - rewrite (varint_extend _ _ _ more Hw Hm Hv) in D.
    destruct (N.ltb_spec (blen (b0 :: rest ++ more)) (1 + n + v)); [discriminate|].
    injection D as _ _ <-.
    destruct (N.ltb_spec max (1 + n + v)); [assumption|].
    destruct (1 + n + v <=? blen (b0 :: rest)); discriminate.
  - destruct (decode_varint_err _ _ Hw Hv) as [[-> _]|[-> _]]; [|discriminate].
    rewrite (varint_extend_overflow _ more Hw Hm Hv) in D. discriminate.
Qed.

(** Oversize frames are rejected from their header alone. *)
Lemma probe_rejects_oversize max t n more : n <= u32_max -> wf_bytes more ->
  max < 1 + blen (encode_varint_u32 n) + n ->
  probe_frame max (t :: encode_varint_u32 n ++ more) = PReject.
Proof.
  intros Hn Hm Hmax. rewrite probe_frame_spec.
  - rewrite varint_roundtrip by assumption.
    destruct (N.ltb_spec max (1 + blen (encode_varint_u32 n) + n)); [reflexivity|lia].
  - apply wf_bytes_app. split; [apply encode_varint_wf; assumption|assumption].
Qed.

Lemma addr_injective a b x : wf_socket_addr a -> wf_socket_addr b ->
  socket_addr_to_bytes a = Ok x -> socket_addr_to_bytes b = Ok x -> a = b.
Proof.
  intros Ha Hb Ea Eb. apply addr_roundtrip in Ea as [_ Ea]; [|assumption].
  apply addr_roundtrip in Eb as [_ Eb]; [|assumption]. congruence.
Qed.
Lemma addr_from_bytes_unique b1 b2 a : wf_bytes b1 -> wf_bytes b2 ->
  socket_addr_from_bytes b1 = Ok a -> socket_addr_from_bytes b2 = Ok a -> b1 = b2.
Proof.
  intros W1 W2 D1 D2. apply addr_from_bytes_inv in D1 as [_ E1]; [|assumption].
  apply addr_from_bytes_inv in D2 as [_ E2]; [|assumption]. congruence.
Qed.
Lemma addr_from_bytes_accepts b : wf_bytes b ->
  (exists a, socket_addr_from_bytes b = Ok a) <->
  (exists r, b = 0 :: r /\ blen r = 6) \/ (exists r, b = 1 :: r /\ blen r = 18).
Proof.
  intros Hw. split.
  - intros [a D]. apply addr_from_bytes_inv in D as [W E]; [|assumption].
    destruct a as [o p|o p fl sc]; cbn [wf_socket_addr socket_addr_to_bytes] in *.
    + injection E as <-. left. eexists. split; [reflexivity|].
      rewrite blen_app. unfold blen at 1. destruct W as (_ & -> & _). reflexivity.
    + destruct (_ || _); [discriminate|]. injection E as <-. right. eexists.
      split; [reflexivity|]. rewrite blen_app. unfold blen at 1. destruct W as (_ & -> & _). reflexivity.
  - intros [(r & -> & Hl)|(r & -> & Hl)]; cbn [socket_addr_from_bytes]; rewrite blen_cons, Hl;
      eexists; reflexivity.
Qed.

Lemma encode_plain_fits t body : blen body <= u32_max ->
  encode_plain_frame t body = Ok (tag_byte t :: encode_varint_u32 (blen body) ++ body).
Proof.
  intros H. unfold encode_plain_frame. destruct (N.ltb_spec u32_max (blen body)); [lia|reflexivity].
Qed.
Lemma compound_encodable parts :
  2 <= blen parts <= u32_max -> Forall (fun p => blen p <= u32_max) parts ->
  exists f, encode_compound parts = Ok f.
Proof.
  intros H HF. unfold encode_compound.
  destruct (N.ltb_spec (blen parts) 2); [lia|].
  destruct (N.ltb_spec u32_max (blen parts)); [lia|].
  destruct (encode_parts_ok parts HF) as (r & -> & _). eauto.
Qed.

Lemma plain_frame_not_label t body f : encode_plain_frame t body = Ok f -> f <> [] /\ hd 0 f <> 12.
Proof.
  intros E. apply encode_plain_ok in E as [_ ->]. split; [discriminate|]. destruct t; discriminate.
Qed.
Lemma compound_not_label parts f : encode_compound parts = Ok f -> f <> [] /\ hd 0 f <> 12.
Proof.
  unfold encode_compound. destruct (_ <? _); [discriminate|]. destruct (_ <? _); [discriminate|].
  destruct (encode_parts parts); [|discriminate]. intros E. injection E as <-. split; discriminate.
Qed.
