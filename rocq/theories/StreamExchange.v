(** Two streams talking to each other. *)
From Verif Require Import Base BaseFacts CodecModel CodecSpec CodecFacts MsgModel EndpointModel WireModel WireSpec WireFacts WireSizes StreamModel StreamSpec StreamFacts StreamRuns.
Local Open Scope N_scope.

Section Exchange.
Context (W : wcodec).

Lemma decoded_probe max b m : wf_bytes b -> blen b <= max -> decode_message W b = Some (blen b, m) -> exists t, probe_frame max b = PFrame t (blen b).
Proof.
  intros WB L D. pose proof (probe_agrees max b WB) as P. unfold decode_message in D.
  destruct (decode_plain_frame b) as [[[t body] n]|]; [|discriminate]. destruct (decode_body W t body); [|discriminate].
  injection D as -> _. destruct (N.ltb_spec max (blen b)); [lia|]. eauto.
Qed.
Lemma decoded_nonempty b m : decode_message W b = Some (blen b, m) -> b <> [].
Proof. intros D ->. discriminate. Qed.

(** one whole frame *)
Lemma take_frame s b m now : open_phase s = true -> s_in s = [] -> wf_bytes b -> blen b <= s_max s -> s_late now s = false ->
  decode_message W b = Some (blen b, m) ->
  s_step W s (SoData b now) = match s_dispatch W m now s with Ok s' => (s', []) | Err e => (enter_failed e s, [SrErr e]) end.
Proof.
  intros OP IN WB L LT D. unfold s_step. rewrite handle_open by assumption. unfold s_data_inner. rewrite LT.
  destruct b as [|x b']; [discriminate|]. set (b := x :: b') in *. rewrite IN. cbn [app].
  change (blen []) with 0. rewrite N.add_0_l. rewrite (proj2 (N.ltb_ge _ _) L).
  unfold s_decode. cbn [s_max s_in s_set_in]. destruct (decoded_probe _ _ _ WB L D) as [t ->].
  assert (T : btake (blen b) b = b) by (apply btake_all; lia).
  assert (DR : bdrop (blen b) b = []) by (apply bdrop_all; lia).
  rewrite T, DR, D, N.eqb_refl. cbn [negb].
  assert (S0 : s_set_in [] (s_set_in b s) = s). { destruct s. cbn in IN |- *. now subst. }
  rewrite S0. destruct (s_dispatch W m now s) as [s'|e] eqn:DI; [|reflexivity].
  assert (s_in s' = []) as ->. { apply dispatch_ok in DI. inversion DI; subst; exact IN. }
  now rewrite andb_false_r.
Qed.

(** a whole frame in pieces *)
Lemma feed_frame s cs c last m : let b := concat (map fst cs) ++ c in
  open_phase s = true -> s_in s = [] -> wf_bytes b -> blen b <= s_max s ->
  c <> [] -> Forall (fun x => fst x <> []) cs -> s_late last s = false -> Forall (fun x => s_late (snd x) s = false) cs ->
  decode_message W b = Some (blen b, m) ->
  s_final W s (feed (cs ++ [(c, last)])) = match s_dispatch W m last s with Ok s' => s' | Err e => enter_failed e s end /\
  returned (s_trace W s (feed (cs ++ [(c, last)]))) = match s_dispatch W m last s with Ok s' => [] | Err e => [SrErr e] end.
Proof.
  intros b OP IN WB L NE NES LT LTS D. pose proof (take_frame s b m last OP IN WB L LT D) as TK.
  destruct (decoded_probe _ _ _ WB L D) as [t PF].
  assert (EQ : s_in s ++ concat (map fst cs) ++ c = b) by now rewrite IN.
  pose proof (feed_joined W cs s c last b t OP NE NES LT LTS EQ PF) as [J R].
  unfold feed. rewrite map_app. cbn [map fst snd]. change (map (fun c0 : bytes * N => SoData (fst c0) (snd c0)) cs) with (feed cs).
  split.
  - rewrite J. fold b. rewrite TK. destruct (s_dispatch W m last s); reflexivity.
  - rewrite R. fold b. rewrite TK. destruct (s_dispatch W m last s); reflexivity.
Qed.

Context (HW : wf_codec W).
Lemma encoded_frame m b : wf_msg m -> encode_message W m = Some b -> wf_bytes b /\ decode_message W b = Some (blen b, m) /\ b <> [].
Proof.
  intros WM E. split; [exact (encode_message_wf W HW m b WM E)|].
  pose proof (message_roundtrip W HW m b [] WM (Forall_nil _) E) as D. rewrite app_nil_r in D. split; [exact D|]. eapply decoded_nonempty; eauto.
Qed.

Lemma feed_message s m b cs d : open_phase s = true -> s_in s = [] -> s_deadline s = Some d ->
  wf_msg m -> encode_message W m = Some b -> blen b <= s_max s -> carries b cs d ->
  exists now, now < d /\
  s_final W s (feed cs) = match s_dispatch W m now s with Ok s' => s' | Err e => enter_failed e s end /\
  returned (s_trace W s (feed cs)) = match s_dispatch W m now s with Ok s' => [] | Err e => [SrErr e] end.
Proof.
  intros OP IN DL WM E L [C F]. destruct (encoded_frame m b WM E) as (WB & D & NE).
  assert (LT : forall t, t < d -> s_late t s = false). { intros t H. unfold s_late. rewrite DL. apply N.leb_gt. exact H. }
  destruct cs as [|x cs _] using rev_ind; [cbn in C; congruence|]. destruct x as [c last].
  rewrite map_app, concat_app in C. cbn [map concat fst] in C. rewrite app_nil_r in C.
  apply Forall_app in F as [F1 F2]. inversion F2 as [|? ? [F3 F4] _]; subst. cbn [fst snd] in *.
  exists last. split; [exact F4|]. apply (feed_frame s cs c last m); auto.
  - eapply Forall_impl; [|exact F1]. cbn. tauto.
  - eapply Forall_impl; [|exact F1]. cbn. intros a [_ H]. auto.
Qed.

Lemma returned_app a b : returned (a ++ b) = returned a ++ returned b.
Proof. unfold returned. now rewrite map_app, concat_app. Qed.

Lemma push_pull_exchange ida idb pa pb la lb maxA maxB dA dB d' t0 t1 join j ss u j2 ss2 u2 b1 b2 cs1 cs2 :
  let A := stream_outbound ida pb la maxA (OKPushPull join) b1 dA in
  let B := stream_inbound idb pa lb maxB dB in
  let ra := [SoTransmit t0] ++ feed cs2 ++ [SoPollEndpoint] in
  let rb := feed cs1 ++ [SoPollEndpoint; SoLoad b2 d'; SoTransmit t1] in
  wf_msg (MPushPull j ss u) -> encode_message W (MPushPull j ss u) = Some b1 -> blen b1 <= maxB ->
  wf_msg (MPushPull j2 ss2 u2) -> encode_message W (MPushPull j2 ss2 u2) = Some b2 -> blen b2 <= maxA ->
  t0 < dA -> t1 < d' -> carries b1 cs1 dB -> carries b2 cs2 dA ->
  returned (s_trace W A ra) = [SrSent b1; SrEndpoint (SEReply pb ss2 u2 join ida)] /\ s_done (s_final W A ra) = true /\
  returned (s_trace W B rb) = [SrEndpoint (SERequest pa ss u j idb); SrSent b2] /\ s_done (s_final W B rb) = true.
Proof.
  intros A B ra rb W1 E1 L1 W2 E2 L2 T0 T1 C1 C2.
  destruct (encoded_frame _ _ W1 E1) as (_ & _ & N1). destruct (encoded_frame _ _ W2 E2) as (_ & _ & N2).
  assert (ST : s_step W A (SoTransmit t0) = (mkStream ida pb la maxA (SpAwaiting (OKPushPull join)) [] [] (Some dA) [] [], [SrSent b1])).
  { unfold A, s_step, s_transmit, stream_outbound. destruct b1 as [|x b1]; [congruence|]. cbn [s_terminal s_phase s_late s_deadline s_out].
    rewrite (proj2 (N.leb_gt _ _) T0). reflexivity. }
  set (A1 := mkStream ida pb la maxA (SpAwaiting (OKPushPull join)) [] [] (Some dA) [] []) in *.
  destruct (feed_message A1 _ b2 cs2 dA eq_refl eq_refl eq_refl W2 E2 L2 C2) as (na & _ & FA & RA).
  destruct (feed_message B _ b1 cs1 dB eq_refl eq_refl eq_refl W1 E1 L1 C1) as (nb & _ & FB & RB).
  assert (EA : s_trace W A ra = (SoTransmit t0, [SrSent b1]) :: s_trace W A1 (feed cs2 ++ [SoPollEndpoint])).
  { unfold ra. cbn [app s_trace]. rewrite ST. reflexivity. }
  assert (FA' : s_final W A ra = s_final W A1 (feed cs2 ++ [SoPollEndpoint])).
  { unfold ra. cbn [app s_final]. rewrite ST. reflexivity. }
  rewrite EA, FA', returned_cons, s_trace_app, s_final_app, returned_app, FA, RA.
  unfold rb. rewrite s_trace_app, s_final_app, returned_app, FB, RB.
  split; [reflexivity|]. split; [reflexivity|].
  unfold B, stream_inbound. cbn [s_dispatch s_phase s_ep s_peer s_id app].
  cbn. unfold s_transmit, s_late. cbn. rewrite (proj2 (N.leb_gt _ _) T1). split; reflexivity.
Qed.

Lemma ack_encodes seq : seq <= u32_max -> encode_message W (MAck seq []) = Some (wire_enc W (MAck seq [])).
Proof.
  intros H. assert (WM : wf_msg (MAck seq [])) by (cbn; split; [exact H|constructor]).
  destruct (encode_total W HW (MAck seq []) WM Logic.I) as (fs & EF & [X _]).
  destruct X as [b E]; [|unfold wire_enc; now rewrite E].
  cbn [msg_fields ilen app] in EF. apply some_inj in EF. rewrite app_nil_r in EF. subst fs.
  unfold ivar. destruct (seq =? 0); [vm_compute; discriminate|]. rewrite ser_fvar by (auto; lia).
  pose proof (varint_len_range seq). unfold u32_max. lia.
Qed.

Lemma ping_exchange ida idb pa pb la lb maxA maxB dA dB t0 t1 seq src tgt b1 cs1 cs2 :
  let A := stream_outbound ida pb la maxA (OKReliablePing seq) b1 dA in
  let B := stream_inbound idb pa lb maxB dB in
  let ra := [SoTransmit t0] ++ feed cs2 ++ [SoPollEndpoint] in
  let rb := feed cs1 ++ [SoTransmit t1] in
  let b2 := wire_enc W (MAck seq []) in
  wf_msg (MPing seq src tgt) -> encode_message W (MPing seq src tgt) = Some b1 -> blen b1 <= maxB -> blen b2 <= maxA ->
  nd_id tgt = lb -> t0 < dA -> t1 < dB -> carries b1 cs1 dB -> carries b2 cs2 dA ->
  (exists t, t < dA /\ returned (s_trace W A ra) = [SrSent b1; SrEndpoint (SEAcked seq t)]) /\ s_done (s_final W A ra) = true /\
  returned (s_trace W B rb) = [SrSent b2] /\ s_done (s_final W B rb) = true.
Proof.
  intros A B ra rb b2 W1 E1 L1 L2 TG T0 T1 C1 C2.
  destruct (encoded_frame _ _ W1 E1) as (_ & _ & N1).
  assert (SQ : seq <= u32_max) by (cbn in W1; tauto).
  assert (E2 : encode_message W (MAck seq []) = Some b2) by (apply ack_encodes; exact SQ).
  assert (W2 : wf_msg (MAck seq [])) by (cbn; split; [exact SQ|constructor]).
  assert (ST : s_step W A (SoTransmit t0) = (mkStream ida pb la maxA (SpAwaiting (OKReliablePing seq)) [] [] (Some dA) [] [], [SrSent b1])).
  { unfold A, s_step, s_transmit, stream_outbound. destruct b1 as [|x b1]; [congruence|]. cbn [s_terminal s_phase s_late s_deadline s_out].
    rewrite (proj2 (N.leb_gt _ _) T0). reflexivity. }
  set (A1 := mkStream ida pb la maxA (SpAwaiting (OKReliablePing seq)) [] [] (Some dA) [] []) in *.
  destruct (feed_message A1 _ b2 cs2 dA eq_refl eq_refl eq_refl W2 E2 L2 C2) as (na & NA & FA & RA).
  destruct (feed_message B _ b1 cs1 dB eq_refl eq_refl eq_refl W1 E1 L1 C1) as (nb & _ & FB & RB).
  assert (EA : s_trace W A ra = (SoTransmit t0, [SrSent b1]) :: s_trace W A1 (feed cs2 ++ [SoPollEndpoint])).
  { unfold ra. cbn [app s_trace]. rewrite ST. reflexivity. }
  assert (FA' : s_final W A ra = s_final W A1 (feed cs2 ++ [SoPollEndpoint])).
  { unfold ra. cbn [app s_final]. rewrite ST. reflexivity. }
  rewrite EA, FA', returned_cons, s_trace_app, s_final_app, returned_app, FA, RA.
  unfold rb. rewrite s_trace_app, s_final_app, returned_app, FB, RB.
  unfold A1. cbn [s_dispatch s_phase]. rewrite N.eqb_refl.
  split; [exists na; split; [exact NA|reflexivity]|]. split; [reflexivity|].
  unfold B, stream_inbound. cbn [s_dispatch s_phase s_local]. rewrite TG, N.eqb_refl. cbn [s_out app]. fold b2. clearbody b2.
  cbn. unfold s_transmit, s_late. cbn. rewrite (proj2 (N.leb_gt _ _) T1). split; reflexivity.
Qed.

Lemma user_exchange ida idb pa pb la lb maxA maxB dA dB t0 data b1 cs1 :
  let A := stream_outbound ida pb la maxA OKUserMessage b1 dA in
  let B := stream_inbound idb pa lb maxB dB in
  let ra := [SoTransmit t0] in
  let rb := feed cs1 ++ [SoPollEndpoint] in
  wf_bytes data -> encode_message W (MUserData data) = Some b1 -> blen b1 <= maxB ->
  t0 < dA -> carries b1 cs1 dB ->
  returned (s_trace W A ra) = [SrSent b1] /\ s_done (s_final W A ra) = true /\
  returned (s_trace W B rb) = [SrEndpoint (SEUser pa data)] /\ s_done (s_final W B rb) = true.
Proof.
  intros A B ra rb W1 E1 L1 T0 C1.
  destruct (encoded_frame (MUserData data) _ W1 E1) as (_ & _ & N1).
  assert (ST : s_step W A (SoTransmit t0) = (mkStream ida pb la maxA SpDone [] [] (Some dA) [] [SlClosed], [SrSent b1])).
  { unfold A, s_step, s_transmit, stream_outbound. destruct b1 as [|x b1]; [congruence|]. cbn [s_terminal s_phase s_late s_deadline s_out].
    rewrite (proj2 (N.leb_gt _ _) T0). reflexivity. }
  destruct (feed_message B (MUserData data) b1 cs1 dB eq_refl eq_refl eq_refl W1 E1 L1 C1) as (nb & _ & FB & RB).
  unfold ra. cbn [s_trace s_final]. rewrite ST.
  unfold rb. rewrite s_trace_app, s_final_app, returned_app, FB, RB. repeat split; reflexivity.
Qed.
End Exchange.

(** * Failure notices and deadlines along a run *)
Section Notices.
Context (W : wcodec).
Definition evinv (s : stream) : Prop := forall e, s_failed s = Some e -> s_ev s = [] \/ s_ev s = [SlFailed e].
Lemma stepped_evinv s o s' rs : evinv s -> stepped W s o s' rs -> evinv s'.
Proof.
  intros I H e F. inversion H; subst; try (exact (I e F));
    try (right; cbn in F |- *; congruence); try (cbn in F; discriminate).
  - match goal with T : taken _ _ _ _ _ |- _ => apply taken_ev in T as [_ X] end.
    match goal with T : s_terminal s = false |- _ => apply terminal_false in T; rewrite (X T) in F end. discriminate.
  - cbn. match goal with E : s_ev s = _ |- _ => destruct (I e F) as [Y|Y]; rewrite Y in E; [discriminate|injection E as <- <-; auto] end.
  - left. reflexivity.
Qed.
Lemma evinv_run s0 os : s_failed s0 = None -> evinv (s_final W s0 os).
Proof.
  intros H. apply (s_run_ind W (fun s _ => evinv s)).
  - intros e F. congruence.
  - intros s tr o I. eapply stepped_evinv; [exact I|apply step_stepped].
Qed.

Lemma notified_after_poll s0 os e : s_failed s0 = None -> s_ev s0 = [] -> no_discard os = true -> s_failed (s_final W s0 os) = Some e ->
  filter is_failure (notices (s_trace W s0 (os ++ [SoPollEvent]))) = [SlFailed e].
Proof.
  intros F E ND SF. pose proof (fcount_run W s0 os F E ND) as C. unfold fcount, failures in C. rewrite SF in C.
  rewrite s_trace_app, notices_app. cbn [s_trace s_step].
  destruct (evinv_run s0 os F e SF) as [Y|Y]; rewrite Y in *; cbn [snd fst]; rewrite filter_app; rewrite filter_app in C.
  - exact C.
  - exact C.
Qed.

(** deadlines *)
Lemma last_load_app d os os' : last_load d (os ++ os') = last_load (last_load d os) os'.
Proof. revert d. induction os as [|o os IH]; intros d; [reflexivity|]. destruct o; cbn [app last_load]; apply IH. Qed.
Lemma deadline_run s0 d os : s_deadline s0 = Some d -> s_deadline (s_final W s0 os) = Some (last_load d os).
Proof.
  intros H. induction os as [|o os IH] using rev_ind; [exact H|].
  rewrite s_final_snoc, last_load_app. generalize dependent (s_final W s0 os). intros s IH.
  pose proof (step_stepped W s o) as ST. revert ST. generalize (fst (s_step W s o)), (snd (s_step W s o)). intros s' rs ST.
  inversion ST; subst; try exact IH; try (cbn; exact IH); try reflexivity.
  cbn [last_load]. match goal with T : taken _ _ _ _ _ |- _ => inversion T; subst; try exact IH end.
  match goal with D : dispatched _ _ _ _ _ |- _ => inversion D; subst; exact IH end.
Qed.
End Notices.
