(** Properties C98, C100: a user message sent over a connection reaches the application
    of the other side, whatever the pieces its bytes come in and whatever else
    happens meanwhile. *)
From Verif Require Import CodecModel.
From Verif Require Import Base BaseFacts MapFacts CodecSpec CodecFacts LabelSpec LabelFacts MsgModel WireSpec WireFacts StreamModel StreamFacts StreamRuns StreamExchange TransformModel TransformSpec TransformFacts
  CoreFacts EndpointInv EndpointHist EndpointDetect EndpointOutcome PropsEndpoint PropsWire TransformToy PropsTransform CoordModel BridgeFacts CoordFacts CoordRuns CoordSteps CoordFrame CoordMeta CoordClaims CoordReports PropsCoord CoordDeliver.
Local Open Scope N_scope.

(** ** What was sent *)
Lemma unit_wf B o ks nonce x u : wf_backends B -> match nonce with Some n => wf_bytes n | None => True end -> plain_bytes x -> wf_bytes x -> encode_reliable_unit B o ks nonce x = Ok u -> wf_bytes u.
Proof.
  intros HB Hn P Hw E. unfold encode_reliable_unit in E. destruct (encrypt_payload B ks nonce (compress_payload B o x)) as [p|] eqn:Ep; [|discriminate].
  injection E as <-. apply wf_bytes_app. split; [apply encode_varint_wf; pose proof (N.mod_lt (blen p) two32); unfold two32, u32_max in *; lia|].
  apply (unit_payload_wf B ks nonce (compress_payload B o x) p HB); auto. apply compress_payload_wf; assumption.
Qed.
Lemma encoded_plain W m frame : encode_message W m = Some frame -> plain_bytes frame.
Proof.
  unfold encode_message. destruct (msg_fields W m) as [fs|]; [|discriminate]. destruct (_ =? _); [|discriminate]. intros [= <-]. split; [discriminate|]. destruct m; cbn; repeat split; discriminate.
Qed.
Lemma proper_prefix B kr max u pt a c : wf_bytes u -> take_reliable_unit B kr max u = Ok (Some (pt, blen u)) -> a ++ c = u -> c <> [] -> take_reliable_unit B kr max a = Ok None.
Proof.
  intros WU TK E NE. rewrite <- E in WU. apply wf_bytes_app in WU as (WA & WC). pose proof (take_extend B kr max a c WA WC) as H. rewrite E, TK in H. destruct (take_reliable_unit B kr max a) as [[[p n]|]|]; [|reflexivity|destruct H; discriminate].
  destruct H as (H & L). injection H as _ H. rewrite <- E in H. unfold blen in *. rewrite app_length in *. destruct c; [congruence|cbn [length] in *; lia].
Qed.
Lemma user_frame W max from lid data frame : wf_codec W -> wf_bytes data -> encode_message W (MUserData data) = Some frame -> blen frame <= max ->
  forall id d now, now < d -> s_handle_data W frame now (stream_inbound id from lid max d) = (got_stream max from lid (fun _ => SEUser from data) true id d, None).
Proof.
  intros HW WD E L id d now LT. destruct (encoded_frame W HW (MUserData data) frame WD E) as (WF & D & NE).
  pose proof (take_frame W (stream_inbound id from lid max d) frame (MUserData data) now eq_refl eq_refl WF L) as H. cbn [s_late s_deadline stream_inbound] in H. specialize (H (proj2 (N.leb_gt _ _) LT) D).
  unfold s_step in H. destruct (s_handle_data W frame now _) as [s [er|]]; cbn [s_dispatch stream_inbound s_phase] in H; [discriminate|]. injection H as ->. reflexivity.
Qed.

Lemma pull_frame W max from lid join ss us frame : wf_codec W -> wf_msg (MPushPull join ss us) -> encode_message W (MPushPull join ss us) = Some frame -> blen frame <= max ->
  forall id d now, now < d -> s_handle_data W frame now (stream_inbound id from lid max d) = (got_stream max from lid (fun id => SERequest from ss us join id) false id d, None).
Proof.
  intros HW WD E L id d now LT. destruct (encoded_frame W HW _ frame WD E) as (WF & D & NE).
  pose proof (take_frame W (stream_inbound id from lid max d) frame (MPushPull join ss us) now eq_refl eq_refl WF L) as H. cbn [s_late s_deadline stream_inbound] in H. specialize (H (proj2 (N.leb_gt _ _) LT) D).
  unfold s_step in H. destruct (s_handle_data W frame now _) as [s [er|]]; cbn [s_dispatch stream_inbound s_phase] in H; [discriminate|]. injection H as ->. reflexivity.
Qed.

Section Deliver.
Context (C : cfg) (Q : qcfg) (W : wcodec) (B : backends) (rnd : N -> N -> option bytes) (t0 : N) (e : ep) (kr : option keyring).
Notation run := (q_run C Q W B rnd).
Notation start := (coord_new e kr).

(** the bytes a call brings to exchange [x] *)
Definition brought (x : N) (o : qop) : bytes := match o with QData y d _ _ => if y =? x then d else [] | _ => [] end.
(** calls made before [T], at a time from which the stream timeout reaches [T];
    the node neither leaves nor changes its keys, and exchange [x] is neither
    reported broken nor ended *)
Definition calm (T x : N) (o : qop) : Prop :=
  let in_time now := now < T /\ T <= tadd now (c_stream_timeout C) in
  match o with
  | QData y _ eof now => in_time now /\ (y = x -> eof = false)
  | QDialFailed y now | QLost y now => in_time now /\ y <> x
  | QPushPull _ _ now | QReliable _ _ _ _ now | QUserMsg _ _ now | QTimeout now => in_time now
  | QLeave _ _ | QEncrypt _ => False
  | _ => True
  end.

(** ** C98: a message whose bytes all come in time is heard *)
Theorem C98_user_message_arrives : ep_new C t0 = Some e -> wf_codec W -> wf_backends B -> lossless B -> aead_correct B ->
  (forall l, effective_label (qc_label Q) = Some l -> valid_label l) -> c_frame_max C + 30 <= u32_max ->
  forall os0 from ta x, let q := fst (run start os0) in snd (q_step C Q W B rnd q (QAccept from ta)) = [YId x] ->
  forall opts ks nonce data frame u,
  wf_bytes data -> encode_message W (MUserData data) = Some frame -> blen frame <= c_frame_max C ->
  encode_reliable_unit B opts ks nonce frame = Ok u -> match nonce with Some n => wf_bytes n | None => True end ->
  ring_compatible B ks (q_kr q) nonce (compress_payload B opts frame) ->
  forall T os last now, T <= tadd ta (qc_accept Q) -> Forall (calm T x) os -> now < T -> T <= tadd now (c_stream_timeout C) ->
  flat_map (brought x) os ++ last = match effective_label (qc_label Q) with Some l => header l | None => [] end ++ u ->
  let q' := fst (run start (os0 ++ [QAccept from ta] ++ os ++ [QData x last true now])) in
  (exists n, In (YEvent (EvUserPacket from data Reliable)) (snd (run q' (repeat QPollEvent n)))) /\
  (exists t, filter (fun p => match p with (Some y, EStreamEv SEClosed _) => false | (Some y, EStreamEv _ _) => y =? x | _ => false end) (q_log q') = [(Some x, EStreamEv (SEUser from data) t)]) /\
  aget x (q_conns q') = None.
Proof.
  intros N HW HB LL AE HL HM os0 from ta x q AC opts ks nonce data frame u WD EM LF EU WN RC T os last now LT F LN TN EW q'.
  destruct (encoded_frame W HW (MUserData data) frame WD EM) as (WF & _ & _). pose proof (encoded_plain _ _ _ EM) as PL.
  pose proof (unit_wf _ _ _ _ _ _ HB WN PL WF EU) as WU.
  assert (TK : take_reliable_unit B (q_kr q) (c_frame_max C) u = Ok (Some (frame, blen u))).
  { rewrite <- (app_nil_r u) at 1. apply (take_unit_roundtrip B opts ks (q_kr q) nonce); auto. constructor. }
  assert (T0 : take_reliable_unit B (q_kr q) (c_frame_max C) [] = Ok None) by reflexivity.
  assert (NU : u <> []) by (intros ->; rewrite T0 in TK; discriminate).
  pose proof (good_run C Q W B rnd os0 _ (good_new C rnd e kr (einv_new C _ _ N))) as G. fold q in G.
  destruct (q_step C Q W B rnd q (QAccept from ta)) as [q1 y1] eqn:ST. cbn [snd] in AC. rewrite AC in ST.
  pose proof (arrives W B rnd (qc_label Q) (qc_skip Q) (q_kr q) (c_frame_max C) T u frame from (c_id C) (fun _ => SEUser from data) true HL NU TK (fun a c => proper_prefix B (q_kr q) (c_frame_max C) u frame a c WU TK)
    (user_frame W (c_frame_max C) from (c_id C) data frame HW WD EM LF)) as A.
  specialize (A T0 C Q x data eq_refl eq_refl eq_refl eq_refl (fun _ => eq_refl) ta q q1 os last now G eq_refl LT ST F EW (conj LN TN)). cbv zeta in A.
  assert (EQ : q' = fst (q_step C Q W B rnd (fst (run q1 os)) (QData x last true now))).
  { unfold q'. rewrite run_app. cbn [fst]. fold q. cbn [app q_run]. rewrite ST. destruct (run q1 (os ++ [QData x last true now])) as [qa ya] eqn:R. cbn [fst]. apply (f_equal fst) in R. cbn [fst] in R. rewrite <- R, run_app. cbn [fst]. now rewrite run_one. }
  rewrite <- EQ in A. clearbody q'. destruct A as (_ & A1 & (i & t & A2) & A3). specialize (A3 eq_refl).
  split; [exists (length (k_ev (e_core (q_ep q')))); apply polls_give; [reflexivity|lia|exact A3]|]. split; [|exact A1].
  exists t. apply logs_filter in A2. cbn [map] in A2. rewrite <- A2. apply filter_ext. intros [[y|] o]; [|reflexivity]. cbn [fst snd]. destruct o; cbn; rewrite ?andb_false_r; try reflexivity. destruct ev; cbn; rewrite ?andb_false_r, ?andb_true_r; reflexivity.
Qed.
(** ** C100: a push/pull request whose bytes all come in time is taken in: the
    endpoint is told of it exactly once, and of nothing else from this
    connection, and its state is that of having been told *)
Theorem C100_push_pull_arrives : ep_new C t0 = Some e -> wf_codec W -> wf_backends B -> lossless B -> aead_correct B ->
  (forall l, effective_label (qc_label Q) = Some l -> valid_label l) -> c_frame_max C + 30 <= u32_max ->
  forall os0 from ta x, let q := fst (run start os0) in snd (q_step C Q W B rnd q (QAccept from ta)) = [YId x] ->
  forall opts ks nonce join ss us frame u,
  wf_msg (MPushPull join ss us) -> encode_message W (MPushPull join ss us) = Some frame -> blen frame <= c_frame_max C ->
  encode_reliable_unit B opts ks nonce frame = Ok u -> match nonce with Some n => wf_bytes n | None => True end ->
  ring_compatible B ks (q_kr q) nonce (compress_payload B opts frame) ->
  forall T os last now, T <= tadd ta (qc_accept Q) -> Forall (calm T x) os -> now < T -> T <= tadd now (c_stream_timeout C) ->
  flat_map (brought x) os ++ last = match effective_label (qc_label Q) with Some l => header l | None => [] end ++ u ->
  let q' := fst (run start (os0 ++ [QAccept from ta] ++ os ++ [QData x last true now])) in
  (exists id t, filter (fun p => match p with (Some y, EStreamEv SEClosed _) => false | (Some y, EStreamEv _ _) => y =? x | _ => false end) (q_log q') = [(Some x, EStreamEv (SERequest from ss us join id) t)] /\
    exists l1 l2, q_log q' = l1 ++ (Some x, EStreamEv (SERequest from ss us join id) t) :: l2 /\
      q_ep q' = fst (ep_run C e (map snd l1 ++ EStreamEv (SERequest from ss us join id) t :: map snd l2))) /\
  aget x (q_conns q') = None.
Proof.
  intros N HW HB LL AE HL HM os0 from ta x q AC opts ks nonce join ss us frame u WD EM LF EU WN RC T os last now LT F LN TN EW q'.
  destruct (encoded_frame W HW (MPushPull join ss us) frame WD EM) as (WF & _ & _). pose proof (encoded_plain _ _ _ EM) as PL.
  pose proof (unit_wf _ _ _ _ _ _ HB WN PL WF EU) as WU.
  assert (TK : take_reliable_unit B (q_kr q) (c_frame_max C) u = Ok (Some (frame, blen u))).
  { rewrite <- (app_nil_r u) at 1. apply (take_unit_roundtrip B opts ks (q_kr q) nonce); auto. constructor. }
  assert (T0 : take_reliable_unit B (q_kr q) (c_frame_max C) [] = Ok None) by reflexivity.
  assert (NU : u <> []) by (intros ->; rewrite T0 in TK; discriminate).
  pose proof (good_run C Q W B rnd os0 _ (good_new C rnd e kr (einv_new C _ _ N))) as G. fold q in G.
  destruct (q_step C Q W B rnd q (QAccept from ta)) as [q1 y1] eqn:ST. cbn [snd] in AC. rewrite AC in ST.
  pose proof (arrives W B rnd (qc_label Q) (qc_skip Q) (q_kr q) (c_frame_max C) T u frame from (c_id C) (fun id => SERequest from ss us join id) false HL NU TK (fun a c => proper_prefix B (q_kr q) (c_frame_max C) u frame a c WU TK)
    (pull_frame W (c_frame_max C) from (c_id C) join ss us frame HW WD EM LF)) as A.
  specialize (A T0 C Q x [] eq_refl eq_refl eq_refl eq_refl (ex_intro _ ss (ex_intro _ us (ex_intro _ join (fun _ => eq_refl)))) ta q q1 os last now G eq_refl LT ST F EW (conj LN TN)). cbv zeta in A.
  assert (EQ : q' = fst (q_step C Q W B rnd (fst (run q1 os)) (QData x last true now))).
  { unfold q'. rewrite run_app. cbn [fst]. fold q. cbn [app q_run]. rewrite ST. destruct (run q1 (os ++ [QData x last true now])) as [qa ya] eqn:R. cbn [fst]. apply (f_equal fst) in R. cbn [fst] in R. rewrite <- R, run_app. cbn [fst]. now rewrite run_one. }
  pose proof (proj1 (C93_endpoint_inside C Q W B rnd t0 e kr N (os0 ++ [QAccept from ta] ++ os ++ [QData x last true now]))) as EI. cbv zeta in EI. fold q' in EI.
  rewrite <- EQ in A. clearbody q'. destruct A as (_ & A1 & (i & t & A2) & _). split; [|exact A1]. exists i, t. apply logs_filter in A2. cbn [map] in A2. split.
  - rewrite <- A2. apply filter_ext. intros [[y|] o]; [|reflexivity]. cbn [fst snd]. destruct o; cbn; rewrite ?andb_false_r; try reflexivity. destruct ev; cbn; rewrite ?andb_false_r, ?andb_true_r; reflexivity.
  - assert (J : In (Some x, EStreamEv (SERequest from ss us join i) t) (q_log q')).
    { eapply proj1, filter_In. rewrite A2. now left. }
    apply in_split in J as (l1 & l2 & J). exists l1, l2. split; [exact J|]. rewrite EI, J, map_app. reflexivity.
Qed.
End Deliver.
Print Assumptions C98_user_message_arrives.
Print Assumptions C100_push_pull_arrives.
(* the concrete case for C100 is [C100_push_pull_is_taken_in_ex] in PropsSend.v:
   it meets the hypotheses of both theorems *)
(** node 1 sends [1; 2; 3] to node 2 under the label and encrypted; node 2 gets
    the bytes one part at a time, among timeouts, a push/pull of its own and the
    failure of another connection *)
Definition de_frame : bytes := [9; 5; 10; 3; 1; 2; 3].
Definition de_unit : bytes := match encode_reliable_unit toy (mkComp None 0) (Some tr_s) (Some tnonce) de_frame with Ok u => u | Err _ => [] end.
Definition de_sent : bytes := said (qe 1 (Some tr_s) [QUserMsg 102 [1; 2; 3] 10; QPollAction; QPollBytes]).
Definition de_os : list qop :=
  [QData 1 (btake 2 de_sent) false 12; QTimeout 13; QPushPull 103 true 14; QPollAction; QData 1 (btake 9 (bdrop 2 de_sent)) false 15;
   QDialFailed 2 16; QPollEvent; QData 1 [] false 17; QAccept 104 17; QReorder (fun _ => 1)].
Definition de_last : bytes := bdrop 11 de_sent.
Example C98_user_message_arrives_ex :
  let os0 := [QAccept 103 5] in let q := fst (qe 2 (Some tr_r) os0) in
  ep_new (qe_cfg 2) 0 = Some (qe_new 2) /\ wf_codec ew /\ wf_backends toy /\ lossless toy /\ aead_correct toy /\
  (forall l, effective_label (qc_label qe_q) = Some l -> valid_label l) /\ c_frame_max (qe_cfg 2) + 30 <= u32_max /\
  snd (q_step (qe_cfg 2) qe_q ew toy qe_rnd q (QAccept 101 11)) = [YId 1] /\
  wf_bytes [1; 2; 3] /\ encode_message ew (MUserData [1; 2; 3]) = Some de_frame /\ blen de_frame <= c_frame_max (qe_cfg 2) /\
  encode_reliable_unit toy (mkComp None 0) (Some tr_s) (Some tnonce) de_frame = Ok de_unit /\ wf_bytes tnonce /\
  ring_compatible toy (Some tr_s) (q_kr q) (Some tnonce) (compress_payload toy (mkComp None 0) de_frame) /\
  10011 <= tadd 11 (qc_accept qe_q) /\ Forall (calm (qe_cfg 2) 10011 1) de_os /\ 18 < 10011 /\ 10011 <= tadd 18 (c_stream_timeout (qe_cfg 2)) /\
  de_sent = match effective_label (qc_label qe_q) with Some l => header l | None => [] end ++ de_unit /\ blen de_unit = 38 /\
  flat_map (brought 1) de_os ++ de_last = de_sent /\
  filter (fun y => match y with YEvent (EvUserPacket _ _ _) => true | _ => false end) (snd (qe 2 (Some tr_r) (os0 ++ [QAccept 101 11] ++ de_os ++ [QData 1 de_last true 18] ++ repeat QPollEvent 4))) = [YEvent (EvUserPacket 101 [1; 2; 3] Reliable)].
Proof.
  cbv zeta. split; [apply qe_new_ok|]. split; [exact ew_ok|]. split; [exact toy_wf|]. split; [exact toy_lossless|]. split; [exact toy_aead|].
  split. { intros l H. vm_compute in H. injection H as <-. repeat split; try discriminate. repeat constructor. }
  split; [vm_compute; discriminate|]. split; [vm_compute; reflexivity|]. split; [repeat constructor|]. split; [vm_compute; reflexivity|]. split; [vm_compute; discriminate|]. split; [vm_compute; reflexivity|]. split; [repeat constructor|].
  split. { assert (K : q_kr (fst (qe 2 (Some tr_r) [QAccept 103 5])) = Some tr_r) by (vm_compute; reflexivity). rewrite K. apply toy_rings; [vm_compute; tauto|reflexivity]. }
  split; [vm_compute; discriminate|]. split. { unfold de_os. repeat constructor; cbn; try discriminate; try (vm_compute; discriminate). }
  split; [vm_compute; reflexivity|]. split; [vm_compute; discriminate|]. split; [vm_compute; reflexivity|]. split; [vm_compute; reflexivity|]. split; [vm_compute; reflexivity|]. vm_compute. reflexivity.
Qed.
