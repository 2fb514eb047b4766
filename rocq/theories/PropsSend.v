(** Properties C99, C100: what a node is asked to send over a connection of its own is
    sent: the connection is asked for, all the bytes of the message follow and
    the sending side is closed; together with C98, a user message is heard, and
    together with [C100_push_pull_arrives], a push/pull request is taken in. *)
From Verif Require Import CodecModel.
From Verif Require Import Base BaseFacts MapFacts CodecSpec CodecFacts LabelSpec LabelFacts MsgModel WireSpec WireFacts StreamModel TransformModel TransformSpec TransformFacts
  CoreFacts EndpointInv EndpointHist EndpointDials PropsEndpoint PropsWire TransformToy PropsTransform CoordModel CoordFacts CoordRuns CoordSteps CoordFrame CoordClaims CoordReports PropsCoord CoordFresh CoordSend PropsDeliver.
Local Open Scope N_scope.

Lemma varint_some n : encode_varint_u32 (n mod two32) <> [].
Proof. intros E. pose proof (encode_varint_len_bounds (n mod two32)) as L. rewrite E in L. pose proof (N.mod_lt n two32). unfold two32, u32_max, blen in *. cbn in L. lia. Qed.
Lemma unit_some B o ks nonce f u : encode_reliable_unit B o ks nonce f = Ok u -> u <> [].
Proof.
  unfold encode_reliable_unit. destruct (encrypt_payload _ _ _ _) as [p|]; [|discriminate]. intros E. apply (f_equal (fun r => match r with Ok v => v | Err _ => [] end)) in E. cbv beta iota in E. subst u. intros E. apply app_eq_nil in E as (E & _). exact (varint_some _ E).
Qed.
Lemma frame_some W m frame : encode_message W m = Some frame -> wire_enc W m = frame /\ frame <> [].
Proof.
  intros E. unfold wire_enc. rewrite E. split; [reflexivity|]. unfold encode_message in E. destruct (msg_fields W m) as [fs|]; [|discriminate]. destruct (_ =? _) in E; [|discriminate]. injection E as <-. discriminate.
Qed.

(** what a driver is given about the exchange [x] *)
Definition about (x : N) (y : qout) : bool :=
  match y with YAction (AConnect z _ _) => z =? x | YAction (ATeardown t) => td_ex t =? x | YBytes z _ _ => z =? x | _ => false end.
Section Polls.
Context (C : cfg) (Q : qcfg) (W : wcodec) (B : backends) (rnd : N -> N -> option bytes).
Notation run := (q_run C Q W B rnd).
Lemma polls_con : forall l q, q_con q = l -> run q (repeat QPollAction (length l)) = (q_set_con [] q, map (fun t => YAction (AConnect (fst (fst t)) (snd (fst t)) (snd t))) l).
Proof.
  induction l as [|[[x p] s] l IH]; intros q E; [cbn; rewrite <- E; destruct q; reflexivity|]. cbn [length repeat q_run q_step]. unfold poll_action. rewrite E. rewrite (IH (q_set_con l q) eq_refl). reflexivity.
Qed.
Lemma polls_out : forall l q, q_out q = l -> run q (repeat QPollBytes (length l)) = (q_set_out [] q, map (fun t => YBytes (fst (fst t)) (snd (fst t)) (snd t)) l).
Proof.
  induction l as [|[[x p] s] l IH]; intros q E; [cbn; rewrite <- E; destruct q; reflexivity|]. cbn [length repeat q_run q_step]. unfold poll_bytes. rewrite E. rewrite (IH (q_set_out l q) eq_refl). reflexivity.
Qed.
Lemma polls_td : forall l q, q_td q = l -> q_con q = [] -> q_out q = [] -> run q (repeat QPollAction (length l)) = (q_set_td [] q, map (fun t => YAction (ATeardown t)) l).
Proof.
  induction l as [|t l IH]; intros q E EC EO; [cbn; rewrite <- E; destruct q; reflexivity|]. cbn [length repeat q_run q_step]. unfold poll_action, has_bytes. rewrite EC, E, EO. cbn [take_first existsb negb]. rewrite (IH (q_set_td l q) eq_refl EC EO). reflexivity.
Qed.
Lemma filter_map {A D} (f : A -> D) p l : filter p (map f l) = map f (filter (fun a => p (f a)) l).
Proof. induction l as [|a l IH]; [reflexivity|]. cbn. rewrite IH. destruct (p (f a)); reflexivity. Qed.
Lemma polls_all x q : let ps := repeat QPollAction (length (q_con q)) ++ repeat QPollBytes (length (q_out q)) ++ repeat QPollAction (length (q_td q)) in
  filter (about x) (snd (run q ps)) = map (fun t => YAction (AConnect (fst (fst t)) (snd (fst t)) (snd t))) (cons_of x (q_con q)) ++ map (fun t => YBytes (fst (fst t)) (snd (fst t)) (snd t)) (outs_of x (q_out q)) ++ map (fun t => YAction (ATeardown t)) (tds_of x (q_td q)).
Proof.
  cbv zeta. rewrite run_app. cbn [snd]. rewrite (polls_con _ q eq_refl). cbn [fst snd]. rewrite run_app. cbn [snd]. rewrite (polls_out (q_out q) (q_set_con [] q) eq_refl). cbn [fst snd]. rewrite (polls_td (q_td q) (q_set_out [] (q_set_con [] q)) eq_refl eq_refl eq_refl). cbn [snd].
  rewrite !filter_app, !filter_map. reflexivity.
Qed.
End Polls.

Section Send.
Context (C : cfg) (Q : qcfg) (W : wcodec) (B : backends) (rnd : N -> N -> option bytes) (t0 : N) (e : ep) (kr : option keyring).
Notation run := (q_run C Q W B rnd).
Notation start := (coord_new e kr).
Definition hdr_of (l : option bytes) : bytes := match effective_label l with Some l => header l | None => [] end.

(** a driver that takes all connects, all bytes and then all teardowns gets, of
    the exchange [x]: one connect, the bytes [bs] and the end of sending *)
Definition sends (q : coord) (id peer : N) (bs : bytes) : Prop :=
  exists x a b c, filter (about x) (snd (run q (repeat QPollAction a ++ repeat QPollBytes b ++ repeat QPollAction c))) =
    [YAction (AConnect x peer id); YBytes x peer bs; YAction (ATeardown (TShutdown x))].

Lemma start_gives : ep_new C t0 = Some e -> (forall l, effective_label (qc_label Q) = Some l -> valid_label l) ->
  forall os0 o k now i frame u, Forall keeps_dials os0 -> let q := fst (run start os0) in opens C (q_ep q) o i -> quiet o -> now < in_deadline i ->
  encode_message W (in_msg i) = Some frame -> encode_reliable_unit B (qc_comp Q) (q_kr q) (rnd (e_sid (q_ep q)) now) frame = Ok u ->
  let r := CoordModel.start C Q W B rnd o k now q in snd r = Some (e_sid (q_ep q)) /\ sends (fst r) (e_sid (q_ep q)) (in_peer i) (hdr_of (qc_label Q) ++ u).
Proof.
  intros N HL os0 o k now i frame u KD q OP QO HD EM EU. cbv zeta. destruct (frame_some _ _ _ EM) as (EW & NE).
  pose proof (fresh_run C Q W B rnd os0 _ KD (fresh_new C t0 e kr N)) as F. fold q in F.
  destruct (qok_of C _ (good_run C Q W B rnd os0 _ (good_new C rnd e kr (einv_new C _ _ N)))) as (w & K & _). fold q in K.
  destruct (start_sends C Q W B rnd o k now q i frame u F (fun x L => proj1 (qi_fresh _ _ _ _ _ _ K x L)) OP QO HL HD EW NE EU (unit_some _ _ _ _ _ _ EU)) as (S1 & x & b & m & _ & S2).
  split; [exact S1|]. set (q' := fst (CoordModel.start C Q W B rnd o k now q)) in *. exists x, (length (q_con q')), (length (q_out q')), (length (q_td q')). rewrite polls_all. unfold slot in S2. injection S2 as _ _ E1 E2 E3. rewrite E1, E2, E3. reflexivity.
Qed.

(** ** C99: a message given to a running node leaves it whole *)
Theorem C99_user_message_is_sent : ep_new C t0 = Some e -> (forall l, effective_label (qc_label Q) = Some l -> valid_label l) ->
  forall os0 peer data now q' id frame u, Forall (fun o => match o with QRequeue (EvDial _ _ _) _ => False | _ => True end) os0 ->
  let q := fst (run start os0) in q_step C Q W B rnd q (QUserMsg peer data now) = (q', [YId id]) -> now < tadd now (c_stream_timeout C) ->
  encode_message W (MUserData data) = Some frame -> encode_reliable_unit B (qc_comp Q) (q_kr q) (rnd id now) frame = Ok u ->
  sends q' id peer (hdr_of (qc_label Q) ++ u).
Proof.
  intros N HL os0 peer data now q' id frame u KD q ST HD EM EU. cbn [q_step] in ST.
  assert (KD' : Forall keeps_dials os0) by (eapply Forall_impl; [|exact KD]; intros [] H; try exact Logic.I; destruct ev; try reflexivity; destruct H).
  assert (R : runs (q_ep q) = true).
  { destruct (runs (q_ep q)) eqn:R; [reflexivity|]. unfold CoordModel.start in ST. rewrite call_eq in ST. cbn [q_ep q_set_last ep_step fst snd] in ST. rewrite R in ST. cbn in ST. unfold opt in ST. congruence. }
  pose proof (fun F => start_gives N HL os0 (EUserMsg peer data now) XUserMessage now _ frame F KD' (user_opens C _ peer data now R) Logic.I HD EM) as G. cbv zeta in G. fold q in G.
  assert (EI : id = e_sid (q_ep q)).
  { destruct (user_opens C (q_ep q) peer data now R) as (O1 & _). unfold CoordModel.start in ST. rewrite call_eq in ST. cbn [q_ep q_set_last fst snd] in ST. rewrite O1 in ST. unfold opt in ST. congruence. }
  subst id. destruct (G u EU) as (_ & G1). destruct (CoordModel.start C Q W B rnd (EUserMsg peer data now) XUserMessage now q) as [q1 r]. cbn [fst in_peer] in G1. assert (q1 = q') as -> by congruence. exact G1.
Qed.
(** the same for a push/pull: the node sends its members and its user data *)
Theorem C99_push_pull_is_sent : ep_new C t0 = Some e -> (forall l, effective_label (qc_label Q) = Some l -> valid_label l) ->
  forall os0 peer join now q' id frame u, Forall (fun o => match o with QRequeue (EvDial _ _ _) _ => False | _ => True end) os0 ->
  let q := fst (run start os0) in runs (q_ep q) = true -> q_step C Q W B rnd q (QPushPull peer join now) = (q', [YId id]) -> now < tadd now (c_stream_timeout C) ->
  encode_message W (MPushPull join (local_states (q_ep q)) (e_snap (q_ep q))) = Some frame -> encode_reliable_unit B (qc_comp Q) (q_kr q) (rnd id now) frame = Ok u ->
  sends q' id peer (hdr_of (qc_label Q) ++ u).
Proof.
  intros N HL os0 peer join now q' id frame u KD q R ST HD EM EU. cbn [q_step] in ST.
  assert (KD' : Forall keeps_dials os0) by (eapply Forall_impl; [|exact KD]; intros [] H; try exact Logic.I; destruct ev; try reflexivity; destruct H).
  pose proof (fun F => start_gives N HL os0 (EPushPull peer join now) XPushPull now _ frame F KD' (pushpull_opens C _ peer join now R) Logic.I HD EM) as G. cbv zeta in G. fold q in G.
  assert (EI : id = e_sid (q_ep q)).
  { destruct (pushpull_opens C (q_ep q) peer join now R) as (O1 & _). unfold CoordModel.start in ST. rewrite call_eq in ST. cbn [q_ep q_set_last fst snd] in ST. rewrite O1 in ST. unfold opt in ST. congruence. }
  subst id. destruct (G u EU) as (_ & G1). destruct (CoordModel.start C Q W B rnd (EPushPull peer join now) XPushPull now q) as [q1 r]. cbn [fst in_peer] in G1. assert (q1 = q') as -> by congruence. exact G1.
Qed.
(** the same for a reliable ping *)
Theorem C99_reliable_ping_is_sent : ep_new C t0 = Some e -> (forall l, effective_label (qc_label Q) = Some l -> valid_label l) ->
  forall os0 node peer seq d now q' id frame u, Forall (fun o => match o with QRequeue (EvDial _ _ _) _ => False | _ => True end) os0 ->
  let q := fst (run start os0) in runs (q_ep q) = true -> q_step C Q W B rnd q (QReliable node peer seq d now) = (q', [YId id]) -> now < d ->
  encode_message W (MPing seq (mkNode (c_id C) (c_addr C)) (mkNode node peer)) = Some frame -> encode_reliable_unit B (qc_comp Q) (q_kr q) (rnd id now) frame = Ok u ->
  sends q' id peer (hdr_of (qc_label Q) ++ u).
Proof.
  intros N HL os0 node peer seq d now q' id frame u KD q R ST HD EM EU. cbn [q_step] in ST.
  assert (KD' : Forall keeps_dials os0) by (eapply Forall_impl; [|exact KD]; intros [] H; try exact Logic.I; destruct ev; try reflexivity; destruct H).
  pose proof (fun F => start_gives N HL os0 (EReliable node peer seq d) XReliablePing now _ frame F KD' (reliable_opens C _ node peer seq d R) Logic.I HD EM) as G. cbv zeta in G. fold q in G.
  assert (EI : id = e_sid (q_ep q)).
  { destruct (reliable_opens C (q_ep q) node peer seq d R) as (O1 & _). unfold CoordModel.start in ST. rewrite call_eq in ST. cbn [q_ep q_set_last fst snd] in ST. rewrite O1 in ST. unfold opt in ST. congruence. }
  subst id. destruct (G u EU) as (_ & G1). destruct (CoordModel.start C Q W B rnd (EReliable node peer seq d) XReliablePing now q) as [q1 r]. cbn [fst in_peer] in G1. assert (q1 = q') as -> by congruence. exact G1.
Qed.
End Send.
Print Assumptions C99_user_message_is_sent.
Print Assumptions C99_push_pull_is_sent.
Print Assumptions C99_reliable_ping_is_sent.

(** ** C99: from one application to the other *)
Theorem C99_user_message_is_heard : forall W B, wf_codec W -> wf_backends B -> lossless B -> aead_correct B ->
  (* the sender *)
  forall C1 Q1 rnd1 t1 e1 kr1, ep_new C1 t1 = Some e1 -> (forall l, effective_label (qc_label Q1) = Some l -> valid_label l) ->
  forall os1 peer data now1 q' id frame u, Forall (fun o => match o with QRequeue (EvDial _ _ _) _ => False | _ => True end) os1 ->
  let q1 := fst (q_run C1 Q1 W B rnd1 (coord_new e1 kr1) os1) in
  q_step C1 Q1 W B rnd1 q1 (QUserMsg peer data now1) = (q', [YId id]) -> now1 < tadd now1 (c_stream_timeout C1) ->
  wf_bytes data -> encode_message W (MUserData data) = Some frame -> match rnd1 id now1 with Some n => wf_bytes n | None => True end ->
  encode_reliable_unit B (qc_comp Q1) (q_kr q1) (rnd1 id now1) frame = Ok u ->
  exists bs, sends C1 Q1 W B rnd1 q' id peer bs /\
  (* the receiver *)
  forall C2 Q2 rnd2 t2 e2 kr2, ep_new C2 t2 = Some e2 -> effective_label (qc_label Q2) = effective_label (qc_label Q1) -> c_frame_max C2 + 30 <= u32_max -> blen frame <= c_frame_max C2 ->
  forall os2 from ta x, let q2 := fst (q_run C2 Q2 W B rnd2 (coord_new e2 kr2) os2) in
  snd (q_step C2 Q2 W B rnd2 q2 (QAccept from ta)) = [YId x] -> ring_compatible B (q_kr q1) (q_kr q2) (rnd1 id now1) (compress_payload B (qc_comp Q1) frame) ->
  forall T os last now, T <= tadd ta (qc_accept Q2) -> Forall (calm C2 T x) os -> now < T -> T <= tadd now (c_stream_timeout C2) ->
  flat_map (brought x) os ++ last = bs ->
  let q2' := fst (q_run C2 Q2 W B rnd2 (coord_new e2 kr2) (os2 ++ [QAccept from ta] ++ os ++ [QData x last true now])) in
  exists n, In (YEvent (EvUserPacket from data Reliable)) (snd (q_run C2 Q2 W B rnd2 q2' (repeat QPollEvent n))).
Proof.
  intros W B HW HB LL AE C1 Q1 rnd1 t1 e1 kr1 N1 HL os1 peer data now1 q' id frame u KD q1 ST HD WD EM WN EU. exists (hdr_of (qc_label Q1) ++ u).
  split; [exact (C99_user_message_is_sent C1 Q1 W B rnd1 t1 e1 kr1 N1 HL os1 peer data now1 q' id frame u KD ST HD EM EU)|].
  intros C2 Q2 rnd2 t2 e2 kr2 N2 EL HM LF os2 from ta x q2 AC RC T os last now LT F LN TN EW. cbv zeta.
  refine (proj1 (C98_user_message_arrives C2 Q2 W B rnd2 t2 e2 kr2 N2 HW HB LL AE _ HM os2 from ta x AC (qc_comp Q1) (q_kr q1) (rnd1 id now1) data frame u WD EM LF EU WN RC T os last now LT F LN TN _)).
  - intros l E. apply HL. congruence.
  - rewrite EW. unfold hdr_of. now rewrite EL.
Qed.
Print Assumptions C99_user_message_is_heard.
(** ** C100: from one table to the other: the members a node has when it starts
    a push/pull are what the other node's endpoint merges *)
Theorem C100_push_pull_is_taken_in : forall W B, wf_codec W -> wf_backends B -> lossless B -> aead_correct B ->
  (* the sender *)
  forall C1 Q1 rnd1 t1 e1 kr1, ep_new C1 t1 = Some e1 -> (forall l, effective_label (qc_label Q1) = Some l -> valid_label l) ->
  forall os1 peer join now1 q' id frame u, Forall (fun o => match o with QRequeue (EvDial _ _ _) _ => False | _ => True end) os1 ->
  let q1 := fst (q_run C1 Q1 W B rnd1 (coord_new e1 kr1) os1) in
  runs (q_ep q1) = true -> q_step C1 Q1 W B rnd1 q1 (QPushPull peer join now1) = (q', [YId id]) -> now1 < tadd now1 (c_stream_timeout C1) ->
  wf_msg (MPushPull join (local_states (q_ep q1)) (e_snap (q_ep q1))) -> encode_message W (MPushPull join (local_states (q_ep q1)) (e_snap (q_ep q1))) = Some frame -> match rnd1 id now1 with Some n => wf_bytes n | None => True end ->
  encode_reliable_unit B (qc_comp Q1) (q_kr q1) (rnd1 id now1) frame = Ok u ->
  exists bs, sends C1 Q1 W B rnd1 q' id peer bs /\
  (* the receiver *)
  forall C2 Q2 rnd2 t2 e2 kr2, ep_new C2 t2 = Some e2 -> effective_label (qc_label Q2) = effective_label (qc_label Q1) -> c_frame_max C2 + 30 <= u32_max -> blen frame <= c_frame_max C2 ->
  forall os2 from ta x, let q2 := fst (q_run C2 Q2 W B rnd2 (coord_new e2 kr2) os2) in
  snd (q_step C2 Q2 W B rnd2 q2 (QAccept from ta)) = [YId x] -> ring_compatible B (q_kr q1) (q_kr q2) (rnd1 id now1) (compress_payload B (qc_comp Q1) frame) ->
  forall T os last now, T <= tadd ta (qc_accept Q2) -> Forall (calm C2 T x) os -> now < T -> T <= tadd now (c_stream_timeout C2) ->
  flat_map (brought x) os ++ last = bs ->
  let q2' := fst (q_run C2 Q2 W B rnd2 (coord_new e2 kr2) (os2 ++ [QAccept from ta] ++ os ++ [QData x last true now])) in
  exists sid t l1 l2, q_log q2' = l1 ++ (Some x, EStreamEv (SERequest from (local_states (q_ep q1)) (e_snap (q_ep q1)) join sid) t) :: l2 /\
    q_ep q2' = fst (ep_run C2 e2 (map snd l1 ++ EStreamEv (SERequest from (local_states (q_ep q1)) (e_snap (q_ep q1)) join sid) t :: map snd l2)).
Proof.
  intros W B HW HB LL AE C1 Q1 rnd1 t1 e1 kr1 N1 HL os1 peer join now1 q' id frame u KD q1 R ST HD WD EM WN EU. exists (hdr_of (qc_label Q1) ++ u).
  split; [exact (C99_push_pull_is_sent C1 Q1 W B rnd1 t1 e1 kr1 N1 HL os1 peer join now1 q' id frame u KD R ST HD EM EU)|].
  intros C2 Q2 rnd2 t2 e2 kr2 N2 EL HM LF os2 from ta x q2 AC RC T os last now LT F LN TN EW. cbv zeta.
  destruct (proj1 (C100_push_pull_arrives C2 Q2 W B rnd2 t2 e2 kr2 N2 HW HB LL AE ltac:(intros l E; apply HL; congruence) HM os2 from ta x AC (qc_comp Q1) (q_kr q1) (rnd1 id now1) join (local_states (q_ep q1)) (e_snap (q_ep q1)) frame u WD EM LF EU WN RC T os last now LT F LN TN
    ltac:(rewrite EW; unfold hdr_of; now rewrite EL))) as (sid & t & _ & l1 & l2 & E). exists sid, t, l1, l2. exact E.
Qed.
Print Assumptions C100_push_pull_is_taken_in.
(** node 1, busy with a push/pull of its own, sends [1; 2; 3] to node 2, under
    the label and encrypted; what it sends is what node 2 is shown to hear in
    [C98_user_message_arrives_ex] *)
Example C99_user_message_is_sent_ex :
  let os0 := [QAccept 109 3; QPushPull 103 true 5; QPollAction; QTimeout 7] in let q := fst (qe 1 (Some tr_s) os0) in
  ep_new (qe_cfg 1) 0 = Some (qe_new 1) /\ (forall l, effective_label (qc_label qe_q) = Some l -> valid_label l) /\
  Forall (fun o => match o with QRequeue (EvDial _ _ _) _ => False | _ => True end) os0 /\
  snd (q_step (qe_cfg 1) qe_q ew toy qe_rnd q (QUserMsg 102 [1; 2; 3] 10)) = [YId 2] /\ 10 < tadd 10 (c_stream_timeout (qe_cfg 1)) /\
  encode_message ew (MUserData [1; 2; 3]) = Some de_frame /\ encode_reliable_unit toy (qc_comp qe_q) (q_kr q) (qe_rnd 2 10) de_frame = Ok de_unit /\
  hdr_of (qc_label qe_q) ++ de_unit = de_sent /\
  filter (about 2) (snd (qe 1 (Some tr_s) (os0 ++ [QUserMsg 102 [1; 2; 3] 10] ++ repeat QPollAction 2 ++ repeat QPollBytes 3 ++ repeat QPollAction 3))) =
    [YAction (AConnect 2 102 2); YBytes 2 102 de_sent; YAction (ATeardown (TShutdown 2))].
Proof.
  cbv zeta. split; [apply qe_new_ok|]. split. { intros l H. vm_compute in H. injection H as <-. repeat split; try discriminate. repeat constructor. }
  split; [repeat constructor|]. split; [vm_compute; reflexivity|]. split; [vm_compute; reflexivity|]. split; [vm_compute; reflexivity|]. split; [vm_compute; reflexivity|]. split; [vm_compute; reflexivity|]. vm_compute. reflexivity.
Qed.
(** the same node sends its one member to 103, and pings node 4 at 104 *)
Definition se_pp : bytes := wire_enc ew (MPushPull true (local_states (qe_new 1)) (e_snap (qe_new 1))).
Definition se_ping : bytes := wire_enc ew (MPing 7 (mkNode 1 101) (mkNode 4 104)).
Definition se_unit (f : bytes) : bytes := match encode_reliable_unit toy (qc_comp qe_q) (Some tr_s) (Some tnonce) f with Ok u => u | Err _ => [] end.
Example C99_push_pull_is_sent_ex :
  let q := fst (qe 1 (Some tr_s) [QAccept 109 3]) in runs (q_ep q) = true /\
  snd (q_step (qe_cfg 1) qe_q ew toy qe_rnd q (QPushPull 103 true 5)) = [YId 1] /\ 5 < tadd 5 (c_stream_timeout (qe_cfg 1)) /\
  length (local_states (q_ep q)) = 1%nat /\ encode_message ew (MPushPull true (local_states (q_ep q)) (e_snap (q_ep q))) = Some se_pp /\
  encode_reliable_unit toy (qc_comp qe_q) (q_kr q) (qe_rnd 1 5) se_pp = Ok (se_unit se_pp) /\
  filter (about 1) (snd (qe 1 (Some tr_s) ([QAccept 109 3; QPushPull 103 true 5] ++ repeat QPollAction 1 ++ repeat QPollBytes 2 ++ repeat QPollAction 2))) =
    [YAction (AConnect 1 103 1); YBytes 1 103 (hdr_of (qc_label qe_q) ++ se_unit se_pp); YAction (ATeardown (TShutdown 1))].
Proof. cbv zeta. repeat split; vm_compute; reflexivity. Qed.
Example C99_reliable_ping_is_sent_ex :
  let q := fst (qe 1 (Some tr_s) [QAccept 109 3]) in runs (q_ep q) = true /\
  snd (q_step (qe_cfg 1) qe_q ew toy qe_rnd q (QReliable 4 104 7 900 5)) = [YId 1] /\ c_id (qe_cfg 1) = 1 /\ c_addr (qe_cfg 1) = 101 /\
  encode_message ew (MPing 7 (mkNode 1 101) (mkNode 4 104)) = Some se_ping /\
  encode_reliable_unit toy (qc_comp qe_q) (q_kr q) (qe_rnd 1 5) se_ping = Ok (se_unit se_ping) /\
  filter (about 1) (snd (qe 1 (Some tr_s) ([QAccept 109 3; QReliable 4 104 7 900 5] ++ repeat QPollAction 1 ++ repeat QPollBytes 2 ++ repeat QPollAction 2))) =
    [YAction (AConnect 1 104 1); YBytes 1 104 (hdr_of (qc_label qe_q) ++ se_unit se_ping); YAction (ATeardown (TShutdown 1))].
Proof. cbv zeta. repeat split; vm_compute; reflexivity. Qed.
(** both nodes together: the receiver of [C98_user_message_arrives_ex] meets
    what [C99_user_message_is_heard] asks of it for the sender shown above *)
Example C99_user_message_is_heard_ex :
  let q1 := fst (qe 1 (Some tr_s) [QAccept 109 3; QPushPull 103 true 5; QPollAction; QTimeout 7]) in let q2 := fst (qe 2 (Some tr_r) [QAccept 103 5]) in
  ring_compatible toy (q_kr q1) (q_kr q2) (qe_rnd 2 10) (compress_payload toy (qc_comp qe_q) de_frame) /\
  match qe_rnd 2 10 with Some n => wf_bytes n | None => True end /\ blen de_frame <= c_frame_max (qe_cfg 2) /\
  flat_map (brought 1) de_os ++ de_last = hdr_of (qc_label qe_q) ++ de_unit /\
  filter (fun y => match y with YEvent (EvUserPacket _ _ _) => true | _ => false end) (snd (qe 2 (Some tr_r) ([QAccept 103 5; QAccept 101 11] ++ de_os ++ [QData 1 de_last true 18] ++ repeat QPollEvent 4))) = [YEvent (EvUserPacket 101 [1; 2; 3] Reliable)].
Proof.
  cbv zeta. split.
  { assert (K1 : q_kr (fst (qe 1 (Some tr_s) [QAccept 109 3; QPushPull 103 true 5; QPollAction; QTimeout 7])) = Some tr_s) by (vm_compute; reflexivity).
    assert (K2 : q_kr (fst (qe 2 (Some tr_r) [QAccept 103 5])) = Some tr_r) by (vm_compute; reflexivity). rewrite K1, K2. apply toy_rings; [vm_compute; tauto|reflexivity]. }
  split; [repeat constructor|]. split; [vm_compute; discriminate|]. split; vm_compute; reflexivity.
Qed.
(** the members of node 1 as node 2 merges them: the push/pull of
    [C99_push_pull_is_sent_ex], coming in two pieces *)
Definition se_sent : bytes := hdr_of (qc_label qe_q) ++ se_unit se_pp.
Example C100_push_pull_is_taken_in_ex :
  let q1 := fst (qe 1 (Some tr_s) [QAccept 109 3]) in let q2 := fst (qe 2 (Some tr_r) [QAccept 103 5]) in
  let os := [QData 1 (btake 7 se_sent) false 12; QTimeout 13; QPollEvent] in
  wf_msg (MPushPull true (local_states (q_ep q1)) (e_snap (q_ep q1))) /\ blen se_pp <= c_frame_max (qe_cfg 2) /\
  snd (q_step (qe_cfg 2) qe_q ew toy qe_rnd q2 (QAccept 101 11)) = [YId 1] /\
  ring_compatible toy (q_kr q1) (q_kr q2) (qe_rnd 1 5) (compress_payload toy (qc_comp qe_q) se_pp) /\
  10011 <= tadd 11 (qc_accept qe_q) /\ Forall (calm (qe_cfg 2) 10011 1) os /\ 18 < 10011 /\ 10011 <= tadd 18 (c_stream_timeout (qe_cfg 2)) /\
  flat_map (brought 1) os ++ bdrop 7 se_sent = se_sent /\
  let q2' := fst (qe 2 (Some tr_r) ([QAccept 103 5; QAccept 101 11] ++ os ++ [QData 1 (bdrop 7 se_sent) true 18])) in
  map fst (k_mem (e_core (q_ep q2))) = [2] /\ map fst (k_mem (e_core (q_ep q2'))) = [2; 1] /\
  filter (fun y => match y with YBytes 1 _ _ => true | _ => false end) (snd (qe 2 (Some tr_r) ([QAccept 103 5; QAccept 101 11] ++ os ++ [QData 1 (bdrop 7 se_sent) true 18; QPollBytes; QPollBytes]))) <> [].
Proof.
  cbv zeta. split.
  { assert (K : (let q1 := fst (qe 1 (Some tr_s) [QAccept 109 3]) in MPushPull true (local_states (q_ep q1)) (e_snap (q_ep q1))) = MPushPull true [mkPNS 5 1 101 PAlive [7] 1 1] []) by (vm_compute; reflexivity).
    cbv zeta in K. rewrite K. unfold wf_msg, wf_pns, wf_meta, wf_state, wf_bytes. inrange. }
  split; [vm_compute; discriminate|]. split; [vm_compute; reflexivity|]. split.
  { assert (K1 : q_kr (fst (qe 1 (Some tr_s) [QAccept 109 3])) = Some tr_s) by (vm_compute; reflexivity).
    assert (K2 : q_kr (fst (qe 2 (Some tr_r) [QAccept 103 5])) = Some tr_r) by (vm_compute; reflexivity). rewrite K1, K2. apply toy_rings; [vm_compute; tauto|reflexivity]. }
  split; [vm_compute; discriminate|]. split; [repeat constructor; cbn; try discriminate; vm_compute; discriminate|]. split; [vm_compute; reflexivity|]. split; [vm_compute; discriminate|]. split; [vm_compute; reflexivity|].
  split; [vm_compute; reflexivity|]. split; [vm_compute; reflexivity|]. vm_compute. discriminate.
Qed.
