(** Properties C51 to C54, C64 and C65: one reliable exchange. *)
From Verif Require Import Base BaseFacts CodecModel CodecSpec CodecFacts MsgModel EndpointModel WireModel WireSpec WireFacts WireSizes.
From Verif Require Import StreamModel StreamSpec StreamFacts StreamRuns StreamExchange PropsWire.
Local Open Scope N_scope.

(** ** The streams and frames of the examples *)
Definition es_pp : bytes := wire_enc ew ew_pp.
Definition es_pp2 : msg := MPushPull false [mkPNS 3 67 9 PAlive [5] 1 0] [].
Definition es_pp2b : bytes := wire_enc ew es_pp2.
Definition es_ping : msg := MPing 77 (mkNode 65 1) (mkNode 66 2).
Definition es_pingb : bytes := wire_enc ew es_ping.
Definition es_ackb : bytes := wire_enc ew (MAck 77 []).
(** node 66 accepted a connection from address 1; node 65 dialled address 2 *)
Definition es_in : stream := stream_inbound 8 1 66 1000 50.
Definition es_out : stream := stream_outbound 9 2 65 1000 (OKPushPull true) es_pp 50.
Definition es_outping : stream := stream_outbound 9 2 65 1000 (OKReliablePing 77) es_pingb 50.
Lemma es_in_fresh : fresh es_in.
Proof. left. do 5 eexists. reflexivity. Qed.
Lemma es_out_fresh : fresh es_out.
Proof. right. do 7 eexists. split; [|reflexivity]. vm_compute. discriminate. Qed.
Lemma fresh_start s : fresh s -> s_failed s = None /\ s_done s = false /\ s_ev s = [] /\ s_in s = [] /\ (exists d, s_deadline s = Some d) /\
  (s_phase s = SpFirst \/ exists k, s_phase s = SpSending k).
Proof.
  intros [(id & p & l & mx & d & ->)|(id & p & l & mx & k & req & d & _ & ->)]; cbn; repeat split; eauto.
Qed.

(** ** C51 *)

(** The call on which an exchange fails returns nothing but its error, an error
    is returned only by a call that fails the exchange with it, and only data, a
    transmission poll or a timer can fail one. *)
Theorem C51_failing_call : forall W s o s' rs e, s_step W s o = (s', rs) ->
  (In (SrErr e) rs -> s_failed s = None /\ s_failed s' = Some e) /\
  (s_failed s = None -> s_failed s' = Some e -> (rs = [] \/ rs = [SrErr e]) /\
    match o with SoData _ _ => rs = [SrErr e] | SoTransmit _ | SoTimeout _ => rs = [] | _ => False end).
Proof.
  intros W s o s' rs e E. pose proof (step_stepped W s o) as ST. rewrite E in ST. cbn [fst snd] in ST. clear E.
  split.
  - intros I. inversion ST; subst; try contradiction; try (destruct I as [I|[]]; try discriminate);
      try (apply in_map_iff in I as (? & I & _); discriminate).
    injection I as ->. split; [assumption|reflexivity].
  - intros NF F. inversion ST; subst; try (rewrite F in NF; discriminate); try (cbn in F; discriminate);
      try (change (s_failed s = Some e) in F; congruence); try (cbn in F; injection F as <-; auto).
    match goal with T : taken _ _ _ _ _ |- _ => apply taken_ev in T as [_ X]; rewrite (X NF) in F end. discriminate.
Qed.
Print Assumptions C51_failing_call.
Example C51_failing_call_ex :
  snd (s_step ew es_in (SoData (es_ackb ++ [0]) 3)) = [SrErr SeUnexpected] /\ snd (s_step ew es_in (SoData [] 3)) = [SrErr SePeerClosed] /\
  s_failed (fst (s_step ew es_in (SoTransmit 50))) = Some SeTimeout.
Proof. vm_compute. auto. Qed.

(** After a failure, whatever is done with the stream: it stays failed with the
    same error, nothing is sent on it, no event of it reaches the endpoint (not
    even one that was already waiting) and no further error is returned. *)
Theorem C51_failed_is_final : forall W s0 os1 os2 e, fresh s0 -> s_failed (s_final W s0 os1) = Some e ->
  let s := s_final W s0 os1 in
  s_failed (s_final W s os2) = Some e /\ sent (s_trace W s os2) = [] /\ delivered (s_trace W s os2) = [] /\
  forall e', ~ In (SrErr e') (returned (s_trace W s os2)).
Proof.
  intros W s0 os1 os2 e FR F s. destruct (fresh_start s0 FR) as (F0 & _). fold s in F.
  assert (NF : s_failed s <> None) by congruence. assert (T : s_terminal s = true) by (apply terminal_cases; auto).
  destruct (terminal_run W os2 s T) as (_ & A & B & C). split; [rewrite A; auto|]. split; [exact B|]. split; [|exact (C NF)].
  apply failed_delivers_nothing; [exact NF|]. exact (finv_run W s0 os1 F0).
Qed.
Print Assumptions C51_failed_is_final.
(* a request was decoded and waits to be polled; then the deadline passes *)
Example C51_failed_is_final_ex : let s := s_final ew es_in [SoData es_pp 3; SoTimeout 60] in
  fresh es_in /\ s_ep (s_final ew es_in [SoData es_pp 3]) <> [] /\ s_failed s = Some SeTimeout /\
  delivered (s_trace ew s [SoPollEndpoint; SoLoad es_pp2b 99; SoTransmit 70; SoData [7] 71]) = [].
Proof. split; [exact es_in_fresh|]. vm_compute. repeat split; discriminate. Qed.

(** Unless the driver throws events away, a failed exchange is reported exactly
    once: the polled notices contain at most one failure, and after one more poll
    they contain exactly the failure that happened. *)
Theorem C51_failure_reported_once : forall W s0 os, fresh s0 -> no_discard os = true ->
  match s_failed (s_final W s0 os) with
  | Some e => filter is_failure (notices (s_trace W s0 (os ++ [SoPollEvent]))) = [SlFailed e]
  | None => filter is_failure (notices (s_trace W s0 os)) = []
  end.
Proof.
  intros W s0 os FR ND. destruct (fresh_start s0 FR) as (F0 & _ & E0 & _). destruct (s_failed (s_final W s0 os)) as [e|] eqn:F.
  - apply notified_after_poll; assumption.
  - pose proof (fcount_run W s0 os F0 E0 ND) as C. unfold fcount, failures in C. rewrite F, filter_app in C. now apply app_eq_nil in C as [C _].
Qed.
Print Assumptions C51_failure_reported_once.
Example C51_failure_reported_once_ex :
  notices (s_trace ew es_in [SoData es_pp 3; SoPollEvent; SoData [1; 2] 4; SoTimeout 60; SoPollEvent; SoPollEvent; SoTimeout 70; SoPollEvent]) = [SlFailed SeTimeout].
Proof. vm_compute. reflexivity. Qed.

(** ** C52 *)

Theorem C52_buffer_bounded : forall W s0 os, fresh s0 -> blen (s_in (s_final W s0 os)) <= s_max s0.
Proof. intros W s0 os FR. destruct (fresh_start s0 FR) as (_ & _ & _ & E & _). apply bound_run. exact E. Qed.
Print Assumptions C52_buffer_bounded.
Example C52_buffer_bounded_ex : let s := stream_inbound 1 2 3 6 50 in fresh s /\
  blen (s_in (s_final ew s [SoData [7; 4; 1; 2; 3] 1])) = 5 /\ s_failed (s_final ew s [SoData [7; 4; 1; 2; 3] 1; SoData [4; 5] 1]) = Some SeDecode.
Proof. split; [left; do 5 eexists; reflexivity|]. vm_compute. auto. Qed.

(** Over its whole life an exchange that has not failed took in at most two
    frames' worth of bytes, however they were cut. *)
Theorem C52_intake_bounded : forall W s0 os, fresh s0 -> s_failed (s_final W s0 os) = None ->
  blen (fed (s_trace W s0 os)) <= 2 * s_max s0.
Proof. intros W s0 os FR. destruct (fresh_start s0 FR) as (_ & _ & _ & E & _ & P). apply intake; assumption. Qed.
Print Assumptions C52_intake_bounded.
Example C52_intake_bounded_ex : let os := [SoData es_pp 3; SoData [7; 100] 4] in
  s_failed (s_final ew es_in os) = None /\ blen (fed (s_trace ew es_in os)) = 60.
Proof. vm_compute. auto. Qed.

(** ** C53 *)

(** Whenever an outbound exchange hands its result to the endpoint, its request
    was handed to the transport in full (and nothing else was), no result was
    handed over before, and the bytes received are exactly one frame of the
    matching kind.  [loads_ok] is the driver's contract: responses are loaded only
    where a request was delivered. *)
Theorem C53_outbound_result : forall W id peer local max k req d os ev, req <> [] ->
  let s0 := stream_outbound id peer local max k req d in let tr := s_trace W s0 os in
  loads_ok false tr = true -> snd (s_step W (s_final W s0 os) SoPollEndpoint) = [SrEndpoint ev] ->
  sent tr = [req] /\ delivered tr = [] /\
  match k with
  | OKPushPull join => exists j ss u, decode_message W (fed tr) = Some (blen (fed tr), MPushPull j ss u) /\ ev = SEReply peer ss u join id
  | OKReliablePing seq => exists p t, decode_message W (fed tr) = Some (blen (fed tr), MAck seq p) /\ ev = SEAcked seq t
  | OKUserMessage => False
  end.
Proof.
  intros W id peer local max k req d os ev NE s0 tr LO P.
  destruct (oinv_run W id peer local max k req d os NE LO) as (_ & _ & _ & _ & I). fold s0 in I. fold tr in I.
  cbn [s_step] in P. destruct (s_ep (s_final W s0 os)) as [|e r] eqn:E; [discriminate|]. cbn [snd] in P. injection P as ->.
  destruct (s_phase (s_final W s0 os)); try contradiction; try (exfalso; intuition congruence).
  destruct I as (_ & S & [I|(ev' & I & O)]); [apply app_eq_nil in I as [_ I]; discriminate|].
  apply app_one in I as (I & -> & _). split; [exact S|]. split; [exact I|]. exact O.
Qed.
Print Assumptions C53_outbound_result.
Example C53_outbound_result_ex :
  snd (s_step ew (s_final ew es_out [SoTransmit 1; SoData es_pp2b 2]) SoPollEndpoint) = [SrEndpoint (SEReply 2 [mkPNS 3 67 9 PAlive [5] 1 0] [] true 9)] /\
  snd (s_step ew (s_final ew es_outping [SoTransmit 1; SoData (btake 3 es_ackb) 2; SoData (bdrop 3 es_ackb) 4]) SoPollEndpoint) = [SrEndpoint (SEAcked 77 4)] /\
  s_failed (s_final ew es_outping [SoTransmit 1; SoData (wire_enc ew (MAck 78 [])) 4]) = Some SeUnexpected /\
  s_failed (s_final ew es_outping [SoData es_ackb 2]) = Some SeUnexpected.
Proof. vm_compute. auto. Qed.

(** At every point an outbound exchange sent nothing or exactly its request, and
    handed over at most one event. *)
Theorem C53_outbound_sends_its_request : forall W id peer local max k req d os, req <> [] ->
  let tr := s_trace W (stream_outbound id peer local max k req d) os in
  loads_ok false tr = true -> (sent tr = [] \/ sent tr = [req]) /\ blen (delivered tr) <= 1.
Proof.
  intros W id peer local max k req d os NE tr LO. destruct (oinv_run W id peer local max k req d os NE LO) as (_ & _ & _ & _ & I). fold tr in I.
  destruct (s_phase _) in I; try contradiction.
  - destruct I as (_ & _ & S & _ & D & _). rewrite D. split; [auto|cbn; lia].
  - destruct I as (_ & _ & _ & S & _ & D & _). rewrite D. split; [auto|cbn; lia].
  - destruct I as (_ & S & [I|(ev & I & _)]); (split; [auto|]).
    + apply app_eq_nil in I as [-> _]. cbn. lia.
    + apply (f_equal blen) in I. rewrite blen_app in I. change (blen [ev]) with 1 in I. lia.
  - destruct I as (_ & _ & [[S D]|[S [D|(ev & bs & rest & D & _)]]]); rewrite D; (split; [auto|cbn; lia]).
Qed.
Print Assumptions C53_outbound_sends_its_request.
Example C53_outbound_sends_its_request_ex :
  sent (s_trace ew es_out [SoTransmit 1; SoTransmit 2; SoData es_pp2b 2; SoTransmit 3]) = [es_pp] /\
  s_done (s_final ew es_out [SoTransmit 1; SoTransmit 2; SoData es_pp2b 2; SoTransmit 3]) = true.
Proof. vm_compute. auto. Qed.

(** At every point an inbound exchange did nothing yet, or it answered the one
    frame it was sent: a ping for this node with one [Ack] of the same number; a
    push/pull by handing over that request, once, and then sending the response
    loaded for it, once; a user message by handing it over, once. *)
Theorem C53_inbound_answers_one_request : forall W id peer local max d os,
  let tr := s_trace W (stream_inbound id peer local max d) os in
  loads_ok false tr = true ->
  sent tr = [] /\ delivered tr = [] \/
  exists frame rest m, fed tr = frame ++ rest /\ decode_message W frame = Some (blen frame, m) /\
    match m with
    | MPing seq _ tgt => nd_id tgt = local /\ delivered tr = [] /\ (sent tr = [] \/ sent tr = [wire_enc W (MAck seq [])])
    | MPushPull j ss u =>
        (delivered tr = [] \/ delivered tr = [SERequest peer ss u j id]) /\
        (sent tr = [] \/ delivered tr = [SERequest peer ss u j id] /\ exists b, sent tr = [b] /\ loads tr = [b])
    | MUserData x => sent tr = [] /\ (delivered tr = [] \/ delivered tr = [SEUser peer x])
    | _ => False
    end.
Proof. intros W id peer local max d os tr LO. exact (iinv_answered W id peer local _ _ (iinv_run W id peer local max d os LO)). Qed.
Print Assumptions C53_inbound_answers_one_request.
Example C53_inbound_answers_one_request_ex :
  let tr := s_trace ew es_in [SoData (btake 9 es_pp) 1; SoData (bdrop 9 es_pp) 2; SoPollEndpoint; SoLoad es_pp2b 90; SoTransmit 60; SoTransmit 61; SoPollEndpoint] in
  loads_ok false tr = true /\ blen (delivered tr) = 1 /\ sent tr = [es_pp2b] /\
  sent (s_trace ew es_in [SoData es_pingb 3; SoTransmit 4; SoTransmit 5]) = [es_ackb] /\
  s_failed (s_final ew (stream_inbound 8 1 67 1000 50) [SoData es_pingb 3]) = Some SeUnexpected /\
  s_failed (s_final ew es_in [SoData es_pp 1; SoData es_pp 2]) = Some SeUnexpected.
Proof. vm_compute. auto 8. Qed.

(** A finished exchange is never re-opened: it sends nothing and stays finished
    (it can still turn from closed to failed, when data follows the end). *)
Theorem C53_finished_stays_finished : forall W s os, s_done s = true \/ s_failed s <> None ->
  (s_done (s_final W s os) = true \/ s_failed (s_final W s os) <> None) /\ sent (s_trace W s os) = [].
Proof.
  intros W s os T. apply terminal_cases in T. destruct (terminal_run W os s T) as (A & _ & B & _). split; [|exact B]. now apply terminal_cases.
Qed.
Print Assumptions C53_finished_stays_finished.
Example C53_finished_stays_finished_ex : let s := s_final ew es_in [SoData es_pingb 3; SoTransmit 4] in
  s_done s = true /\ s_done (s_final ew s [SoData [] 9; SoTimeout 99; SoTransmit 99]) = true /\
  s_failed (s_final ew s [SoData es_pingb 9; SoTransmit 10]) = Some SeDecode.
Proof. vm_compute. auto. Qed.

(** ** C54 *)

(** At or after the deadline the next data, transmission poll or timer call
    fails an unfinished exchange with a timeout; nothing is sent or handed over
    by it. *)
Theorem C54_no_progress_past_deadline : forall W s d now data, s_done s = false -> s_failed s = None -> s_deadline s = Some d -> d <= now ->
  (snd (s_step W s (SoData data now)) = [SrErr SeTimeout] /\ s_failed (fst (s_step W s (SoData data now))) = Some SeTimeout) /\
  (snd (s_step W s (SoTransmit now)) = [] /\ s_failed (fst (s_step W s (SoTransmit now))) = Some SeTimeout) /\
  (snd (s_step W s (SoTimeout now)) = [] /\ s_failed (fst (s_step W s (SoTimeout now))) = Some SeTimeout).
Proof.
  intros W s d now data D F DL L. assert (LT : s_late now s = true). { unfold s_late. rewrite DL. now apply N.leb_le. }
  assert (T : s_terminal s = false). { unfold s_terminal, s_done, s_failed in *. destruct (s_phase s); congruence. }
  split; [|split].
  - unfold s_step, s_handle_data, s_data_inner. rewrite LT. unfold s_done, s_failed in D, F. destruct (s_phase s); try discriminate; auto.
  - unfold s_step, s_transmit. rewrite T, LT. auto.
  - unfold s_step, s_handle_timeout. rewrite LT, T. auto.
Qed.
Print Assumptions C54_no_progress_past_deadline.
Example C54_no_progress_past_deadline_ex : let s := s_final ew es_in [SoData es_pp 3; SoPollEndpoint; SoLoad es_pp2b 90] in
  s_done s = false /\ s_failed s = None /\ s_deadline s = Some 90 /\ s_out s = [es_pp2b] /\ snd (s_step ew s (SoTransmit 90)) = [] /\ snd (s_step ew s (SoTransmit 89)) = [SrSent es_pp2b].
Proof. vm_compute. auto 8. Qed.

(** Before the deadline no clock fails an exchange: the timer changes nothing and
    a transmission poll does not fail it. *)
Theorem C54_not_before : forall W s d now, s_deadline s = Some d -> now < d -> s_failed s = None ->
  s_step W s (SoTimeout now) = (s, []) /\ s_failed (fst (s_step W s (SoTransmit now))) = None.
Proof.
  intros W s d now DL L F. assert (LT : s_late now s = false). { unfold s_late. rewrite DL. now apply N.leb_gt. }
  split.
  - unfold s_step, s_handle_timeout. now rewrite LT.
  - pose proof (step_stepped W s (SoTransmit now)) as ST. revert ST. generalize (fst (s_step W s (SoTransmit now))), (snd (s_step W s (SoTransmit now))).
    intros s' rs ST. inversion ST; subst; try congruence; try reflexivity. exact F.
Qed.
Print Assumptions C54_not_before.
Example C54_not_before_ex : s_step ew es_out (SoTimeout 49) = (es_out, []) /\ snd (s_step ew es_out (SoTransmit 49)) = [SrSent es_pp].
Proof. vm_compute. auto. Qed.

(** In any run the reported wake-up of an unfinished exchange is its deadline:
    the one it was created with, or the one given with the last loaded response;
    a finished one asks for none. *)
Theorem C54_wakeup_is_deadline : forall W s0 d os, fresh s0 -> s_deadline s0 = Some d ->
  let s := s_final W s0 os in
  s_timeout s = if s_done s then None else match s_failed s with Some _ => None | None => Some (last_load d os) end.
Proof.
  intros W s0 d os FR DL s. pose proof (deadline_run W s0 d os DL) as E. fold s in E.
  unfold s_timeout, s_terminal, s_done, s_failed. destruct (s_phase s); auto.
Qed.
Print Assumptions C54_wakeup_is_deadline.
Example C54_wakeup_is_deadline_ex :
  s_timeout (s_final ew es_in [SoData es_pp 3; SoPollEndpoint]) = Some 50 /\
  s_timeout (s_final ew es_in [SoData es_pp 3; SoPollEndpoint; SoLoad es_pp2b 90]) = Some 90 /\
  s_timeout (s_final ew es_in [SoData es_pp 3; SoPollEndpoint; SoLoad es_pp2b 90; SoTransmit 60]) = None.
Proof. vm_compute. auto. Qed.

(** ** C64 *)

(** A stream that waits for a frame, fed the bytes of one frame (whatever it
    contains) in any nonempty pieces before the deadline, ends in the same state
    and returns the same as when fed all of it at once. *)
Theorem C64_same_in_any_pieces : forall W s d cs c last t, s_phase s = SpFirst \/ (exists k, s_phase s = SpAwaiting k) ->
  s_in s = [] -> s_deadline s = Some d -> last < d -> c <> [] -> Forall (fun x => fst x <> [] /\ snd x < d) cs ->
  let whole := concat (map fst cs) ++ c in probe_frame (s_max s) whole = PFrame t (blen whole) ->
  let pieces := feed (cs ++ [(c, last)]) in
  s_final W s pieces = fst (s_step W s (SoData whole last)) /\ returned (s_trace W s pieces) = snd (s_step W s (SoData whole last)).
Proof.
  intros W s d cs c last t PH IN DL L NE F whole PF pieces. unfold pieces, feed. rewrite map_app. cbn [map fst snd].
  change (map (fun c0 : bytes * N => SoData (fst c0) (snd c0)) cs) with (feed cs).
  assert (LT : forall x, x < d -> s_late x s = false). { intros x H. unfold s_late. rewrite DL. now apply N.leb_gt. }
  apply (feed_joined W cs s c last whole t); auto.
  - unfold open_phase. destruct PH as [->|[k ->]]; reflexivity.
  - eapply Forall_impl; [|exact F]. cbn. tauto.
  - eapply Forall_impl; [|exact F]. cbn. intros a [_ H]. auto.
  - now rewrite IN.
Qed.
Print Assumptions C64_same_in_any_pieces.
Example C64_same_in_any_pieces_ex :
  probe_frame 1000 es_pp = PFrame 8 58 /\
  s_final ew es_in (feed [(btake 1 es_pp, 3); (btake 20 (bdrop 1 es_pp), 5); (bdrop 21 es_pp, 9)]) = fst (s_step ew es_in (SoData es_pp 9)) /\
  blen (s_ep (fst (s_step ew es_in (SoData es_pp 9)))) = 1.
Proof. vm_compute. auto. Qed.

(** Not so for what follows the frame: the first byte of another frame fails the
    exchange when it comes in the same chunk as the request, and is let through
    when it comes in the next one (the request is then answered). *)
Theorem C64_trailing_bytes_refuted : exists W s0 req extra, fresh s0 /\
  s_failed (s_final W s0 (feed [(req ++ extra, 3)])) = Some SeDecode /\
  delivered (s_trace W s0 (feed [(req ++ extra, 3)] ++ [SoPollEndpoint])) = [] /\
  s_done (s_final W s0 (feed [(req, 3); (extra, 3)] ++ [SoPollEndpoint; SoLoad es_pp2b 90; SoTransmit 4])) = true /\
  sent (s_trace W s0 (feed [(req, 3); (extra, 3)] ++ [SoPollEndpoint; SoLoad es_pp2b 90; SoTransmit 4])) = [es_pp2b].
Proof. exists ew, es_in, es_pp, [7]. split; [exact es_in_fresh|]. vm_compute. auto. Qed.
Print Assumptions C64_trailing_bytes_refuted.

(** ** C65 *)

(** A push/pull between two nodes: what one sends reaches the other's endpoint
    with the same states, user data and join flag, and the response comes back
    the same way, both exchanges ending well, for every cutting of the two byte
    strings into chunks and every timing before the deadlines. *)
Theorem C65_push_pull_exchange : forall W ida idb pa pb la lb maxA maxB dA dB d' t0 t1 join j ss u j2 ss2 u2 b1 b2 cs1 cs2, wf_codec W ->
  let A := stream_outbound ida pb la maxA (OKPushPull join) b1 dA in
  let B := stream_inbound idb pa lb maxB dB in
  let ra := [SoTransmit t0] ++ feed cs2 ++ [SoPollEndpoint] in
  let rb := feed cs1 ++ [SoPollEndpoint; SoLoad b2 d'; SoTransmit t1] in
  wf_msg (MPushPull j ss u) -> encode_message W (MPushPull j ss u) = Some b1 -> blen b1 <= maxB ->
  wf_msg (MPushPull j2 ss2 u2) -> encode_message W (MPushPull j2 ss2 u2) = Some b2 -> blen b2 <= maxA ->
  t0 < dA -> t1 < d' -> carries b1 cs1 dB -> carries b2 cs2 dA ->
  returned (s_trace W A ra) = [SrSent b1; SrEndpoint (SEReply pb ss2 u2 join ida)] /\ s_done (s_final W A ra) = true /\
  returned (s_trace W B rb) = [SrEndpoint (SERequest pa ss u j idb); SrSent b2] /\ s_done (s_final W B rb) = true.
Proof. intros. eapply push_pull_exchange; eauto. Qed.
Print Assumptions C65_push_pull_exchange.
Example C65_push_pull_exchange_ex :
  wf_codec ew /\ wf_msg ew_pp /\ encode_message ew ew_pp = Some es_pp /\ wf_msg es_pp2 /\ encode_message ew es_pp2 = Some es_pp2b /\
  carries es_pp [(btake 9 es_pp, 4); (bdrop 9 es_pp, 5)] 50 /\ carries es_pp2b [(es_pp2b, 8)] 50.
Proof.
  split; [exact ew_ok|]. split; [unfold ew_pp, wf_msg, wf_pns, wf_meta, wf_state, wf_bytes; inrange|]. split; [vm_compute; reflexivity|].
  split; [unfold es_pp2, wf_msg, wf_pns, wf_meta, wf_state, wf_bytes; inrange|]. split; [vm_compute; reflexivity|].
  split; (split; [vm_compute; reflexivity|]); repeat constructor; try (vm_compute; discriminate); vm_compute; reflexivity.
Qed.

(** A reliable ping between two nodes. *)
Theorem C65_ping_exchange : forall W ida idb pa pb la lb maxA maxB dA dB t0 t1 seq src tgt b1 cs1 cs2, wf_codec W ->
  let A := stream_outbound ida pb la maxA (OKReliablePing seq) b1 dA in
  let B := stream_inbound idb pa lb maxB dB in
  let ra := [SoTransmit t0] ++ feed cs2 ++ [SoPollEndpoint] in
  let rb := feed cs1 ++ [SoTransmit t1] in
  let b2 := wire_enc W (MAck seq []) in
  wf_msg (MPing seq src tgt) -> encode_message W (MPing seq src tgt) = Some b1 -> blen b1 <= maxB -> blen b2 <= maxA ->
  nd_id tgt = lb -> t0 < dA -> t1 < dB -> carries b1 cs1 dB -> carries b2 cs2 dA ->
  (exists t, t < dA /\ returned (s_trace W A ra) = [SrSent b1; SrEndpoint (SEAcked seq t)]) /\ s_done (s_final W A ra) = true /\
  returned (s_trace W B rb) = [SrSent b2] /\ s_done (s_final W B rb) = true.
Proof. intros. eapply ping_exchange; eauto. Qed.
Print Assumptions C65_ping_exchange.
Example C65_ping_exchange_ex :
  wf_msg es_ping /\ encode_message ew es_ping = Some es_pingb /\ carries es_pingb [(btake 4 es_pingb, 4); (bdrop 4 es_pingb, 5)] 50 /\ carries es_ackb [(es_ackb, 8)] 50.
Proof.
  split; [unfold es_ping, wf_msg; inrange|]. split; [vm_compute; reflexivity|].
  split; (split; [vm_compute; reflexivity|]); repeat constructor; try (vm_compute; discriminate); vm_compute; reflexivity.
Qed.

(** A reliable user message: sent once, delivered once, with the same bytes. *)
Theorem C65_user_message_exchange : forall W ida idb pa pb la lb maxA maxB dA dB t0 data b1 cs1, wf_codec W ->
  let A := stream_outbound ida pb la maxA OKUserMessage b1 dA in
  let B := stream_inbound idb pa lb maxB dB in
  let ra := [SoTransmit t0] in
  let rb := feed cs1 ++ [SoPollEndpoint] in
  wf_bytes data -> encode_message W (MUserData data) = Some b1 -> blen b1 <= maxB ->
  t0 < dA -> carries b1 cs1 dB ->
  returned (s_trace W A ra) = [SrSent b1] /\ s_done (s_final W A ra) = true /\
  returned (s_trace W B rb) = [SrEndpoint (SEUser pa data)] /\ s_done (s_final W B rb) = true.
Proof. intros. eapply user_exchange; eauto. Qed.
Print Assumptions C65_user_message_exchange.
Example C65_user_message_exchange_ex :
  encode_message ew (MUserData [1; 2; 3]) = Some [9; 5; 10; 3; 1; 2; 3] /\ carries [9; 5; 10; 3; 1; 2; 3] [([9], 1); ([5; 10; 3; 1], 2); ([2; 3], 7)] 50.
Proof. split; [vm_compute; reflexivity|]. split; [reflexivity|]. repeat constructor; try discriminate; vm_compute; reflexivity. Qed.
