(** Proofs about the stream state machine. *)
From Verif Require Import Base BaseFacts CodecModel CodecSpec CodecFacts MsgModel EndpointModel WireModel WireSpec WireFacts StreamModel StreamSpec.
Local Open Scope N_scope.

(** * Traces *)
Section Runs.
Context (W : wcodec).

Lemma s_final_app os1 os2 : forall s, s_final W s (os1 ++ os2) = s_final W (s_final W s os1) os2.
Proof. induction os1 as [|o os1 IH]; intros s; [reflexivity|]. cbn [s_final app]. apply IH. Qed.
Lemma s_trace_app os1 os2 : forall s, s_trace W s (os1 ++ os2) = s_trace W s os1 ++ s_trace W (s_final W s os1) os2.
Proof. induction os1 as [|o os1 IH]; intros s; [reflexivity|]. cbn [s_trace s_final app]. now rewrite IH. Qed.
Lemma s_final_snoc os o s : s_final W s (os ++ [o]) = fst (s_step W (s_final W s os) o).
Proof. now rewrite s_final_app. Qed.
Lemma s_trace_snoc os o s : s_trace W s (os ++ [o]) = s_trace W s os ++ [(o, snd (s_step W (s_final W s os) o))].
Proof. now rewrite s_trace_app. Qed.
(** Induction over a run, last call first *)
Lemma s_run_ind (P : stream -> list sact -> Prop) s0 :
  P s0 [] ->
  (forall s tr o, P s tr -> P (fst (s_step W s o)) (tr ++ [(o, snd (s_step W s o))])) ->
  forall os, P (s_final W s0 os) (s_trace W s0 os).
Proof.
  intros H0 HS os. induction os as [|o os IH] using rev_ind; [exact H0|].
  rewrite s_final_snoc, s_trace_snoc. now apply HS.
Qed.
End Runs.

Lemma returned_app a b : returned (a ++ b) = returned a ++ returned b.
Proof. unfold returned. now rewrite map_app, concat_app. Qed.
Lemma sent_app a b : sent (a ++ b) = sent a ++ sent b.
Proof. unfold sent. now rewrite returned_app, map_app, concat_app. Qed.
Lemma delivered_app a b : delivered (a ++ b) = delivered a ++ delivered b.
Proof. unfold delivered. now rewrite returned_app, map_app, concat_app. Qed.
Lemma notices_app a b : notices (a ++ b) = notices a ++ notices b.
Proof. unfold notices. now rewrite returned_app, map_app, concat_app. Qed.
Lemma fed_app a b : fed (a ++ b) = fed a ++ fed b.
Proof. unfold fed. now rewrite map_app, concat_app. Qed.

(** * The constants of a stream *)
Lemma probe_total max b t n : probe_frame max b = PFrame t n -> n <= max /\ n <= blen b.
Proof.
  unfold probe_frame. destruct b as [|tag rest]; [discriminate|].
  generalize 0 at 1; generalize 0 at 1; generalize 0; generalize rest at 2; generalize 5%nat.
  intros f. induction f as [|f IH]; intros l a b c H; [discriminate|].
  cbn [probe_loop] in H. destruct l as [|x l]; [discriminate|].
  destruct (N.land x 128 =? 0).
  - destruct (u32_max <? _); [discriminate|]. destruct (N.ltb_spec max (1 + (a + 1) + N.lor c (N.shiftl (N.land x 127) b))); [discriminate|].
    destruct (N.leb_spec (1 + (a + 1) + N.lor c (N.shiftl (N.land x 127) b)) (blen (tag :: rest))); [|discriminate]. injection H as <- <-. lia.
  - destruct (35 <=? b + 7); [discriminate|]. eapply IH; eauto.
Qed.

Section Facts.
Context (W : wcodec).

(** what a successful dispatch does *)
Inductive dispatched (m : msg) (now : N) (s : stream) : stream -> Prop :=
| d_reply join j states user : s_phase s = SpAwaiting (OKPushPull join) -> m = MPushPull j states user ->
  dispatched m now s (s_set_ev (s_ev s ++ [SlClosed]) (s_set_phase SpDone
        (s_set_ep (s_ep s ++ [SEReply (s_peer s) states user join (s_id s)]) s)))
| d_ack seq p : s_phase s = SpAwaiting (OKReliablePing seq) -> m = MAck seq p ->
  dispatched m now s (s_set_ev (s_ev s ++ [SlClosed]) (s_set_phase SpDone (s_set_ep (s_ep s ++ [SEAcked seq now]) s)))
| d_noise : s_phase s = SpAwaiting OKUserMessage -> dispatched m now s s
| d_request join states user : s_phase s = SpFirst -> m = MPushPull join states user ->
  dispatched m now s (s_set_phase SpResponding (s_set_ep (s_ep s ++ [SERequest (s_peer s) states user join (s_id s)]) s))
| d_ping seq src tgt : s_phase s = SpFirst -> m = MPing seq src tgt -> nd_id tgt = s_local s ->
  dispatched m now s (s_set_phase SpResponding (s_set_out (s_out s ++ [wire_enc W (MAck seq [])]) s))
| d_user data : s_phase s = SpFirst -> m = MUserData data ->
  dispatched m now s (s_set_ev (s_ev s ++ [SlClosed]) (s_set_phase SpDone (s_set_ep (s_ep s ++ [SEUser (s_peer s) data]) s))).

Lemma dispatch_ok m now s s' : s_dispatch W m now s = Ok s' -> dispatched m now s s'.
Proof.
  unfold s_dispatch. destruct (s_phase s) as [k|k| | | |e] eqn:P; try discriminate.
  - destruct k as [join|seq|].
    + destruct m; try discriminate. intros [= <-]. eapply d_reply; eauto.
    + destruct m; try discriminate. destruct (N.eqb_spec seq0 seq); [|discriminate]. subst. intros [= <-]. eapply d_ack; eauto.
    + intros [= <-]. now apply d_noise.
  - destruct m; try discriminate.
    + destruct (N.eqb_spec (nd_id target) (s_local s)); [|discriminate]. intros [= <-]. eapply d_ping; eauto.
    + intros [= <-]. eapply d_request; eauto.
    + intros [= <-]. eapply d_user; eauto.
Qed.

(** what accepted data does *)
Inductive taken (data : bytes) (now : N) (s : stream) : stream -> Prop :=
| t_eof : data = [] -> taken data now s s
| t_more : data <> [] -> blen (s_in s ++ data) <= s_max s -> probe_frame (s_max s) (s_in s ++ data) = PNeedMore ->
  taken data now s (s_set_in (s_in s ++ data) s)
| t_frame frame rest t m s' : data <> [] -> s_in s ++ data = frame ++ rest -> blen (s_in s ++ data) <= s_max s ->
  probe_frame (s_max s) (s_in s ++ data) = PFrame t (blen frame) ->
  decode_message W frame = Some (blen frame, m) -> dispatched m now (s_set_in rest s) s' ->
  (forbids_input s' = true -> rest = []) -> taken data now s s'.

Lemma data_inner_ok data now s s' : s_data_inner W data now s = Ok s' -> s_late now s = false /\ taken data now s s' /\
  (data = [] -> s_phase s <> SpFirst /\ (forall k, s_phase s <> SpAwaiting k) /\
                (forall k, s_phase s = SpSending k -> k = OKUserMessage) /\ (s_phase s = SpResponding -> s_in s = [])).
Proof.
  unfold s_data_inner. destruct (s_late now s); [discriminate|]. intros H. split; [reflexivity|].
  destruct data as [|d0 data'].
  - assert (X : s' = s).
    { destruct (s_phase s) as [k|k| | | |e]; try discriminate; try (injection H as <-; reflexivity).
      - destruct k; try discriminate; injection H as <-; reflexivity.
      - destruct (blen (s_in s) =? 0); [injection H as <-; reflexivity|discriminate]. }
    split; [subst; now apply t_eof|]. intros _. repeat split; intros.
    + intros P. now rewrite P in H.
    + intros P. now rewrite P in H.
    + rewrite H0 in H. destruct k; [discriminate|discriminate|reflexivity].
    + rewrite H0 in H. destruct (N.eqb_spec (blen (s_in s)) 0); [|discriminate]. now apply blen_0_nil.
  - set (data := d0 :: data') in *. assert (ND : data <> []) by discriminate.
    split; [|intros; contradiction]. clearbody data.
    destruct (N.ltb_spec (s_max s) (blen (s_in s) + blen data)); [discriminate|].
    assert (LE : blen (s_in s ++ data) <= s_max s) by (rewrite blen_app; lia).
    unfold s_decode in H. cbn [s_max s_in s_set_in] in H.
    destruct (probe_frame (s_max s) (s_in s ++ data)) as [|t total|] eqn:P; [|  |discriminate].
    + injection H as <-. now apply t_more.
    + destruct (decode_message W (btake total (s_in s ++ data))) as [[c m]|] eqn:D; [|discriminate].
      destruct (N.eqb_spec c total) as [->|]; [|discriminate]. cbn [negb] in H.
      destruct (s_dispatch _ _ _ _) as [s2|] eqn:DI in H; [|discriminate].
      destruct (forbids_input s2 && negb (blen (s_in s2) =? 0)) eqn:F; [discriminate|]. injection H as <-.
      apply dispatch_ok in DI. pose proof (probe_total _ _ _ _ P) as [L1 L2].
      assert (TL : blen (btake total (s_in s ++ data)) = total) by (rewrite blen_btake; lia).
      eapply t_frame with (t := t) (frame := btake total (s_in s ++ data)) (rest := bdrop total (s_in s ++ data)); eauto.
      * now rewrite btake_bdrop.
      * rewrite TL. exact P.
      * rewrite TL. exact D.
      * intros FI. rewrite FI in F. cbn in F. apply blen_0_nil.
        assert (s_in s2 = bdrop total (s_in s ++ data)) as <- by (inversion DI; subst; reflexivity).
        destruct (N.eqb_spec (blen (s_in s2)) 0); [assumption|discriminate].
Qed.

(** * The steps of a stream *)
Inductive stepped (s : stream) : sop -> stream -> list sres -> Prop :=
| st_data data now s' : s_terminal s = false -> s_late now s = false -> taken data now s s' ->
  (data = [] -> s_phase s <> SpFirst /\ (forall k, s_phase s <> SpAwaiting k) /\
                (forall k, s_phase s = SpSending k -> k = OKUserMessage) /\ (s_phase s = SpResponding -> s_in s = [])) ->
  stepped s (SoData data now) s' []
| st_data_ignored data now : s_terminal s = true -> (s_done s = true -> data = []) -> stepped s (SoData data now) s []
| st_data_bad data now e : s_failed s = None -> (s_late now s = true -> s_done s = false -> e = SeTimeout) ->
  stepped s (SoData data now) (enter_failed e s) [SrErr e]
| st_idle now : s_terminal s = true \/ s_out s = [] /\ s_late now s = false -> stepped s (SoTransmit now) s []
| st_tx_late now : s_terminal s = false -> s_late now s = true -> stepped s (SoTransmit now) (enter_failed SeTimeout s) []
| st_tx_close now : s_phase s = SpSending OKUserMessage \/ s_phase s = SpResponding -> s_late now s = false -> s_out s <> [] ->
  stepped s (SoTransmit now) (s_set_ev (s_ev s ++ [SlClosed]) (s_set_phase SpDone (s_set_out [] s))) (map SrSent (s_out s))
| st_tx_await now k : s_phase s = SpSending k -> k <> OKUserMessage -> s_late now s = false -> s_out s <> [] ->
  stepped s (SoTransmit now) (s_set_phase (SpAwaiting k) (s_set_out [] s)) (map SrSent (s_out s))
| st_tx_other now : (exists k, s_phase s = SpAwaiting k) \/ s_phase s = SpFirst -> s_late now s = false -> s_out s <> [] ->
  stepped s (SoTransmit now) (s_set_out [] s) (map SrSent (s_out s))
| st_timer now : s_late now s = false \/ s_terminal s = true -> stepped s (SoTimeout now) s []
| st_timer_late now : s_late now s = true -> s_terminal s = false -> stepped s (SoTimeout now) (enter_failed SeTimeout s) []
| st_ep0 : s_ep s = [] -> stepped s SoPollEndpoint s []
| st_ep e r : s_ep s = e :: r -> stepped s SoPollEndpoint (s_set_ep r s) [SrEndpoint e]
| st_ev0 : s_ev s = [] -> stepped s SoPollEvent s []
| st_ev e r : s_ev s = e :: r -> stepped s SoPollEvent (s_set_ev r s) [SrEvent e]
| st_discard : stepped s SoDiscard (s_set_ev [] (s_set_ep [] s)) []
| st_load b d : stepped s (SoLoad b d) (s_set_deadline (Some d) (s_set_out (s_out s ++ [b]) s)) [].

Lemma terminal_cases s : s_terminal s = true <-> s_done s = true \/ s_failed s <> None.
Proof. unfold s_terminal, s_done, s_failed. destruct (s_phase s); intuition congruence. Qed.

Lemma step_stepped s o : stepped s o (fst (s_step W s o)) (snd (s_step W s o)).
Proof.
  destruct o as [data now|now|now| | | |b d].
  - unfold s_step. destruct (s_handle_data W data now s) as [s' e] eqn:H. unfold s_handle_data in H.
    assert (G : s_terminal s = false -> (let (s0, e0) := match s_data_inner W data now s with Ok s' => (s', None) | Err e => (enter_failed e s, Some e) end in
       s0 = s' /\ e0 = e) -> stepped s (SoData data now) s' match e with Some e => [SrErr e] | None => [] end).
    { intros T. destruct (s_data_inner W data now s) as [s2|e2] eqn:D; intros [<- <-].
      - apply data_inner_ok in D as (A & B & C). now apply st_data.
      - apply st_data_bad.
        + unfold s_terminal, s_failed in *. destruct (s_phase s); congruence.
        + intros L _. unfold s_data_inner in D. rewrite L in D. congruence. }
    cbn [fst snd].
    destruct (s_phase s) as [k|k| | | |e0] eqn:P;
      try (apply G; [unfold s_terminal; now rewrite P|rewrite H; split; reflexivity]).
    + destruct data as [|d0 data].
      * injection H as <- <-. apply st_data_ignored; [unfold s_terminal; now rewrite P|reflexivity].
      * injection H as <- <-. apply st_data_bad; [unfold s_failed; now rewrite P|]. unfold s_done. rewrite P. discriminate.
    + injection H as <- <-. apply st_data_ignored; [unfold s_terminal; now rewrite P|unfold s_done; rewrite P; discriminate].
  - unfold s_step. destruct (s_transmit now s) as [s' cs] eqn:H. unfold s_transmit in H. cbn [fst snd].
    destruct (s_terminal s) eqn:T; [injection H as <- <-; apply st_idle; auto|].
    destruct (s_late now s) eqn:L; [injection H as <- <-; now apply st_tx_late|].
    destruct (s_out s) as [|c cs0] eqn:O; [injection H as <- <-; apply st_idle; auto|].
    injection H as <- <-. assert (O' : s_out s <> []) by (rewrite O; discriminate). rewrite <- O.
    destruct (s_phase s) as [k|k| | | |e0] eqn:P.
    + destruct k as [j|q|].
      * now apply st_tx_await.
      * now apply st_tx_await.
      * apply st_tx_close; auto.
    + apply st_tx_other; eauto.
    + apply st_tx_other; eauto.
    + apply st_tx_close; auto.
    + unfold s_terminal in T. now rewrite P in T.
    + unfold s_terminal in T. now rewrite P in T.
  - cbn [s_step fst snd]. unfold s_handle_timeout. destruct (s_late now s) eqn:L; [|apply st_timer; auto].
    destruct (s_terminal s) eqn:T; [apply st_timer; auto|now apply st_timer_late].
  - cbn [s_step]. destruct (s_ep s) as [|e r] eqn:E; [now apply st_ep0|now apply st_ep].
  - cbn [s_step]. destruct (s_ev s) as [|e r] eqn:E; [now apply st_ev0|now apply st_ev].
  - apply st_discard.
  - apply st_load.
Qed.

(** * Terminal streams *)
Ltac phase_clash :=
  exfalso; unfold s_terminal, s_done, s_failed in *;
  repeat match goal with
         | H : _ \/ _ |- _ => destruct H
         | H : exists _, _ |- _ => destruct H
         end;
  match goal with P : s_phase ?s = _, T : context [match s_phase ?s with _ => _ end] |- _ => rewrite P in T end; congruence.

Lemma stepped_terminal s o s' rs : s_terminal s = true -> stepped s o s' rs -> s_terminal s' = true /\
  (s_failed s <> None -> s_failed s' = s_failed s) /\
  (forall c, ~ In (SrSent c) rs) /\ (s_failed s <> None -> forall e, ~ In (SrErr e) rs).
Proof.
  intros T H. inversion H; subst; cbn [In];
    try congruence; try phase_clash;
    (split; [try assumption; try reflexivity|split; [try reflexivity; try (intros; congruence)|split; [
      intros c F; repeat destruct F as [F|F]; try discriminate; auto|
      intros NF c F; repeat destruct F as [F|F]; try discriminate; auto]]]).
Qed.

Lemma not_sent tr : (forall c, ~ In (SrSent c) (returned tr)) -> sent tr = [].
Proof.
  unfold sent. induction (returned tr) as [|r rs IH]; intros H; [reflexivity|].
  cbn [map concat]. rewrite IH by (intros c F; apply (H c); now right).
  destruct r; try reflexivity. exfalso. apply (H chunk). now left.
Qed.
Lemma not_delivered tr : (forall c, ~ In (SrEndpoint c) (returned tr)) -> delivered tr = [].
Proof.
  unfold delivered. induction (returned tr) as [|r rs IH]; intros H; [reflexivity|].
  cbn [map concat]. rewrite IH by (intros c F; apply (H c); now right).
  destruct r; try reflexivity. exfalso. apply (H e). now left.
Qed.
Lemma returned_cons a tr : returned (a :: tr) = snd a ++ returned tr.
Proof. reflexivity. Qed.

Lemma terminal_run os : forall s, s_terminal s = true ->
  s_terminal (s_final W s os) = true /\ (s_failed s <> None -> s_failed (s_final W s os) = s_failed s) /\
  sent (s_trace W s os) = [] /\ (s_failed s <> None -> forall e, ~ In (SrErr e) (returned (s_trace W s os))).
Proof.
  induction os as [|o os IH]; intros s T.
  { repeat split; auto. }
  cbn [s_final s_trace]. destruct (stepped_terminal s o _ _ T (step_stepped s o)) as (A & B & C & D).
  destruct (IH _ A) as (E & F & G & H).
  change (?x :: s_trace W ?y os) with ([x] ++ s_trace W y os). rewrite sent_app, G, returned_app.
  split; [assumption|]. split; [|split].
  - intros NF. rewrite F; rewrite B; auto.
  - rewrite app_nil_r. apply not_sent. unfold returned. cbn [map concat snd]. rewrite app_nil_r. exact C.
  - intros NF e I. apply in_app_or in I as [I|I].
    + unfold returned in I. cbn [map concat snd] in I. rewrite app_nil_r in I. exact (D NF e I).
    + refine (H _ e I). rewrite B; auto.
Qed.

(** pending events of a failed stream *)
Definition finv (s : stream) : Prop := s_failed s <> None -> s_ep s = [] /\ s_in s = [].
Lemma stepped_finv s o s' rs : finv s -> stepped s o s' rs -> finv s'.
Proof.
  intros I H NF. inversion H; subst; try (exact (I NF)); try (split; reflexivity).
  - destruct H2 as [? | ? ? ?|? ? ? ? ? ? ? ? ? ? D ?].
    + apply I, NF.
    + exfalso. apply NF. unfold s_failed, s_terminal in *. cbn. destruct (s_phase s); congruence.
    + exfalso. apply NF. inversion D; subst; try reflexivity.
      match goal with P : s_phase _ = _ |- _ => unfold s_failed; rewrite P; reflexivity end.
  - exfalso. apply NF. reflexivity.
  - exfalso. apply NF. reflexivity.
  - destruct (I NF) as [E1 E2]. rewrite E1 in H0. discriminate.
  - destruct (I NF) as [E1 E2]. split; [reflexivity|exact E2].
Qed.
Lemma finv_run s0 os : s_failed s0 = None -> finv (s_final W s0 os).
Proof.
  intros H. apply (s_run_ind W (fun s _ => finv s)).
  - intros F. contradiction.
  - intros s tr o I. eapply stepped_finv; [exact I|apply step_stepped].
Qed.
Lemma stepped_endpoint s o s' rs c : stepped s o s' rs -> In (SrEndpoint c) rs -> exists r, o = SoPollEndpoint /\ s_ep s = c :: r.
Proof.
  intros H I. inversion H; subst; try contradiction; try (destruct I as [I|[]]; discriminate);
    try (apply in_map_iff in I as (? & F & _); discriminate).
  destruct I as [I|[]]. injection I as ->. eauto.
Qed.
Lemma failed_delivers_nothing os : forall s, s_failed s <> None -> finv s -> delivered (s_trace W s os) = [].
Proof.
  induction os as [|o os IH]; intros s NF I; [reflexivity|].
  cbn [s_trace]. change (?x :: s_trace W ?y os) with ([x] ++ s_trace W y os). rewrite delivered_app, IH.
  - rewrite app_nil_r. apply not_delivered. unfold returned. cbn [map concat snd]. rewrite app_nil_r.
    intros c F. destruct (I NF) as [E _].
    destruct (stepped_endpoint _ _ _ _ _ (step_stepped s o) F) as (r & _ & X). congruence.
  - destruct (terminal_run [o] s) as (_ & X & _).
    + unfold s_failed, s_terminal in *. destruct (s_phase s); congruence.
    + cbn [s_final] in X. rewrite X; auto.
  - eapply stepped_finv; [exact I|apply step_stepped].
Qed.

(** failure notices *)
Definition failures (l : list slife) : list slife := filter is_failure l.
Definition fcount (s : stream) (tr : list sact) : Prop :=
  failures (notices tr ++ s_ev s) = match s_failed s with Some e => [SlFailed e] | None => [] end.
Lemma failures_app a b : failures (a ++ b) = failures a ++ failures b.
Proof. apply filter_app. Qed.
Lemma notices_one o rs : notices [(o, rs)] = concat (map (fun r => match r with SrEvent e => [e] | _ => [] end) rs).
Proof. unfold notices, returned. cbn [map concat snd]. now rewrite app_nil_r. Qed.
Lemma notices_sent l : concat (map (fun r => match r with SrEvent e => [e] | _ => [] end) (map SrSent l)) = [].
Proof. induction l; [reflexivity|assumption]. Qed.
Lemma dispatched_ev m now s s' : dispatched m now s s' -> failures (s_ev s') = failures (s_ev s) /\ (s_failed s = None -> s_failed s' = None).
Proof. intros D. inversion D; subst; cbn; rewrite ?failures_app, ?app_nil_r; auto. Qed.
Lemma taken_ev data now s s' : taken data now s s' -> failures (s_ev s') = failures (s_ev s) /\ (s_failed s = None -> s_failed s' = None).
Proof.
  intros T. inversion T; subst; auto.
  apply dispatched_ev in H4 as [A B]. cbn in A. split; [assumption|]. exact B.
Qed.
Lemma terminal_false s : s_terminal s = false -> s_failed s = None.
Proof. unfold s_terminal, s_failed. destruct (s_phase s); congruence. Qed.
Lemma stepped_fcount s tr o s' rs : o <> SoDiscard -> fcount s tr -> stepped s o s' rs -> fcount s' (tr ++ [(o, rs)]).
Proof.
  unfold fcount. rewrite notices_app, notices_one, !failures_app. intros ND I H.
  inversion H; subst; rewrite ?notices_sent; cbn [map concat failures filter app]; rewrite ?app_nil_r; auto.
  - apply taken_ev in H2 as [E F]. rewrite E. pose proof (terminal_false _ H0) as NF.
    rewrite NF in I. rewrite (F NF). exact I.
  - rewrite H0 in I. apply app_eq_nil in I as [-> _]. reflexivity.
  - rewrite terminal_false in I by assumption. apply app_eq_nil in I as [-> _]. reflexivity.
  - assert (NF : s_failed s = None) by (unfold s_failed; destruct H0 as [P|P]; rewrite P; reflexivity).
    rewrite NF in I. cbn. rewrite filter_app. cbn. now rewrite app_nil_r.
  - assert (NF : s_failed s = None) by (unfold s_failed; rewrite H0; reflexivity). now rewrite NF in I.
  - rewrite terminal_false in I by assumption. apply app_eq_nil in I as [-> _]. reflexivity.
  - rewrite H0 in I. cbn [s_ev s_set_ev s_failed s_phase]. unfold failures in *. cbn [filter] in I. rewrite <- app_assoc.
    cbn [filter]. destruct (is_failure e); exact I.
  - congruence.
Qed.
Lemma fcount_run s0 os : s_failed s0 = None -> s_ev s0 = [] -> no_discard os = true -> fcount (s_final W s0 os) (s_trace W s0 os).
Proof.
  intros F E. induction os as [|o os IH] using rev_ind; intros ND.
  { unfold fcount. cbn. now rewrite E, F. }
  unfold no_discard in ND. rewrite forallb_app in ND. apply andb_prop in ND as [ND1 ND2].
  rewrite s_final_snoc, s_trace_snoc. eapply stepped_fcount; [|apply IH; exact ND1|apply step_stepped].
  intros ->. discriminate.
Qed.

(** * Buffering *)
Lemma stepped_const s o s' rs : stepped s o s' rs ->
  s_id s' = s_id s /\ s_peer s' = s_peer s /\ s_local s' = s_local s /\ s_max s' = s_max s.
Proof.
  intros H. inversion H; subst; try (repeat split; reflexivity).
  inversion H2; subst; try (repeat split; reflexivity).
  match goal with D : dispatched _ _ _ _ |- _ => inversion D; subst; repeat split; reflexivity end.
Qed.
Lemma stepped_bound s o s' rs : blen (s_in s) <= s_max s -> stepped s o s' rs -> blen (s_in s') <= s_max s'.
Proof.
  intros B H. destruct (stepped_const _ _ _ _ H) as (_ & _ & _ & ->).
  inversion H; subst; try exact B; try (cbn; lia).
  inversion H2; subst; auto.
  match goal with D : dispatched _ _ _ _, E : _ = frame ++ rest |- _ =>
    assert (s_in s' = rest) as -> by (inversion D; subst; reflexivity); rewrite E in *; rewrite blen_app in * end. lia.
Qed.
Lemma bound_run s0 os : s_in s0 = [] -> blen (s_in (s_final W s0 os)) <= s_max s0.
Proof.
  intros E. apply (s_run_ind W (fun s _ => blen (s_in s) <= s_max s0 /\ s_max s = s_max s0)).
  - rewrite E. cbn. lia.
  - intros s tr o [A B]. pose proof (step_stepped s o) as ST. rewrite <- B in A. pose proof (stepped_bound _ _ _ _ A ST).
    destruct (stepped_const _ _ _ _ ST) as (_ & _ & _ & C). rewrite C in H. rewrite C. lia.
Qed.
End Facts.
