(** Facts about one exchange over one connection (BridgeModel.v). *)
From Verif Require Import CodecModel.
From Verif Require Import Base BridgeModel StreamSpec StreamFacts EndpointInv.
Local Open Scope N_scope.

(** * The record layer: when bytes appear *)
(** nothing more will be put in front of the plaintext *)
Definition hush (r : rlayer) : Prop :=
  g_prefix (r_gate r) = [] /\ (g_queued (r_gate r) = true \/ g_label (r_gate r) = None).
Definition rinv (r : rlayer) : Prop :=
  hush r \/ (rl_is_handshaking r = true /\ r_out r = [] /\ g_prefix (r_gate r) = [] /\ r_emitted r = false).

Lemma queue_hush g : g_prefix g = [] -> (g_queued g = true \/ g_label g = None) ->
  g_prefix (queue_outbound_prefix_if_needed g) = [] /\
  (g_queued (queue_outbound_prefix_if_needed g) = true \/ g_label (queue_outbound_prefix_if_needed g) = None).
Proof.
  intros P H. unfold queue_outbound_prefix_if_needed. destruct (g_queued g) eqn:Q; [auto|].
  destruct H as [H|H]; [congruence|]. cbn. rewrite H. auto.
Qed.
Lemma flush_none r : g_prefix (r_gate r) = [] ->
  r_out (flush_outbound_label r) = r_out r /\ r_gate (flush_outbound_label r) = r_gate r.
Proof.
  intros P. unfold flush_outbound_label. destruct (r_emitted r); [auto|]. unfold take_outbound_prefix. rewrite P. cbn.
  split; [reflexivity|]. destruct r as [[a b c d e f g] ? ? ? ?]. cbn in *. now subst.
Qed.
Lemma feed_hush r d : hush r -> hush (fst (rl_feed r d)) /\ r_out (fst (rl_feed r d)) = r_out r.
Proof.
  intros (P & H). unfold rl_feed. cbn [r_gate]. destruct (g_validated (r_gate r)); [split; [split; assumption|reflexivity]|].
  unfold consume_inbound_label. cbn [r_in r_gate r_out r_emitted r_tail]. destruct (r_in r ++ d) as [|b0 bs] eqn:E; [split; [split; assumption|reflexivity]|].
  unfold consume_inbound. destruct (g_label (r_gate r)) as [l|] eqn:L.
  - destruct H as [H|H]; [|discriminate].
    destruct (classify_header _ _ _).
    + cbn [fst].
      match goal with |- context [flush_outbound_label ?R] => destruct (flush_none R) as (A & Bq) end.
      { cbn [r_gate]. unfold queue_outbound_prefix_if_needed. cbn [g_queued]. rewrite H. exact P. }
      unfold hush. rewrite A, Bq. cbn [r_gate r_out]. unfold queue_outbound_prefix_if_needed. cbn [g_queued]. rewrite H. cbn. auto.
    + cbn. unfold hush. cbn. auto.
    + cbn. unfold hush. cbn. auto.
  - cbn [fst].
    match goal with |- context [flush_outbound_label ?R] => destruct (flush_none R) as (A & Bq) end.
    { cbn [r_gate]. unfold queue_outbound_prefix_if_needed. cbn [g_queued g_label g_prefix]. destruct (g_queued (r_gate r)); exact P. }
    unfold hush. rewrite A, Bq. cbn [r_gate r_out]. unfold queue_outbound_prefix_if_needed. cbn [g_queued g_label g_prefix].
    destruct (g_queued (r_gate r)); cbn; auto.
Qed.
Lemma feed_rinv r d : rinv r -> rinv (fst (rl_feed r d)).
Proof.
  intros [H|(V & O & P & EM)]; [left; now apply feed_hush|].
  unfold rl_is_handshaking, is_validating in V. destruct (g_label (r_gate r)) as [l|] eqn:L; [|discriminate]. destruct (g_role (r_gate r)) eqn:RO; [discriminate|].
  unfold rl_feed. cbn [r_gate]. destruct (g_validated (r_gate r)) eqn:GV; [discriminate|].
  unfold consume_inbound_label. cbn [r_in r_gate r_out r_emitted r_tail]. destruct (r_in r ++ d) as [|b0 bs] eqn:E.
  { right. cbn. unfold rl_is_handshaking, is_validating. cbn. rewrite L, RO, GV. auto. }
  unfold consume_inbound. rewrite L. destruct (classify_header _ _ _).
  - cbn [fst]. left. unfold hush, flush_outbound_label. cbn [r_emitted]. rewrite EM.
    unfold queue_outbound_prefix_if_needed. cbn [g_queued].
    unfold take_outbound_prefix. cbn [r_gate]. destruct (g_queued (r_gate r)) eqn:GQ; cbn; rewrite P; cbn; auto.
  - cbn. right. unfold rl_is_handshaking, is_validating. cbn. rewrite RO, GV. auto.
  - cbn. right. unfold rl_is_handshaking, is_validating. cbn. rewrite RO, GV. auto.
Qed.
Lemma rinv_ready r : rinv r -> rl_is_handshaking r = false -> hush r.
Proof. intros [H|(V & _)] F; [assumption|congruence]. Qed.
Lemma dialer_hush label skip : hush (rl_dialer label skip) /\ rl_is_handshaking (rl_dialer label skip) = false.
Proof. unfold rl_dialer, gate_dialer. destruct (effective_label label) as [l|]; cbn; split; auto; split; auto. Qed.
Lemma acceptor_rinv label skip : rinv (rl_acceptor label skip) /\ r_out (rl_acceptor label skip) = [].
Proof.
  split; [|reflexivity]. unfold rl_acceptor, gate_acceptor. destruct (effective_label label) as [l|] eqn:E.
  - right. cbn. auto.
  - left. split; cbn; auto.
Qed.
(** a peer that dials is never asked to prove its label first *)
Lemma feed_dialer r d : g_role (r_gate r) = Dialer -> g_role (r_gate (fst (rl_feed r d))) = Dialer.
Proof.
  intros H. unfold rl_feed. cbn [r_gate]. destruct (g_validated (r_gate r)); [exact H|].
  unfold consume_inbound_label. cbn [r_in r_gate]. destruct (r_in r ++ d); [exact H|].
  unfold consume_inbound. destruct (g_label (r_gate r)) as [lb|] eqn:L; [destruct (classify_header _ _ _)|].
  all: cbn [fst]; unfold flush_outbound_label, queue_outbound_prefix_if_needed, take_outbound_prefix; cbn [r_gate r_emitted g_queued g_role];
    repeat match goal with |- context [if ?b then _ else _] => destruct b; cbn [r_gate r_emitted g_queued g_role g_prefix g_label] end;
    try exact H; destruct (g_prefix _); try exact H; destruct (g_label _); try exact H; cbn; try exact H; destruct (_ ++ _); exact H.
Qed.

(** * The stream under a bridge *)
(** the answer that ends an exchange this node began *)
Definition answers (k : outkind) (s : stream) : list sevent -> Prop := fun l =>
  match k with
  | OKPushPull join => exists states user, l = [SEReply (s_peer s) states user join (s_id s)]
  | OKReliablePing seq => exists t, l = [SEAcked seq t]
  | OKUserMessage => l = []
  end.
(** [side]: what this node began, if it did *)
Definition sinv (side : option outkind) (s : stream) : Prop :=
  match side with
  | Some k =>
    match s_phase s with
    | SpSending k' => k' = k /\ s_ep s = []
    | SpAwaiting k' => k' = k /\ s_out s = [] /\ s_ep s = []
    | SpDone => s_out s = [] /\ answers k s (s_ep s)
    | SpFailed _ => s_out s = [] /\ s_ep s = []
    | _ => False
    end
  | None =>
    match s_phase s with
    | SpFirst => s_out s = [] /\ s_ep s = []
    | SpResponding => s_ep s = [] \/ (s_out s = [] /\ exists states user join, s_ep s = [SERequest (s_peer s) states user join (s_id s)])
    | SpDone => s_out s = [] /\ (s_ep s = [] \/ exists d, s_ep s = [SEUser (s_peer s) d])
    | SpFailed _ => s_out s = [] /\ s_ep s = []
    | _ => False
    end
  end.

Section Bridge.
Context (C : cfg) (W : wcodec) (B : backends) (rnd : N -> N -> option bytes).

Lemma handle_data_cases data now s : let '(s', e) := s_handle_data W data now s in
  (e = None /\ (s' = s \/ (s_terminal s = false /\ taken W data now s s'))) \/ (exists x, e = Some x /\ s' = enter_failed x s).
Proof.
  unfold s_handle_data. destruct (s_phase s) as [k|k| | | |x] eqn:P.
  5: destruct data as [|d0 data]; [left; auto|right; eauto].
  5: left; auto.
  all: destruct (s_data_inner W data now s) as [s'|x] eqn:D; [|right; eauto];
    apply data_inner_ok in D as (L & T & _); left; split; [reflexivity|right; split; [unfold s_terminal; now rewrite P|exact T]].
Qed.
Lemma enter_failed_inv side x s : sinv side (enter_failed x s).
Proof. destruct side; cbn; auto. Qed.
Lemma taken_inv side data now s s' : sinv side s -> taken W data now s s' -> sinv side s'.
Proof.
  intros I T. destruct T as [_|_ _ _|frame rest t m s' _ _ _ _ _ D _]; [exact I|exact I|].
  assert (I' : sinv side (s_set_in rest s)) by exact I. revert D. generalize dependent (s_set_in rest s). clear s I. intros s I D.
  unfold sinv in *. destruct D as [join j states user P E|seq p P E|P|join states user P E|seq src tgt P E L|data' P E]; rewrite P in I;
    destruct side as [k|]; cbn [s_phase s_set_phase s_set_ep s_set_ev s_out s_ep s_peer s_id s_set_out] in *; try contradiction.
  - destruct I as (K & O & EP). subst k. rewrite EP. split; [exact O|]. cbn. eauto.
  - destruct I as (K & O & EP). subst k. rewrite EP. split; [exact O|]. cbn. eauto.
  - now rewrite P.
  - destruct I as (O & EP). right. rewrite EP. split; [exact O|do 3 eexists; reflexivity].
  - destruct I as (O & EP). now left.
  - destruct I as (O & EP). split; [exact O|right]. rewrite EP. eexists; reflexivity.
Qed.
Lemma handle_data_inv side data now s : sinv side s -> sinv side (fst (s_handle_data W data now s)).
Proof.
  intros I. pose proof (handle_data_cases data now s) as H. destruct (s_handle_data W data now s) as [s' e]. cbn [fst].
  destruct H as [(_ & [->|(_ & T)])|(x & _ & ->)]; [exact I|eapply taken_inv; eauto|apply enter_failed_inv].
Qed.
Lemma taken_const data now s s' : taken W data now s s' ->
  s_deadline s' = s_deadline s /\ s_id s' = s_id s /\ s_peer s' = s_peer s /\ (s_failed s = None -> s_failed s' = None).
Proof. intros T. destruct T as [_|_ _ _|frame rest t m s' _ _ _ _ _ D _]; [auto|auto|]. destruct D; cbn; auto. Qed.
Lemma handle_data_const data now s : let '(s', e) := s_handle_data W data now s in
  s_deadline s' = s_deadline s /\ s_id s' = s_id s /\ s_peer s' = s_peer s /\ (e = None -> s_failed s = None -> s_failed s' = None).
Proof.
  pose proof (handle_data_cases data now s) as H. destruct (s_handle_data W data now s) as [s' e].
  destruct H as [(_ & [->|(_ & T)])|(x & E & ->)]; [auto|apply taken_const in T; tauto|]. subst e. cbn. repeat split; discriminate.
Qed.
(** data after the message has been sent brings no bytes to send *)
Lemma taken_out data now s s' : (match s_phase s with SpFirst => False | _ => True end) -> taken W data now s s' -> s_out s' = s_out s /\
  (match s_phase s' with SpFirst | SpResponding | SpSending _ => s_phase s' = s_phase s | _ => True end).
Proof.
  intros NF T. destruct T as [_|_ _ _|frame rest t m s' _ _ _ _ _ D _]; [split; [reflexivity|destruct (s_phase s); auto]| |].
  - cbn. split; [reflexivity|destruct (s_phase s); auto].
  - destruct D as [? ? ? ? P|? ? P|P|? ? ? P|? ? ? P|? P]; cbn [s_phase s_set_in] in P; rewrite P in NF; try contradiction; cbn; auto.
    rewrite P. auto.
Qed.
Lemma transmit_cases now s : let '(s', cs) := s_transmit now s in
  (cs = [] /\ s' = s /\ (s_terminal s = true \/ (s_out s = [] /\ s_late now s = false))) \/
  (cs = [] /\ s' = enter_failed SeTimeout s /\ s_terminal s = false /\ s_late now s = true) \/
  (cs = s_out s /\ cs <> [] /\ s_terminal s = false /\ s_late now s = false /\ s_out s' = [] /\ s_ep s' = s_ep s /\ s_id s' = s_id s /\ s_peer s' = s_peer s /\ s_deadline s' = s_deadline s /\
    s_phase s' = match s_phase s with SpSending OKUserMessage | SpResponding => SpDone | SpSending k => SpAwaiting k | p => p end).
Proof.
  unfold s_transmit. destruct (s_terminal s) eqn:T; [auto 6|]. destruct (s_late now s) eqn:L; [auto 7|].
  destruct (s_out s) as [|c cs] eqn:O; [auto 7|]. right. right. split; [reflexivity|]. split; [discriminate|].
  destruct (s_phase s) as [[]| | | | |] eqn:P; cbn; repeat split; auto.
Qed.
Lemma transmit_inv side now s : sinv side s -> sinv side (fst (s_transmit now s)).
Proof.
  intros I. pose proof (transmit_cases now s) as H. destruct (s_transmit now s) as [s' cs]. cbn [fst].
  destruct H as [(_ & -> & _)|[(_ & -> & _)|(E & NE & T & L & O & EP & ID & PE & DL & P)]]; [exact I|apply enter_failed_inv|].
  unfold sinv, answers in *. rewrite P, O, EP, ID, PE. destruct side as [k|]; destruct (s_phase s) as [k'|k'| | | |] eqn:PS; try contradiction.
  - destruct I as (-> & EP0). destruct k; rewrite EP0; cbn; auto.
  - destruct I as (-> & _ & EP0). auto.
  - unfold s_terminal in T. rewrite PS in T. discriminate.
  - unfold s_terminal in T. rewrite PS in T. discriminate.
  - destruct I as (O0 & EP0). auto.
  - destruct I as [EP0|(O0 & _)]; [auto|congruence].
  - unfold s_terminal in T. rewrite PS in T. discriminate.
  - unfold s_terminal in T. rewrite PS in T. discriminate.
Qed.

(** * The invariant of a bridge *)
Definition sent_phase (s : stream) : Prop := match s_phase s with SpAwaiting _ | SpDone => True | _ => False end.
Definition recv_phase (s : stream) : Prop := match s_phase s with SpSending OKUserMessage | SpResponding | SpDone => True | _ => False end.
Record binv (side : option outkind) (b : bridge) : Prop := {
  bi_rec : rinv (br_rec b);
  bi_max : br_failed b = true -> r_out (br_rec b) = [];
  bi_none : br_stream b = None -> (br_phase b = BHandshaking \/ br_failed b = true) /\ br_fin b = false /\ br_sent b = false /\ br_accum b = [];
  bi_some : forall s, br_stream b = Some s -> br_phase b <> BHandshaking /\ hush (br_rec b) /\ s_deadline s = Some (br_deadline b) /\
     (br_failed b = false -> sinv side s /\ s_failed s = None);
  bi_fin : forall s, br_stream b = Some s -> br_failed b = false ->
     match br_phase b with BEst LSendClosed | BEst LBothClosed => br_fin b = true /\ sent_phase s | _ => br_fin b = false /\ br_sent b = false end;
  bi_dialer : side <> None -> g_role (r_gate (br_rec b)) = Dialer /\ br_eof b = false;
  bi_began : forall k s, side = Some k -> br_stream b = Some s -> br_failed b = false -> br_fin b = false -> s_phase s = SpSending k;
  bi_recv : forall s, br_stream b = Some s ->
     match br_phase b with BEst LRecvClosed | BEst LBothClosed => recv_phase s | _ => True end
}.

Lemma clear_rinv r : rinv r -> rinv (rl_clear_outbound r).
Proof. intros [(P & H)|(V & O & P & E)]; [left; split; [reflexivity|exact H]|right; split; [exact V|split; [reflexivity|split; [reflexivity|exact E]]]]. Qed.
Lemma clear_hush r : hush r -> hush (rl_clear_outbound r).
Proof. intros (P & H). split; [reflexivity|exact H]. Qed.
Lemma read_rinv r : rinv r -> rinv (fst (rl_read r)).
Proof. intros H. exact H. Qed.

Lemma fail_failed r b : br_failed (br_fail r b) = true.
Proof. unfold br_fail. destruct (br_failed b) eqn:F; [exact F|reflexivity]. Qed.
Lemma fail_terminal r b : br_terminal (br_fail r b) = true.
Proof. pose proof (fail_failed r b) as H. unfold br_failed, br_terminal in *. destruct (br_phase (br_fail r b)) as [|[]]; congruence. Qed.
Lemma failed_terminal b : br_failed b = true -> br_terminal b = true.
Proof. unfold br_failed, br_terminal. destruct (br_phase b) as [|[]]; congruence. Qed.
Lemma fail_inv side r b : binv side b -> binv side (br_fail r b).
Proof.
  intros I. unfold br_fail. destruct (br_failed b) eqn:F; [exact I|].
  set (b1 := match br_phase b with BEst LRecvClosed | BEst LBothClosed => b | _ => match br_stream b with Some s => br_set_stream (Some (s_discard s)) b | None => b end end).
  assert (H : (br_stream b1 = br_stream b \/ exists s, br_stream b = Some s /\ br_stream b1 = Some (s_discard s)) /\ br_rec b1 = br_rec b /\
     br_fin b1 = br_fin b /\ br_sent b1 = br_sent b /\ br_accum b1 = br_accum b /\ br_deadline b1 = br_deadline b /\ br_eof b1 = br_eof b).
  { subst b1. destruct (br_phase b) as [|[]]; destruct (br_stream b) as [s|] eqn:S; cbn; rewrite ?S; repeat split; auto; right; eauto. }
  destruct H as (HS & HR & HF & HT & HA & HD & HE). clearbody b1. constructor; cbn [br_rec br_set_phase br_set_rec br_phase br_stream br_fin br_sent br_accum br_deadline br_failed br_eof]; try discriminate.
  - rewrite HR. apply clear_rinv, (bi_rec _ _ I).
  - reflexivity.
  - intros N. destruct HS as [E|(s & E & E1)]; [|congruence]. rewrite E in N. destruct (bi_none _ _ I N) as (_ & A & A2 & A3). rewrite HF, HT, HA. auto.
  - intros s N. rewrite HR, HD. split; [discriminate|].
    destruct HS as [E|(s0 & E & E1)]; [rewrite E in N; destruct (bi_some _ _ I s N) as (_ & H1 & H2 & _)|rewrite E1 in N; injection N as <-; destruct (bi_some _ _ I s0 E) as (_ & H1 & H2 & _)];
      (split; [now apply clear_hush|split; [exact H2|discriminate]]).
  - intros N. rewrite HR, HE. exact (bi_dialer _ _ I N).
  - exact (fun _ _ => Logic.I).
Qed.
Lemma retire_rec b : br_rec (br_retire b) = fst (rl_read (br_rec b)).
Proof. reflexivity. Qed.
Lemma fail_retire_inv side r b : binv side b -> br_stream b <> None -> binv side (br_fail_retire r b).
Proof.
  intros I S. unfold br_fail_retire, br_fail. cbn [br_retire br_failed br_set_rec br_set_fin br_phase].
  destruct (br_failed b) eqn:F.
  - replace (br_failed (br_retire b)) with true. constructor; cbn [br_retire br_rec br_set_fin br_phase br_stream br_fin br_sent br_accum br_deadline br_failed br_eof br_set_rec fst rl_read].
    + exact (bi_rec _ _ I).
    + intros _. exact (bi_max _ _ I F).
    + intros N. contradiction.
    + intros s E. destruct (bi_some _ _ I s E) as (A & Bq & D & G). split; [exact A|]. split; [exact Bq|]. split; [exact D|]. intros X. change (br_failed b = false) in X. congruence.
    + intros s E X. change (br_failed b = false) in X. congruence.
    + exact (bi_dialer _ _ I).
    + intros k s _ E X. change (br_failed b = false) in X. congruence.
    + exact (bi_recv _ _ I).
  - replace (br_failed (br_retire b)) with false.
    set (b1 := match br_phase b with BEst LRecvClosed | BEst LBothClosed => br_retire b | _ => match br_stream (br_retire b) with Some s => br_set_stream (Some (s_discard s)) (br_retire b) | None => br_retire b end end).
    assert (H : (br_stream b1 = br_stream b \/ exists s, br_stream b = Some s /\ br_stream b1 = Some (s_discard s)) /\ br_rec b1 = fst (rl_read (br_rec b)) /\
       br_deadline b1 = br_deadline b /\ br_eof b1 = br_eof b).
    { subst b1. cbn [br_retire br_set_rec br_set_fin br_phase br_stream]. destruct (br_phase b) as [|[]]; destruct (br_stream b) as [s|] eqn:S0; cbn; rewrite ?S0; repeat split; auto; right; eauto. }
    destruct H as (HS & HR & HD & HE). clearbody b1. constructor; cbn [br_rec br_set_phase br_set_rec br_phase br_stream br_fin br_sent br_accum br_deadline br_failed br_eof]; try discriminate.
    + rewrite HR. apply clear_rinv, (bi_rec _ _ I).
    + reflexivity.
    + intros N. destruct HS as [E|(s & E & E1)]; congruence.
    + intros s N. rewrite HR, HD. split; [discriminate|].
      destruct HS as [E|(s0 & E & E1)]; [rewrite E in N; destruct (bi_some _ _ I s N) as (_ & H1 & H2 & _)|rewrite E1 in N; injection N as <-; destruct (bi_some _ _ I s0 E) as (_ & H1 & H2 & _)];
      (split; [exact (clear_hush _ H1)|split; [exact H2|discriminate]]).
    + intros N. rewrite HR, HE. exact (bi_dialer _ _ I N).
    + exact (fun _ _ => Logic.I).
Qed.
Lemma fail_retire_failed r b : br_failed (br_fail_retire r b) = true.
Proof. apply fail_failed. Qed.

(** how data moves a stream on *)
Definition moved (s s' : stream) : Prop :=
  s_failed s' = None ->
  match s_phase s with
  | SpSending k => s_phase s' = SpSending k
  | SpAwaiting k => s_phase s' = SpAwaiting k \/ s_phase s' = SpDone
  | SpFirst => True
  | SpResponding => s_phase s' = SpResponding
  | SpDone => s_phase s' = SpDone
  | SpFailed _ => False
  end.
Lemma taken_moved data now s s' : s_terminal s = false -> taken W data now s s' -> moved s s'.
Proof.
  intros NT T _. destruct T as [_|_ _ _|frame rest t m s' _ _ _ _ _ D _].
  - unfold s_terminal in NT. destruct (s_phase s); auto; discriminate.
  - cbn. unfold s_terminal in NT. destruct (s_phase s); auto; discriminate.
  - destruct D as [? ? ? ? P|? ? P|P|? ? ? P|? ? ? P|? P]; cbn [s_phase s_set_in] in P; rewrite P; cbn; auto.
Qed.
Lemma handle_data_moved data now s : s_failed s = None -> moved s (fst (s_handle_data W data now s)).
Proof.
  intros F. pose proof (handle_data_cases data now s) as H. destruct (s_handle_data W data now s) as [s' e]. cbn [fst].
  destruct H as [(_ & [->|(NT & T)])|(x & _ & ->)].
  - intros _. unfold s_failed in F. destruct (s_phase s); auto; discriminate.
  - eapply taken_moved; eassumption.
  - intros X. cbn in X. discriminate.
Qed.
Lemma moved_trans a b c : s_failed b = None -> moved a b -> moved b c -> moved a c.
Proof.
  intros F H1 H2 F'. specialize (H1 F). specialize (H2 F'). destruct (s_phase a) as [k|k| | | |]; auto.
  - rewrite H1 in H2. exact H2.
  - destruct H1 as [H1|H1]; rewrite H1 in H2; auto.
  - rewrite H1 in H2. exact H2.
  - rewrite H1 in H2. exact H2.
Qed.
Lemma moved_refl s : s_failed s = None -> moved s s.
Proof. intros F _. unfold s_failed in F. destruct (s_phase s); auto; discriminate. Qed.
Lemma units_spec side fuel now : forall s b b' s' i, br_units W B fuel now s b = (b', s', i) ->
  s_failed s = None -> sinv side s ->
  b' = br_set_accum (br_accum b') b /\ sinv side s' /\ s_deadline s' = s_deadline s /\ s_id s' = s_id s /\ s_peer s' = s_peer s /\
  (i <> IRefused -> s_failed s' = None) /\ moved s s'.
Proof.
  induction fuel as [|f IH]; intros s b b' s' i E F I; cbn [br_units] in E.
  - injection E as <- <- <-. split; [destruct b; reflexivity|]. repeat split; auto. now apply moved_refl.
  - destruct (take_reliable_unit B (br_kr b) (br_max b) (br_accum b)) as [[(pt, n)|]|x].
    + pose proof (handle_data_const pt now s) as HC. pose proof (handle_data_inv side pt now s I) as HI. pose proof (handle_data_moved pt now s F) as HM.
      destruct (s_handle_data W pt now s) as [s1 [x|]]; cbn [fst] in *; destruct HC as (D1 & I1 & P1 & F1).
      * injection E as <- <- <-. split; [destruct b; reflexivity|]. repeat split; auto. congruence.
      * apply IH in E; auto. destruct E as (E & A1 & A2 & A3 & A4 & A5 & A6). split; [exact E|]. repeat split; auto; try congruence.
        eapply moved_trans; [|exact HM|exact A6]. auto.
    + injection E as <- <- <-. split; [destruct b; reflexivity|]. repeat split; auto. now apply moved_refl.
    + injection E as <- <- <-. split; [destruct b; reflexivity|]. repeat split; auto. now apply moved_refl.
Qed.
(** data moves the stream, the record layer and the buffer; the rest stays *)
Definition with_data (r : rlayer) (acc : bytes) (s : stream) (b : bridge) : bridge :=
  br_set_stream (Some s) (br_set_accum acc (br_set_rec r b)).
Lemma with_data_inv side r acc s s0 b : binv side b -> br_stream b = Some s0 -> br_failed b = false ->
  hush r -> (g_role (r_gate (br_rec b)) = Dialer -> g_role (r_gate r) = Dialer) ->
  sinv side s -> s_deadline s = s_deadline s0 -> s_failed s = None -> moved s0 s ->
  binv side (with_data r acc s b).
Proof.
  intros I S NF H RO SI DL F M. specialize (M F). destruct (bi_some _ _ I s0 S) as (PH & HU & D & SF). specialize (SF NF).
  pose proof (bi_fin _ _ I s0 S NF) as FI. pose proof (bi_recv _ _ I s0 S) as RE.
  constructor; unfold with_data; cbn [br_rec br_set_stream br_set_accum br_set_rec br_phase br_stream br_fin br_sent br_accum br_deadline br_failed br_eof].
  - now left.
  - intros X. change (br_failed b = true) in X. congruence.
  - discriminate.
  - intros s1 E. injection E as <-. split; [exact PH|]. split; [exact H|]. split; [congruence|auto].
  - intros s1 E _. injection E as <-. destruct (br_phase b) as [|[]]; auto; destruct FI as (FI1 & FI2); split; auto; unfold sent_phase in *;
      destruct (s_phase s0) as [k|k| | | |]; try contradiction; try (rewrite M; exact Logic.I); destruct M as [M|M]; rewrite M; exact Logic.I.
  - intros N. destruct (bi_dialer _ _ I N) as (A & A2). auto.
  - intros k s1 SI1 E _ FN. injection E as <-. pose proof (bi_began _ _ I k s0 SI1 S NF FN) as BG. rewrite BG in M. exact M.
  - intros s1 E. injection E as <-. destruct (br_phase b) as [|[]]; auto; unfold recv_phase in *;
      destruct (s_phase s0) as [[]|k| | | |]; try contradiction; rewrite M; exact Logic.I.
Qed.

Lemma failed_inv side r s b : br_failed b = false -> br_stream b = Some s -> hush (br_rec b) -> s_deadline s = Some (br_deadline b) ->
  (side <> None -> g_role (r_gate (br_rec b)) = Dialer /\ br_eof b = false) -> binv side (br_fail_retire r b).
Proof.
  intros NF S H D DI. unfold br_fail_retire, br_fail. replace (br_failed (br_retire b)) with false.
  set (b1 := match br_phase (br_retire b) with BEst LRecvClosed | BEst LBothClosed => br_retire b | _ => match br_stream (br_retire b) with Some s => br_set_stream (Some (s_discard s)) (br_retire b) | None => br_retire b end end).
  assert (HH : (br_stream b1 = Some s \/ br_stream b1 = Some (s_discard s)) /\ br_rec b1 = fst (rl_read (br_rec b)) /\
       br_deadline b1 = br_deadline b /\ br_eof b1 = br_eof b).
  { subst b1. cbn [br_retire br_set_rec br_set_fin br_phase br_stream]. destruct (br_phase b) as [|[]]; rewrite ?S; cbn; rewrite ?S; repeat split; auto. }
  destruct HH as (HS & HR & HD & HE). clearbody b1.
  constructor; cbn [br_rec br_set_phase br_set_rec br_phase br_stream br_fin br_sent br_accum br_deadline br_failed br_eof]; try discriminate.
  - left. rewrite HR. exact (clear_hush _ H).
  - reflexivity.
  - intros N. destruct HS; congruence.
  - intros s1 N. split; [discriminate|]. rewrite HR, HD. split; [exact (clear_hush _ H)|]. split; [|discriminate].
    destruct HS as [E|E]; rewrite E in N; injection N as <-; exact D.
  - intros N. rewrite HR, HE. exact (DI N).
  - exact (fun _ _ => Logic.I).
Qed.
Lemma feed_hush_role r d : hush r -> let '(r', e) := rl_feed r d in hush r' /\ r_out r' = r_out r /\ (g_role (r_gate r) = Dialer -> g_role (r_gate r') = Dialer).
Proof.
  intros H. destruct (feed_hush r d H) as (A & O). pose proof (feed_dialer r d) as R. destruct (rl_feed r d). auto.
Qed.
Lemma pump_in_inv side input eof now s b : binv side b -> br_stream b = Some s -> binv side (br_pump_in W B input eof now s b).
Proof.
  intros I S. unfold br_pump_in. destruct (br_terminal b) eqn:T; [exact I|].
  assert (NF : br_failed b = false) by (destruct (br_failed b) eqn:F; [apply failed_terminal in F; congruence|reflexivity]).
  destruct (bi_some _ _ I s S) as (PH & HU & D & SF). specialize (SF NF) as (SI & F0).
  pose proof (feed_hush_role (br_rec b) input HU) as FH. destruct (rl_feed (br_rec b) input) as [r rejected]. destruct FH as (HR & OR & RR).
  assert (DI : side <> None -> g_role (r_gate r) = Dialer /\ br_eof b = false).
  { intros N. destruct (bi_dialer _ _ I N) as (A & A2). auto. }
  destruct rejected.
  { eapply failed_inv with (s := s); auto. }
  cbn [rl_read fst snd br_rec br_set_rec].
  set (b1 := br_set_accum _ _).
  destruct (br_units W B (Datatypes.S (length (br_accum b1))) now s b1) as [[b2 s2] i] eqn:U.
  destruct (units_spec side _ _ _ _ _ _ _ U F0 SI) as (E2 & SI2 & D2 & ID2 & P2 & F2 & M2).
  rewrite E2 in *. clear E2 U.
  set (rr := mkR (r_gate r) [] (r_out r) (r_emitted r) []) in *.
  assert (HRR : hush rr) by exact HR.
  assert (FR : forall r', binv side (br_fail_retire r' (br_set_stream (Some s2) (br_set_accum (br_accum b2) b1)))).
  { intros r'. eapply failed_inv with (s := s2); auto. cbn. congruence. }
  assert (OKI : i <> IRefused -> forall s3, sinv side s3 -> s_deadline s3 = s_deadline s -> s_failed s3 = None -> moved s s3 ->
     binv side (br_set_stream (Some s3) (br_set_accum (br_accum b2) b1))).
  { intros NI s3 A1 A2 A3 A4. assert (binv side (with_data rr (br_accum b2) s3 b)) as X; [|exact X].
    eapply with_data_inv with (s0 := s); eauto. }
  destruct i.
  2,3: apply FR.
  specialize (F2 ltac:(discriminate)). specialize (OKI ltac:(discriminate)).
  destruct eof; cbn [negb].
  2: { apply OKI; auto. }
  destruct (br_accum (br_set_stream (Some s2) (br_set_accum (br_accum b2) b1))) eqn:AC; [|apply FR].
  pose proof (handle_data_const [] now s2) as HC. pose proof (handle_data_inv side [] now s2 SI2) as HI. pose proof (handle_data_moved [] now s2 F2) as HM.
  assert (ST : snd (s_handle_data W [] now s2) = None -> recv_phase (fst (s_handle_data W [] now s2))).
  { unfold s_handle_data, s_failed, recv_phase in *. destruct (s_phase s2) as [[]|k| | | |] eqn:P2'; try discriminate; unfold s_data_inner; destruct (s_late now s2); try discriminate; rewrite ?P2'; cbn; rewrite ?P2'; try discriminate; auto.
    destruct (blen (s_in s2) =? 0); [cbn; rewrite P2'; auto|discriminate]. }
  destruct (s_handle_data W [] now s2) as [s3 [x|]]; cbn [fst snd] in *; destruct HC as (D3 & I3 & P3 & F3).
  { eapply failed_inv with (s := s3); auto. cbn. congruence. }
  specialize (F3 eq_refl F2). specialize (ST eq_refl).
  assert (IB : binv side (br_set_stream (Some s3) (br_set_accum (br_accum b2) b1))).
  { apply OKI; auto; [congruence|]. exact (moved_trans _ _ _ F2 M2 HM). }
  change (br_set_stream (Some s3) (br_set_stream (Some s2) (br_set_accum (br_accum b2) b1))) with (br_set_stream (Some s3) (br_set_accum (br_accum b2) b1)).
  set (b3 := br_set_stream (Some s3) (br_set_accum (br_accum b2) b1)) in *.
  assert (S3 : br_stream b3 = Some s3) by reflexivity. assert (NF3 : br_failed b3 = false) by exact NF. clearbody b3. clear - IB S3 NF3 ST.
  destruct IB as [X1 X2 X3 X4 X5 X6 X7 X8]. unfold br_recv_fin. destruct (br_phase b3) as [|[]] eqn:PH; try (constructor; auto; rewrite PH; fail).
  all: try (constructor; rewrite ?PH; auto; fail).
  all: constructor; cbn; auto; try discriminate; try congruence; try (intros s E _; exact (X5 s E NF3)); try (intros k s A E _ G; exact (X7 k s A E NF3 G)).
  all: try (intros s E; destruct (X4 s E) as (A1 & A2 & A3 & A4); split; [discriminate|]; split; [exact A2|]; split; [exact A3|]; intros _; exact (A4 NF3)).
  all: intros s E; rewrite S3 in E; injection E as <-; exact ST.
Qed.

Lemma replay_inv side now b : binv side b -> binv side (br_replay W B now b).
Proof. intros I. unfold br_replay. destruct (br_stream b) as [s|] eqn:S; [now apply pump_in_inv|exact I]. Qed.
Lemma set_rec_inv side r b : binv side b -> br_stream b = None -> br_failed b = false -> rinv r ->
  (g_role (r_gate (br_rec b)) = Dialer -> g_role (r_gate r) = Dialer) -> binv side (br_set_rec r b).
Proof.
  intros I S NF H RO. destruct I as [X1 X2 X3 X4 X5 X6 X7 X8]. constructor; cbn [br_rec br_set_rec br_phase br_stream br_fin br_sent br_accum br_deadline br_failed br_eof]; auto.
  - intros X. change (br_failed b = true) in X. congruence.
  - intros s E. congruence.
  - intros N. destruct (X6 N). auto.
Qed.
Lemma intake_inv side data b : binv side b -> br_stream b = None -> br_failed b = false -> binv side (br_intake_handshaking data b).
Proof.
  intros I S NF. unfold br_intake_handshaking. pose proof (feed_rinv (br_rec b) data (bi_rec _ _ I)) as F. pose proof (feed_dialer (br_rec b) data) as R.
  destruct (rl_feed (br_rec b) data) as [r rej]. cbn [fst] in *. pose proof (set_rec_inv side r b I S NF F R) as J.
  destruct rej; [now apply fail_inv|exact J].
Qed.
Lemma data_inv side data now b : binv side b -> (side = None \/ br_stream b <> None \/ br_terminal b = true) -> binv side (br_data W B data now b).
Proof.
  intros I H. unfold br_data. destruct (br_terminal b) eqn:T; [exact I|].
  assert (NF : br_failed b = false) by (destruct (br_failed b) eqn:F; [apply failed_terminal in F; congruence|reflexivity]).
  destruct (br_stream b) as [s|] eqn:S; [now apply pump_in_inv|]. destruct H as [->|[H|H]]; [|congruence|discriminate].
  destruct data as [|d0 data]; [|now apply intake_inv].
  destruct (rl_is_handshaking (br_rec b)); [now apply fail_inv|]. apply intake_inv; auto.
  destruct I as [X1 X2 X3 X4 X5 X6 X7 X8]. constructor; auto. congruence.
Qed.
Lemma promote_inv side s b d : binv side b -> br_stream b = None -> br_failed b = false -> rl_is_handshaking (br_rec b) = false ->
  s_deadline s = Some d -> s_terminal s = false -> sinv side s -> (forall k, side = Some k -> s_phase s = SpSending k) -> binv side (br_promote s b).
Proof.
  intros I S NF HS D T SI BG. destruct (bi_none _ _ I S) as (P & FI & SE & AC).
  assert (F : s_failed s = None) by (unfold s_terminal, s_failed in *; destruct (s_phase s); auto; discriminate).
  unfold br_promote, s_timeout. rewrite T, D.
  constructor; cbn [br_rec br_set_stream br_set_phase br_set_deadline br_phase br_stream br_fin br_sent br_accum br_deadline br_failed br_eof]; try discriminate.
  - exact (bi_rec _ _ I).
  - intros s1 E. injection E as <-. split; [discriminate|]. split; [exact (rinv_ready _ (bi_rec _ _ I) HS)|]. auto.
  - auto.
  - exact (bi_dialer _ _ I).
  - intros k s1 K E _ _. injection E as <-. auto.
  - exact (fun _ _ => Logic.I).
Qed.
Lemma set_stream_same b s : br_stream b = Some s -> br_set_stream (Some s) b = b.
Proof. destruct b; cbn. now intros <-. Qed.
Lemma finish_inv side s b : binv side b -> br_stream b = Some s -> binv side (br_finish s b).
Proof.
  intros I S. unfold br_finish. destruct (br_fin b) eqn:FN; [exact I|]. destruct (br_failed b) eqn:F; [exact I|]. cbn [negb andb].
  pose proof (bi_fin _ _ I s S F) as FI. destruct (bi_some _ _ I s S) as (PH & _ & _ & SF). specialize (SF F).
  assert (SE : br_sent b = false) by (destruct (br_phase b) as [|[]]; destruct FI; congruence).
  rewrite SE. cbn [orb]. destruct (s_done s) eqn:DN; [|exact I].
  assert (SP : sent_phase s) by (unfold s_done, sent_phase in *; destruct (s_phase s); auto; discriminate).
  unfold br_send_fin. cbn [br_phase br_set_fin]. destruct I as [X1 X2 X3 X4 X5 X6 X7 X8]. pose proof F as F2. unfold br_failed in F2.
  destruct (br_phase b) as [|[]] eqn:P; try congruence; try (destruct FI; congruence).
  all: constructor; cbn [br_rec br_set_stream br_set_phase br_set_fin br_phase br_stream br_fin br_sent br_accum br_deadline br_failed br_eof]; auto; try discriminate; try congruence.
  all: try (intros s1 E; destruct (X4 s1 E) as (A1 & A2 & A3 & A4); split; [discriminate|]; split; [exact A2|]; split; [exact A3|]; intros _; exact (A4 F)).
  all: intros s1 E _; rewrite S in E; injection E as <-; auto.
Qed.
Lemma set_sent_same b : br_sent b = true -> br_set_sent true b = b.
Proof. destruct b; cbn. now intros ->. Qed.
(** what a write does *)
Lemma wrote_inv side now s s' cs u b : binv side b -> br_stream b = Some s -> br_failed b = false -> s_transmit now s = (s', cs) -> cs <> [] ->
  binv side (br_finish s' (br_set_rec (rl_write (br_rec b) u) (br_set_sent true (br_set_stream (Some s') b)))).
Proof.
  intros I S F T NE. pose proof (transmit_inv side now s) as TI. pose proof (transmit_cases now s) as TC. rewrite T in *. cbn [fst] in TI.
  destruct TC as [(E & _)|[(E & _)|(E & _ & NT & L & O & EP & ID & PE & DL & P)]]; [congruence|congruence|].
  destruct (bi_some _ _ I s S) as (PH & HU & D & SF). specialize (SF F) as (SI & F0). specialize (TI SI).
  pose proof (bi_fin _ _ I s S F) as FI.
  assert (C0 : match s_phase s with SpSending _ | SpResponding => True | _ => False end).
  { unfold sinv, s_terminal in *. destruct (s_phase s) as [k|k| | | |] eqn:PS; auto; try discriminate; destruct side as [k0|]; try contradiction.
    - destruct SI as (_ & X & _). congruence.
    - destruct SI as (X & _). congruence. }
  assert (FN : br_fin b = false).
  { destruct (br_phase b) as [|[]]; try (destruct FI; assumption). all: destruct FI as (_ & FI); unfold sent_phase in FI; destruct (s_phase s); contradiction. }
  assert (SP : sent_phase s'). { unfold sent_phase. rewrite P. destruct (s_phase s) as [[]| | | | |]; try contradiction; exact Logic.I. }
  assert (F' : s_failed s' = None). { unfold s_failed. unfold sent_phase in SP. destruct (s_phase s'); auto; contradiction. }
  assert (RP : recv_phase s -> recv_phase s'). { unfold recv_phase. rewrite P. destruct (s_phase s) as [[]| | | | |]; auto. }
  assert (SF' : sinv side s') by exact TI.
  unfold br_finish. cbn [br_fin br_set_rec br_set_sent br_set_stream br_sent]. rewrite FN. cbn [negb andb orb].
  assert (FF : br_failed (br_set_rec (rl_write (br_rec b) u) (br_set_sent true (br_set_stream (Some s') b))) = false) by exact F. rewrite FF. cbn [negb andb orb].
  unfold br_send_fin. cbn [br_phase br_set_fin br_set_rec br_set_sent br_set_stream].
  pose proof (bi_recv _ _ I s S) as RE. destruct I as [X1 X2 X3 X4 X5 X6 X7 X8].
  unfold br_failed in F.
  destruct (br_phase b) as [|[]] eqn:PB; try congruence; try (destruct FI; congruence).
  all: constructor; cbn [br_rec br_set_stream br_set_phase br_set_fin br_set_rec br_set_sent br_phase br_stream br_fin br_sent br_accum br_deadline br_failed br_eof]; auto; try discriminate; try congruence.
  all: try (left; exact HU).
  all: try (intros s1 E1; injection E1 as <-; split; [discriminate|]; split; [exact HU|]; split; [congruence|]; auto; fail).
  all: try (intros s1 E1 _; injection E1 as <-; auto; fail).
  all: intros s1 E1; injection E1 as <-; auto.
Qed.
Lemma pump_out_inv side now b : binv side b -> binv side (br_pump_out B rnd now b).
Proof.
  intros I. unfold br_pump_out. destruct (match br_phase b with BHandshaking => _ | _ => false end); [now apply fail_inv|].
  destruct (br_stream b) as [s|] eqn:S; [|exact I].
  destruct (br_failed b) eqn:F; [apply fail_retire_inv; [exact I|congruence]|].
  destruct (bi_some _ _ I s S) as (PH & HU & D & SF). specialize (SF F) as (SI & F0). rewrite F0. cbn [orb].
  destruct ((br_deadline b <=? now) && s_done s && negb (br_terminal b)).
  { eapply failed_inv; eauto. exact (bi_dialer _ _ I). }
  pose proof (transmit_cases now s) as TC. pose proof (wrote_inv side now s) as WI. destruct (s_transmit now s) as [s' cs] eqn:T.
  destruct TC as [(-> & -> & _)|[(-> & -> & _)|(E & NE & NT & L & O & EP & ID & PE & DL & P)]].
  - rewrite F0, (set_stream_same b s S). now apply finish_inv.
  - cbn [s_failed enter_failed s_phase s_set_phase]. eapply failed_inv with (s := enter_failed SeTimeout s); auto. exact (bi_dialer _ _ I).
  - destruct cs as [|c cs]; [congruence|]. destruct (br_unit B rnd now _ _ _) as [u|].
    + exact (WI s' _ u b I S F eq_refl NE).
    + eapply failed_inv with (s := s'); auto; [cbn; congruence|]. exact (bi_dialer _ _ I).
Qed.
(** once pumped: nothing waits to be sent, and the deadline is ahead *)
Definition pumped_out (now : N) (b : bridge) : Prop :=
  br_failed b = false -> (forall s, br_stream b = Some s -> s_out s = []) /\ (br_terminal b = false -> now < br_deadline b).
Lemma finish_same s b : br_stream (br_finish s b) = br_stream b /\ br_deadline (br_finish s b) = br_deadline b /\ br_failed (br_finish s b) = br_failed b /\
  (br_terminal (br_finish s b) = false -> br_terminal b = false) /\ br_rec (br_finish s b) = br_rec b.
Proof.
  unfold br_finish. destruct (_ && _); [|auto]. unfold br_send_fin, br_failed, br_terminal. cbn [br_phase br_set_fin]. destruct (br_phase b) as [|[]] eqn:P; cbn; rewrite ?P; auto.
Qed.
Lemma pump_out_post side now b : binv side b -> pumped_out now (br_pump_out B rnd now b).
Proof.
  intros I. unfold br_pump_out, pumped_out. destruct (br_phase b) as [|l] eqn:PB.
  { destruct (N.leb_spec (br_deadline b) now) as [LE|GT]; [intros X; now rewrite fail_failed in X|].
    destruct (br_stream b) as [s|] eqn:S; [destruct (bi_some _ _ I s S); congruence|]. intros _. split; [congruence|auto]. }
  destruct (br_stream b) as [s|] eqn:S; [|intros X; destruct (bi_none _ _ I S) as ([Y|Y] & _); congruence].
  destruct (br_failed b) eqn:F; [cbn [orb]; intros X; now rewrite fail_retire_failed in X|].
  destruct (bi_some _ _ I s S) as (PH & HU & D & SF). specialize (SF F) as (SI & F0). rewrite F0. cbn [orb].
  destruct ((br_deadline b <=? now) && s_done s && negb (br_terminal b)) eqn:G; [intros X; now rewrite fail_retire_failed in X|].
  pose proof (transmit_cases now s) as TC. destruct (s_transmit now s) as [s' cs] eqn:T.
  assert (LT : s_late now s = false -> now < br_deadline b). { unfold s_late. rewrite D. intros X. apply N.leb_gt in X. exact X. }
  destruct TC as [(-> & -> & Z)|[(-> & -> & _)|(E & NE & NT & L & O & EP & ID & PE & DL & P)]].
  - rewrite F0, (set_stream_same b s S). destruct (finish_same s b) as (E1 & E2 & E3 & E4 & _). rewrite E1, E2, E3, S. intros _. split.
    + intros s1 E. injection E as <-. destruct Z as [Z|(Z & _)]; [|exact Z]. unfold s_terminal, sinv in *. destruct (s_phase s); try discriminate; destruct side; tauto.
    + intros NT. destruct Z as [Z|(_ & Z)]; [|auto]. apply E4 in NT. rewrite NT in G. unfold s_terminal, s_failed, s_done in *.
      destruct (s_phase s); try discriminate. rewrite !Bool.andb_true_r in G. apply N.leb_gt in G. exact G.
  - cbn [s_failed enter_failed s_phase s_set_phase]. intros X; now rewrite fail_retire_failed in X.
  - destruct cs as [|c cs]; [congruence|]. destruct (br_unit B rnd now _ _ _) as [u|]; [|intros X; now rewrite fail_retire_failed in X].
    match goal with |- context [br_finish s' ?X] => destruct (finish_same s' X) as (E1 & E2 & E3 & E4 & _) end. rewrite E1, E2, E3. cbn [br_stream br_set_rec br_set_sent br_set_stream br_deadline].
    intros _. split; [|auto]. intros s1 E5. injection E5 as <-. exact O.
Qed.

(** a second request for bytes at the same time brings nothing *)
Lemma transmit_twice now s : let s1 := fst (s_transmit now s) in s_transmit now s1 = (s1, []).
Proof.
  pose proof (transmit_cases now s) as TC. destruct (s_transmit now s) as [s' cs]. cbn [fst].
  destruct TC as [(_ & -> & [Z|(Z & L)])|[(_ & -> & _)|(E & NE & NT & L & O & EP & ID & PE & DL & P)]]; unfold s_transmit.
  - now rewrite Z.
  - destruct (s_terminal s); [reflexivity|]. now rewrite L, Z.
  - reflexivity.
  - destruct (s_terminal s'); [reflexivity|]. unfold s_late in *. rewrite DL. destruct (s_deadline s) as [d|]; [rewrite L|]; now rewrite O.
Qed.

(** * What goes to the endpoint *)
Lemma ep_run_app_fst e l1 l2 : fst (ep_run C e (l1 ++ l2)) = fst (ep_run C (fst (ep_run C e l1)) l2).
Proof. rewrite !ep_run_fst. apply fold_left_app. Qed.
Lemma stream_ev_outs e ev now : let outs := snd (ep_step C e (EStreamEv ev now)) in
  outs = [] \/ outs = [OClose] \/ (exists m p st u j sid, outs = [OResponse m] /\ ev = SERequest p st u j sid).
Proof.
  cbn [ep_step]. unfold handle_stream_event. destruct ev as [p st u j sid|p st u j sid|sq t|sq|p d|]; cbn [snd]; auto.
  - destruct (negb (runs e)); [auto|]. destruct (e_merge _ _); auto.
  - destruct (negb (runs e)); [auto|]. destruct (e_merge _ _); [|auto]. right. right. repeat eexists.
Qed.
Lemma pump_out_failed now b : br_failed b = true -> let b' := br_pump_out B rnd now b in
  br_failed b' = true /\ r_out (br_rec b') = r_out (br_rec b) /\ br_stream b' = br_stream b /\ br_phase b' = br_phase b.
Proof.
  intros F. assert (PH : exists r, br_phase b = BEst (LFailed r)). { unfold br_failed in F. destruct (br_phase b) as [|[]]; try discriminate. eauto. }
  destruct PH as (r & PH). unfold br_pump_out. rewrite PH, F. cbn [orb]. destruct (br_stream b) as [s|] eqn:S; [|auto].
  unfold br_fail_retire, br_fail. replace (br_failed (br_retire b)) with true by (symmetry; exact F). cbn. auto.
Qed.
Lemma command_failed now outs b : br_failed b = true -> r_out (br_rec b) = [] -> let b' := br_command C W B rnd now outs b in
  br_failed b' = true /\ r_out (br_rec b') = [] /\ option_map s_ep (br_stream b') = option_map s_ep (br_stream b).
Proof.
  intros F O. unfold br_command. destruct outs as [|o outs]; [auto|]. destruct o; auto; destruct outs; auto.
  - unfold br_fail_retire, br_fail. replace (br_failed (br_retire b)) with true by (symmetry; exact F). cbn. auto.
  - destruct (br_stream b) as [s|] eqn:S; [|rewrite S; auto].
    match goal with |- context [br_pump_out B rnd now ?X] => destruct (pump_out_failed now X F) as (A & A1 & A2 & _) end. rewrite A, A1, A2. cbn. auto.
Qed.
(** the events of the stream, each handed over once, in order *)
Definition ev_of (now : N) (b : bridge) : list eop := match br_stream b with Some s => map (fun ev => EStreamEv ev now) (s_ep s) | None => [] end.
Lemma events_failed now n : forall b e, br_waiting b = n -> br_failed b = true -> r_out (br_rec b) = [] ->
  let '(b', e', l) := br_events C W B rnd n now b e in br_failed b' = true /\ r_out (br_rec b') = [] /\ l = ev_of now b /\ e' = fst (ep_run C e l) /\
    (br_stream b <> None -> br_stream b' <> None).
Proof.
  induction n as [|n IH]; intros b e HN F O; cbn [br_events].
  - repeat split; auto. unfold br_waiting, ev_of in *. destruct (br_stream b) as [s|]; [|reflexivity]. now destruct (s_ep s).
  - unfold br_waiting in HN. destruct (br_stream b) as [s|] eqn:S; [|discriminate]. destruct (s_ep s) as [|ev r] eqn:EP; [discriminate|].
    destruct (ep_step C e (EStreamEv ev now)) as [e1 outs] eqn:ES.
    destruct (command_failed now outs (br_set_stream (Some (s_set_ep r s)) b) F O) as (F1 & O1 & S1).
    set (b1 := br_command C W B rnd now outs (br_set_stream (Some (s_set_ep r s)) b)) in *. cbn in S1. destruct (br_stream b1) as [s1|] eqn:SB; [|discriminate]. cbn in S1. injection S1 as S1.
    assert (HW : br_waiting b1 = n). { unfold br_waiting. rewrite SB, S1. now injection HN. }
    specialize (IH b1 e1 HW F1 O1). destruct (br_events C W B rnd n now b1 e1) as [[b2 e2] l]. destruct IH as (F2 & O2 & L2 & E2 & NN).
    repeat split; auto.
    + unfold ev_of. rewrite S, EP. cbn [map]. f_equal. rewrite L2. unfold ev_of. now rewrite SB, S1.
    + cbn [ep_run]. rewrite ES, E2. now destruct (ep_run C e1 l).
    + intros _. apply NN. congruence.
Qed.
(** the exchange is over: its events go out, then the notice that it is over *)
Lemma drain_reap_spec side now b e : binv side b -> br_terminal b = true ->
  let '(b', e', l) := br_drain_reap C W B rnd now b e in
  e' = fst (ep_run C e l) /\
  l = match br_stream b with Some s => ev_of now b ++ [EStreamEv SEClosed now] | None => [] end /\
  (br_failed b' = true -> r_out (br_rec b') = []) /\
  (br_failed b = true -> br_failed b' = true) /\
  (br_failed b' = false -> r_out (br_rec b') = r_out (br_rec b)).
Proof.
  intros I T. unfold br_drain_reap. destruct (br_stream b) as [s|] eqn:S.
  2: { assert (F : br_failed b = true). { destruct (bi_none _ _ I S) as ([H|H] & _); [unfold br_terminal in T; rewrite H in T; discriminate|exact H]. }
       repeat split; auto. intros _. exact (bi_max _ _ I F). }
  destruct (br_failed b) eqn:F.
  - pose proof (events_failed now _ b e eq_refl F (bi_max _ _ I F)) as H. destruct (br_events C W B rnd (br_waiting b) now b e) as [[b1 e1] l]. destruct H as (F1 & O1 & L1 & E1 & _).
    repeat split; auto; [|now rewrite L1|congruence]. rewrite ep_run_app_fst. cbn. rewrite <- E1. now destruct (handle_stream_event C SEClosed now e1).
  - destruct (bi_some _ _ I s S) as (PH & HU & D & SF). specialize (SF F) as (SI & F0).
    assert (BC : br_phase b = BEst LBothClosed). { unfold br_terminal, br_failed in *. destruct (br_phase b) as [|[]]; try discriminate; reflexivity. }
    assert (SD : s_phase s = SpDone).
    { pose proof (bi_fin _ _ I s S F) as X1. pose proof (bi_recv _ _ I s S) as X2. rewrite BC in *. destruct X1 as (_ & X1). unfold sent_phase, recv_phase in *.
      destruct (s_phase s) as [[]| | | | |]; auto; contradiction. }
    assert (EV : s_ep s = [] \/ exists ev, s_ep s = [ev] /\ (forall p st u j sid, ev <> SERequest p st u j sid)).
    { unfold sinv in SI. rewrite SD in SI. destruct side as [[j|sq|]|]; destruct SI as (_ & A); cbn in A.
      - destruct A as (st & u & ->). right. eexists. split; [reflexivity|discriminate].
      - destruct A as (t & ->). right. eexists. split; [reflexivity|discriminate].
      - auto.
      - destruct A as [A|(d & A)]; [auto|]. right. rewrite A. eexists. split; [reflexivity|discriminate]. }
    unfold br_waiting, ev_of. rewrite S. destruct EV as [EV|(ev & EV & NR)]; rewrite EV; cbn [length map app].
    + cbn [br_events]. repeat split; auto; try congruence.
    + cbn [br_events]. rewrite S, EV. pose proof (stream_ev_outs e ev now) as OU. cbn [ep_run]. destruct (ep_step C e (EStreamEv ev now)) as [e1 outs] eqn:ES. cbn [snd] in OU.
      assert (Q1 : fst (ep_step C e1 (EStreamEv SEClosed now)) = e1) by reflexivity.
      destruct OU as [->|[->|(m & p & st & u & j & sid & _ & X)]]; [| |exfalso; exact (NR _ _ _ _ _ X)].
      * repeat split; auto; try (intros X; change (br_failed b = true) in X; congruence); try congruence. cbn [app ep_run]. now rewrite ES.
      * cbn [br_command]. repeat split; auto.
        -- cbn [app ep_run]. now rewrite ES.
        -- intros _. unfold br_fail_retire, br_fail. replace (br_failed _) with false by (symmetry; exact F). reflexivity.
        -- congruence.
        -- intros X. now rewrite fail_retire_failed in X.
Qed.
Lemma drain_payload_spec side now b e : binv side b -> pumped_out now b -> br_terminal b = false ->
  let '(b', e', l) := br_drain_payload C W B rnd now b e in
  e' = fst (ep_run C e l) /\ binv side b' /\ pumped_out now b' /\ (br_phase b <> BEst LRecvClosed -> l = [] /\ b' = b) /\
  l = match br_phase b with BEst LRecvClosed => ev_of now b | _ => [] end /\
  (br_stream b <> None -> br_stream b' <> None) /\ (side <> None -> b' = b).
Proof.
  intros I PO T. unfold br_drain_payload. destruct (br_phase b) as [|[]] eqn:PB; try (split; [reflexivity|split; [exact I|split; [exact PO|split; [auto|auto]]]]; fail).
  destruct (br_stream b) as [s|] eqn:S.
  2: { unfold br_waiting, ev_of. rewrite S. cbn [br_events]. split; [reflexivity|split; [exact I|split; [exact PO|split; [congruence|auto]]]]. }
  assert (F : br_failed b = false) by (unfold br_failed; now rewrite PB).
  destruct (bi_some _ _ I s S) as (PH & HU & D & SF). specialize (SF F) as (SI & F0). pose proof (bi_recv _ _ I s S) as RE. pose proof (bi_fin _ _ I s S F) as FI. rewrite PB in RE, FI.
  assert (SAME : binv side (br_set_stream (Some (s_set_ep [] s)) b) \/ side <> None).
  { destruct side as [k|]; [right; discriminate|left].
    assert (SI' : sinv None (s_set_ep [] s)) by (unfold sinv in *; cbn; destruct (s_phase s); tauto).
    destruct I as [X1 X2 X3 X4 X5 X6 X7 X8]. constructor; cbn [br_rec br_set_stream br_phase br_stream br_fin br_sent br_accum br_deadline br_failed br_eof]; auto; try discriminate; try congruence.
    - intros s1 E. injection E as <-. destruct (X4 s S) as (A1 & A2 & A3 & A4). split; [exact A1|]. split; [exact A2|]. split; [exact A3|]. auto.
    - intros s1 E X. injection E as <-. exact (X5 s S F).
    - intros s1 E. injection E as <-. exact (X8 s S). }
  unfold br_waiting, ev_of. rewrite S.
  destruct side as [k|].
  { (* an exchange this node began is still sending *)
    pose proof (bi_began _ _ I k s eq_refl S F (proj1 FI)) as BG. unfold sinv in SI. rewrite BG in SI. destruct SI as (_ & EP). rewrite EP. cbn [length br_events map].
    split; [reflexivity|split; [exact I|split; [exact PO|split; [congruence|split; [reflexivity|split; [congruence|congruence]]]]]]. }
  destruct SAME as [SAME|SAME]; [|congruence].
  assert (EV : s_ep s = [] \/ exists ev, s_ep s = [ev]).
  { unfold sinv in SI. destruct (s_phase s); try contradiction.
    - destruct SI; auto.
    - destruct SI as [A|(_ & st & u & j & A)]; eauto.
    - destruct SI as (_ & [A|(d & A)]); eauto.
    - destruct SI; auto. }
  destruct EV as [EV|(ev & EV)]; rewrite EV; cbn [length map app].
  { cbn [br_events]. split; [reflexivity|split; [exact I|split; [exact PO|split; [congruence|split; [reflexivity|split; [congruence|congruence]]]]]]. }
  cbn [br_events]. rewrite S, EV. pose proof (stream_ev_outs e ev now) as OU. cbn [ep_run]. destruct (ep_step C e (EStreamEv ev now)) as [e1 outs] eqn:ES. cbn [snd] in OU.
  destruct OU as [->|[->|(m & p & st & u & j & sid & -> & ->)]]; cbn [br_command].
  - split; [cbn [ep_run]; now rewrite ES|]. split; [exact SAME|]. split.
    { intros _. split; [intros s1 E; injection E as <-; exact (proj1 (PO F) s S)|exact (proj2 (PO F))]. }
    split; [congruence|]. split; [reflexivity|]. split; cbn; congruence.
  - split; [cbn [ep_run]; now rewrite ES|]. split; [eapply failed_inv with (s := s_set_ep [] s); auto; exact (bi_dialer _ _ I)|]. split.
    { intros X. now rewrite fail_retire_failed in X. }
    split; [congruence|]. split; [reflexivity|]. split; [|congruence]. unfold br_fail_retire, br_fail.
    intros _. destruct (br_failed _); [discriminate|]. cbn [br_stream br_set_phase br_set_rec]. cbn [br_retire br_phase br_set_stream br_set_fin br_set_rec]. rewrite PB. discriminate.
  - cbn [br_stream br_set_stream].
    match goal with |- context [br_pump_out B rnd now ?X] => set (b1 := X) end.
    assert (I1 : binv None b1).
    { assert (P : s_phase s = SpResponding /\ s_out s = []).
      { unfold sinv in SI. destruct (s_phase s); try contradiction.
        - destruct SI; congruence.
        - destruct SI as [A|(A & _)]; [congruence|auto].
        - destruct SI as (_ & [A|(d & A)]); congruence.
        - destruct SI; congruence. }
      destruct P as (P & SO).
      assert (SI' : sinv None (s_set_deadline (Some (tadd now (c_stream_timeout C))) (s_set_out (s_out s ++ [compress_payload B (br_comp b) (wire_enc W m)]) (s_set_ep [] s)))).
      { unfold sinv. cbn. rewrite P. auto. }
      destruct I as [X1 X2 X3 X4 X5 X6 X7 X8]. subst b1.
      constructor; cbn [br_rec br_set_stream br_set_deadline br_set_pre br_phase br_stream br_fin br_sent br_accum br_deadline br_failed br_eof]; auto; try discriminate; try congruence.
      - intros s1 E. injection E as <-. destruct (X4 s S) as (A1 & A2 & A3 & A4). split; [exact A1|]. split; [exact A2|]. split; [reflexivity|]. intros _. split; [exact SI'|exact F0].
      - intros s1 E X. injection E as <-. rewrite PB. exact FI.
      - intros s1 E. injection E as <-. rewrite PB. exact RE. }
    pose proof (pump_out_inv None now b1 I1) as I2. pose proof (pump_out_post None now b1 I1) as P2.
    assert (FR : br_failed b1 = false) by exact F.
    assert (S2 : br_stream (br_pump_out B rnd now b1) <> None).
    { intros N. destruct (bi_none _ _ I2 N) as (Z & _). revert N. unfold br_pump_out. subst b1. cbn [br_phase br_set_stream br_set_pre br_set_deadline br_stream]. rewrite PB.
      repeat match goal with |- context [if ?c then _ else _] => destruct c end; unfold br_fail_retire, br_fail, br_finish;
       repeat match goal with |- context [let '(_, _) := s_transmit now ?X in _] => destruct (s_transmit now X) as [sx [|cx csx]] end;
       repeat match goal with |- context [match s_failed ?X with _ => _ end] => destruct (s_failed X) end;
       repeat match goal with |- context [match br_unit _ _ _ _ _ ?X with _ => _ end] => destruct (br_unit B rnd now _ _ X) end;
       repeat match goal with |- context [if ?c then _ else _] => destruct c end;
       unfold br_send_fin; cbn; rewrite ?PB; cbn; try congruence; destruct (br_phase b) as [|[]]; cbn; congruence. }
    split; [cbn [ep_run]; now rewrite ES|]. split; [exact I2|]. split; [exact P2|]. split; [congruence|]. split; [reflexivity|]. split; [auto|congruence].
Qed.

(** * Nothing is applied before the end of the peer's stream *)
(** the peer has not ended its stream *)
Record noeof (b : bridge) : Prop := {
  ne_eof : br_eof b = false;
  ne_phase : br_phase b <> BEst LRecvClosed /\ br_phase b <> BEst LBothClosed;
  ne_failed : br_failed b = true -> forall s, br_stream b = Some s -> s_ep s = [] }.
Lemma noeof_fail r b : noeof b -> noeof (br_fail r b).
Proof.
  intros [E (P1 & P2) F]. unfold br_fail. destruct (br_failed b) eqn:FB; [constructor; auto|].
  assert (PH : match br_phase b with BEst LRecvClosed | BEst LBothClosed => b | _ => match br_stream b with Some s => br_set_stream (Some (s_discard s)) b | None => b end end
     = match br_stream b with Some s => br_set_stream (Some (s_discard s)) b | None => b end) by (destruct (br_phase b) as [|[]]; congruence).
  rewrite PH. destruct (br_stream b) as [s|] eqn:S; constructor; cbn; auto; try (split; discriminate).
  - intros _ s1 X. injection X as <-. reflexivity.
  - intros _ s1 X. congruence.
Qed.
Lemma noeof_retire r b : noeof b -> noeof (br_fail_retire r b).
Proof. intros [E P F]. apply noeof_fail. constructor; cbn; auto. Qed.
Lemma noeof_with b b' : noeof b -> br_eof b' = br_eof b -> br_phase b' = br_phase b -> br_failed b = false -> noeof b'.
Proof. intros [E P F] E1 P1 F1. unfold br_failed in F1. constructor; [congruence|now rewrite P1|]. unfold br_failed. rewrite P1, F1. discriminate. Qed.
Lemma noeof_open b : noeof b -> br_terminal b = false -> br_failed b = false.
Proof. intros _. unfold br_terminal, br_failed. destruct (br_phase b) as [|[]]; auto. Qed.
Lemma units_same fuel now : forall s b b' s' i, br_units W B fuel now s b = (b', s', i) -> br_eof b' = br_eof b /\ br_phase b' = br_phase b.
Proof.
  induction fuel as [|f IH]; intros s b b' s' i; cbn [br_units]; [intros E; injection E as <- <- <-; auto|].
  destruct (take_reliable_unit B (br_kr b) (br_max b) (br_accum b)) as [[(pt, n)|]|x]; [|intros E; injection E as <- <- <-; auto|intros E; injection E as <- <- <-; auto].
  destruct (s_handle_data W pt now s) as [s1 [x|]]; [intros E; injection E as <- <- <-; auto|]. intros E. apply IH in E. exact E.
Qed.
Lemma noeof_pump_in input now s b : noeof b -> noeof (br_pump_in W B input false now s b).
Proof.
  intros H. unfold br_pump_in. destruct (br_terminal b) eqn:T; [exact H|]. pose proof (noeof_open b H T) as F.
  destruct (rl_feed (br_rec b) input) as [r rej]. destruct rej; [apply noeof_retire, (noeof_with b); auto|].
  cbn [rl_read br_rec br_set_rec]. match goal with |- context [br_units W B ?f now s ?X] => set (b1 := X) end. destruct (br_units W B _ now s b1) as [[b2 s2] i] eqn:U.
  apply units_same in U. destruct U as (U1 & U2). cbn [negb].
  assert (noeof (br_set_stream (Some s2) b2)) by (apply (noeof_with b); auto).
  destruct i; [assumption| |]; now apply noeof_retire.
Qed.
Lemma noeof_data d data now b : noeof b -> noeof (br_data W B (d :: data) now b).
Proof.
  intros H. unfold br_data. destruct (br_terminal b) eqn:T; [exact H|]. pose proof (noeof_open b H T) as F.
  destruct (br_stream b) as [s|]; [now apply noeof_pump_in|]. unfold br_intake_handshaking. destruct (rl_feed (br_rec b) (d :: data)) as [r rej].
  assert (noeof (br_set_rec r b)) by (apply (noeof_with b); auto). destruct rej; [now apply noeof_fail|assumption].
Qed.
Lemma noeof_replay now b : noeof b -> noeof (br_replay W B now b).
Proof. intros H. unfold br_replay. destruct (br_stream b) as [s|]; [|exact H]. rewrite (ne_eof _ H). now apply noeof_pump_in. Qed.
Lemma noeof_finish s b : noeof b -> noeof (br_finish s b).
Proof.
  intros H. unfold br_finish. destruct (br_fin b); [exact H|]. destruct (br_failed b) eqn:F; [exact H|]. cbn [negb andb]. destruct (br_sent b || s_done s); [|exact H].
  unfold br_send_fin. cbn [br_phase br_set_fin]. destruct H as [E (P1 & P2) FF]. destruct (br_phase b) as [|[]] eqn:PB; try congruence; constructor; cbn; rewrite ?PB; auto; try (split; discriminate); try discriminate.
  all: unfold br_failed in *; cbn; rewrite ?PB; try discriminate.
Qed.
Lemma noeof_pump_out now b : noeof b -> noeof (br_pump_out B rnd now b).
Proof.
  intros H. unfold br_pump_out. destruct (match br_phase b with BHandshaking => _ | _ => false end); [now apply noeof_fail|].
  destruct (br_stream b) as [s|] eqn:S; [|exact H].
  destruct (br_failed b) eqn:F; [now apply noeof_retire|]. cbn [orb].
  destruct (match s_failed s with Some _ => true | None => false end); [now apply noeof_retire|].
  destruct (_ && _ && _); [now apply noeof_retire|]. destruct (s_transmit now s) as [s1 [|c cs]].
  - destruct (s_failed s1); [apply noeof_retire, (noeof_with b); auto|]. apply noeof_finish, (noeof_with b); auto.
  - destruct (br_unit B rnd now _ _ _); [apply noeof_finish, (noeof_with b); auto|]. apply noeof_retire, (noeof_with b); auto.
Qed.
Lemma noeof_promote s b : noeof b -> noeof (br_promote s b).
Proof. intros [E P F]. constructor; cbn; auto; try (split; discriminate). discriminate. Qed.
Lemma noeof_new r d o kr max : noeof (br_new r d o kr max).
Proof. constructor; cbn; auto; try (split; discriminate). discriminate. Qed.
Lemma noeof_terminal b : noeof b -> br_terminal b = true -> br_failed b = true.
Proof. intros [E (P1 & P2) F]. unfold br_terminal, br_failed. destruct (br_phase b) as [|[]]; congruence. Qed.

(** * Bridges that will send nothing more *)
Definition past_reply (s : stream) : Prop := match s_phase s with SpFirst | SpResponding => False | _ => True end.
Definition mute (b : bridge) : Prop :=
  r_out (br_rec b) = [] /\ (br_failed b = true \/ exists s, br_stream b = Some s /\ s_out s = [] /\ past_reply s).
Lemma failed_mute side b : binv side b -> br_failed b = true -> mute b.
Proof. intros I F. split; [exact (bi_max _ _ I F)|auto]. Qed.
Lemma fin_mute side b : binv side b -> br_fin b = true -> r_out (br_rec b) = [] -> mute b.
Proof.
  intros I FN R. split; [exact R|]. destruct (br_failed b) eqn:F; [auto|right].
  destruct (br_stream b) as [s|] eqn:S; [|destruct (bi_none _ _ I S) as (_ & X & _); congruence].
  exists s. split; [reflexivity|]. destruct (bi_some _ _ I s S) as (_ & _ & _ & SF). destruct (SF F) as (SI & _).
  pose proof (bi_fin _ _ I s S F) as FI. destruct (br_phase b) as [|[]]; try (destruct FI; congruence); destruct FI as (_ & FI);
    unfold sent_phase, past_reply, sinv in *; destruct (s_phase s); try contradiction; destruct side; tauto.
Qed.
Lemma began_mute k b s : binv (Some k) b -> br_stream b = Some s -> s_out s = [] -> r_out (br_rec b) = [] -> mute b.
Proof.
  intros I S O R. split; [exact R|]. destruct (br_failed b) eqn:F; [auto|right]. exists s. split; [exact S|]. split; [exact O|].
  destruct (bi_some _ _ I s S) as (_ & _ & _ & SF). destruct (SF F) as (SI & _). unfold sinv, past_reply in *. destruct (s_phase s); auto.
Qed.
Lemma handle_data_out data now s : past_reply s -> let '(s', e) := s_handle_data W data now s in e = None -> s_out s' = s_out s /\ past_reply s'.
Proof.
  intros P. pose proof (handle_data_cases data now s) as H. destruct (s_handle_data W data now s) as [s' e]. intros ->.
  destruct H as [(_ & [->|(NT & T)])|(x & X & _)]; [auto| |discriminate]. destruct (taken_out data now s s') as (O & PH); [unfold past_reply in P; destruct (s_phase s); auto|exact T|].
  split; [exact O|]. unfold past_reply in *. destruct (s_phase s'); auto; rewrite <- PH in P; exact P.
Qed.
Lemma units_out fuel now : forall s b b' s' i, br_units W B fuel now s b = (b', s', i) -> past_reply s -> i <> IRefused -> s_out s' = s_out s /\ past_reply s'.
Proof.
  induction fuel as [|f IH]; intros s b b' s' i E P NI; cbn [br_units] in E; [injection E as <- <- <-; auto|].
  destruct (take_reliable_unit B (br_kr b) (br_max b) (br_accum b)) as [[(pt, n)|]|x]; [|injection E as <- <- <-; auto|injection E as <- <- <-; auto].
  pose proof (handle_data_out pt now s P) as H. destruct (s_handle_data W pt now s) as [s1 [x|]]; [injection E as <- <- <-; congruence|].
  destruct (H eq_refl) as (O1 & P1). destruct (IH _ _ _ _ _ E P1 NI) as (O2 & P2). split; [congruence|exact P2].
Qed.
Lemma mute_pump_in side input eof now s b : binv side b -> mute b -> br_stream b = Some s -> mute (br_pump_in W B input eof now s b).
Proof.
  intros I M S. pose proof (pump_in_inv side input eof now s b I S) as J. destruct (br_failed (br_pump_in W B input eof now s b)) eqn:FJ; [exact (failed_mute _ _ J FJ)|].
  revert J FJ. unfold br_pump_in. destruct (br_terminal b) eqn:T; [auto|].
  assert (NF : br_failed b = false) by (destruct (br_failed b) eqn:F; [apply failed_terminal in F; congruence|reflexivity]).
  destruct (bi_some _ _ I s S) as (PH & HU & D & SF). destruct M as (R & [M|(s0 & S0 & O & PR)]); [congruence|]. assert (s0 = s) as -> by congruence.
  pose proof (feed_hush_role (br_rec b) input HU) as FH. destruct (rl_feed (br_rec b) input) as [r rejected]. destruct FH as (HR & OR & _).
  destruct rejected; [intros _ X; now rewrite fail_retire_failed in X|]. cbn [rl_read br_rec br_set_rec].
  match goal with |- context [br_units W B ?f now s ?X] => set (b1 := X) end. destruct (br_units W B _ now s b1) as [[b2 s2] i] eqn:U.
  pose proof (units_spec side _ _ _ _ _ _ _ U) as US. destruct (SF NF) as (SI & F0). destruct (US F0 SI) as (E2 & _).
  assert (R2 : r_out (br_rec b2) = []) by (rewrite E2; cbn; congruence). clear US.
  destruct i; [|intros _ X; now rewrite fail_retire_failed in X|intros _ X; now rewrite fail_retire_failed in X].
  destruct (units_out _ _ _ _ _ _ _ U PR) as (O2 & P2); [discriminate|].
  destruct (negb eof); [intros _ _; split; [exact R2|right; exists s2; cbn; split; [reflexivity|split; [congruence|exact P2]]]|].
  destruct (br_accum (br_set_stream (Some s2) b2)); [|intros _ X; now rewrite fail_retire_failed in X].
  pose proof (handle_data_out [] now s2 P2) as HO. destruct (s_handle_data W [] now s2) as [s3 [x|]]; [intros _ X; now rewrite fail_retire_failed in X|].
  destruct (HO eq_refl) as (O3 & P3). intros _ _. unfold br_recv_fin. cbn [br_phase br_set_stream].
  assert (G : forall p, mute (br_set_phase p (br_set_stream (Some s3) (br_set_stream (Some s2) b2)))).
  { intros p. split; [exact R2|]. right. exists s3. cbn. split; [reflexivity|split; [congruence|exact P3]]. }
  destruct (br_phase b2) as [|[]] eqn:PB; try apply G; (split; [exact R2|]; right; exists s3; cbn; split; [reflexivity|split; [congruence|exact P3]]).
Qed.
Lemma mute_data side data now b : binv side b -> mute b -> mute (br_data W B data now b).
Proof.
  intros I M. unfold br_data. destruct (br_terminal b) eqn:T; [exact M|]. destruct (br_stream b) as [s|] eqn:S; [eapply mute_pump_in; eauto|].
  destruct M as (_ & [M|(s0 & S0 & _)]); [apply failed_terminal in M; congruence|congruence].
Qed.
Lemma mute_replay side now b : binv side b -> mute b -> mute (br_replay W B now b).
Proof. intros I M. unfold br_replay. destruct (br_stream b) as [s|] eqn:S; [eapply mute_pump_in; eauto|exact M]. Qed.
Lemma mute_pump_out side now b : binv side b -> mute b -> mute (br_pump_out B rnd now b).
Proof.
  intros I M. pose proof (pump_out_inv side now b I) as J. destruct (br_failed (br_pump_out B rnd now b)) eqn:FJ; [exact (failed_mute _ _ J FJ)|].
  revert J FJ. unfold br_pump_out. destruct (match br_phase b with BHandshaking => _ | _ => false end); [intros _ X; now rewrite fail_failed in X|].
  destruct (br_stream b) as [s|] eqn:S; [|auto].
  destruct (br_failed b) eqn:F; [cbn [orb]; intros _ X; now rewrite fail_retire_failed in X|].
  destruct (bi_some _ _ I s S) as (PH & HU & D & SF). specialize (SF F) as (SI & F0). rewrite F0. cbn [orb].
  destruct (_ && _ && _); [intros _ X; now rewrite fail_retire_failed in X|].
  destruct M as (R & [M|(s0 & S0 & O & PR)]); [congruence|]. assert (s0 = s) as -> by congruence.
  pose proof (transmit_cases now s) as TC. destruct (s_transmit now s) as [s' cs].
  destruct TC as [(-> & -> & _)|[(-> & -> & _)|(E & NE & _)]]; [| |congruence].
  - rewrite F0, (set_stream_same b s S). intros _ _. destruct (finish_same s b) as (E1 & _ & E3 & _ & E5). split; [congruence|]. right. exists s. rewrite E1. auto.
  - cbn. intros _ X. now rewrite fail_retire_failed in X.
Qed.
Lemma mute_drain side now b e : binv side b -> pumped_out now b -> br_terminal b = false -> mute b -> mute (fst (fst (br_drain_payload C W B rnd now b e))).
Proof.
  intros I PO T M. pose proof (drain_payload_spec side now b e I PO T) as H. unfold br_drain_payload in *. destruct (br_phase b) as [|[]] eqn:PB; try exact M.
  assert (F : br_failed b = false) by (unfold br_failed; now rewrite PB).
  destruct M as (R & [M|(s & S & O & PR)]); [congruence|].
  destruct (bi_some _ _ I s S) as (PH & HU & D & SF). specialize (SF F) as (SI & F0). pose proof (bi_recv _ _ I s S) as RE. pose proof (bi_fin _ _ I s S F) as FI. rewrite PB in RE, FI.
  assert (MB : mute b) by (split; [exact R|eauto]).
  unfold br_waiting in *. rewrite S in *. destruct side as [k|].
  { destruct (br_events C W B rnd (length (s_ep s)) now b e) as [[b' e'] l]. destruct H as (_ & _ & _ & _ & _ & _ & H). cbn. rewrite H by discriminate. exact MB. }
  unfold recv_phase, past_reply, sinv in *. destruct (s_phase s) as [| | | | |] eqn:P; try contradiction.
  destruct SI as (_ & [EP|(d & EP)]); rewrite EP; cbn [length br_events]; [exact MB|]. rewrite S, EP. cbn. split; [exact R|]. right. eexists. cbn. split; [reflexivity|]. split; [exact O|]. unfold past_reply. cbn. now rewrite P.
Qed.

(** * What never goes back *)
(** the stream stays, and so does the end of the sending half *)
Definition onward (b b' : bridge) : Prop := (br_stream b' = None <-> br_stream b = None) /\ (br_fin b = true -> br_fin b' = true).
Lemma onward_refl b : onward b b.
Proof. split; tauto. Qed.
Lemma onward_trans a b c : onward a b -> onward b c -> onward a c.
Proof. intros (A1 & A2) (B1 & B2). split; [tauto|auto]. Qed.
Lemma onward_fail r b : onward b (br_fail r b).
Proof.
  unfold br_fail. destruct (br_failed b); [apply onward_refl|].
  destruct (br_phase b) as [|[]]; destruct (br_stream b) as [s|] eqn:S; split; cbn; rewrite ?S; auto; try tauto; split; discriminate.
Qed.
Lemma onward_fail_retire r b : onward b (br_fail_retire r b).
Proof. unfold br_fail_retire. eapply onward_trans; [|apply onward_fail]. split; cbn; tauto. Qed.
Lemma onward_pump_in input eof now s b : br_stream b = Some s -> onward b (br_pump_in W B input eof now s b).
Proof.
  intros S. unfold br_pump_in. destruct (br_terminal b); [apply onward_refl|]. destruct (rl_feed (br_rec b) input) as [r rej].
  destruct rej; [eapply onward_trans; [|apply onward_fail_retire]; split; cbn; tauto|]. destruct (rl_read (br_rec (br_set_rec r b))) as [r2 su].
  set (b1 := br_set_accum _ _). assert (O1 : br_fin b1 = br_fin b) by reflexivity. clearbody b1.
  destruct (br_units W B (Datatypes.S (length (br_accum b1))) now s b1) as [[b2 s2] i] eqn:U.
  assert (U2 : br_fin b2 = br_fin b1).
  { revert U. generalize (Datatypes.S (length (br_accum b1))) as f. clear. intros f. revert s b1. induction f as [|f IH]; intros s b1 U; cbn [br_units] in U; [injection U as <- _ _; reflexivity|].
    destruct (take_reliable_unit B (br_kr b1) (br_max b1) (br_accum b1)) as [[(pt, n)|]|x]; [|injection U as <- _ _; reflexivity|injection U as <- _ _; reflexivity].
    destruct (s_handle_data W pt now s) as [s1 [x|]]; [injection U as <- _ _; reflexivity|]. apply IH in U. exact U. }
  assert (O2 : forall s', onward b (br_set_stream (Some s') b2)) by (intros s'; split; [rewrite S; split; discriminate|cbn; congruence]).
  destruct i; [|eapply onward_trans; [apply O2|apply onward_fail_retire]|eapply onward_trans; [apply O2|apply onward_fail_retire]].
  destruct (negb eof); [apply O2|]. destruct (br_accum (br_set_stream (Some s2) b2)); [|eapply onward_trans; [apply O2|apply onward_fail_retire]].
  destruct (s_handle_data W [] now s2) as [s3 e]. destruct e; [eapply onward_trans; [apply O2|apply onward_fail_retire]|].
  eapply onward_trans; [apply (O2 s3)|]. unfold br_recv_fin. cbn [br_phase br_set_stream]. destruct (br_phase b2) as [|[]]; split; cbn; tauto.
Qed.
Lemma onward_replay now b : onward b (br_replay W B now b).
Proof. unfold br_replay. destruct (br_stream b) as [s|] eqn:S; [now apply onward_pump_in|apply onward_refl]. Qed.
Lemma onward_intake data b : onward b (br_intake_handshaking data b).
Proof. unfold br_intake_handshaking. destruct (rl_feed (br_rec b) data) as [r rej]. destruct rej; [eapply onward_trans; [|apply onward_fail]|]; split; cbn; tauto. Qed.
Lemma onward_data data now b : onward b (br_data W B data now b).
Proof.
  unfold br_data. destruct (br_terminal b); [apply onward_refl|]. destruct (br_stream b) as [s|] eqn:S; [now apply onward_pump_in|].
  destruct data; [destruct (rl_is_handshaking (br_rec b)); [apply onward_fail|]|apply onward_intake].
  eapply onward_trans; [|apply onward_intake]. split; cbn; tauto.
Qed.
Lemma onward_finish s b : onward b (br_finish s b).
Proof. unfold br_finish. destruct (_ && _); [|apply onward_refl]. unfold br_send_fin. cbn [br_phase br_set_fin]. destruct (br_phase b) as [|[]]; split; cbn; tauto. Qed.
Lemma onward_pump_out now b : onward b (br_pump_out B rnd now b).
Proof.
  unfold br_pump_out. destruct (match br_phase b with BHandshaking => _ | _ => _ end); [apply onward_fail|].
  destruct (br_stream b) as [s|] eqn:S; [|apply onward_refl]. destruct (_ || _); [apply onward_fail_retire|]. destruct (_ && _ && _); [apply onward_fail_retire|].
  destruct (s_transmit now s) as [s1 cs]. assert (O2 : onward b (br_set_stream (Some s1) b)) by (split; [rewrite S; split; discriminate|cbn; auto]).
  destruct cs.
  - destruct (s_failed s1); (eapply onward_trans; [exact O2|]); [apply onward_fail_retire|apply onward_finish].
  - destruct (br_unit _ _ _ _ _ _); (eapply onward_trans; [exact O2|]).
    + eapply onward_trans; [|apply onward_finish]. split; cbn; tauto.
    + eapply onward_trans; [|apply onward_fail_retire]. split; cbn; tauto.
Qed.
Lemma onward_command now outs b : onward b (br_command C W B rnd now outs b).
Proof.
  unfold br_command. destruct outs as [|[] [|]]; try apply onward_refl.
  - apply onward_fail_retire.
  - destruct (br_stream b) as [s|] eqn:S; [|apply onward_refl]. eapply onward_trans; [|apply onward_pump_out]. split; cbn; [rewrite S; split; discriminate|auto].
Qed.
Lemma onward_events now n : forall b e, onward b (fst (fst (br_events C W B rnd n now b e))).
Proof.
  induction n as [|n IH]; intros b e; [apply onward_refl|]. cbn [br_events]. destruct (br_stream b) as [s|] eqn:S; [|apply onward_refl].
  destruct (s_ep s) as [|ev r]; [apply onward_refl|]. destruct (ep_step C e (EStreamEv ev now)) as [e1 outs].
  set (b1 := br_command _ _ _ _ _ _ _). specialize (IH b1 e1). destruct (br_events C W B rnd n now b1 e1) as [[b2 e2] l]. cbn [fst] in *.
  eapply onward_trans; [|exact IH]. eapply onward_trans; [|apply onward_command]. split; cbn; [rewrite S; split; discriminate|auto].
Qed.
Lemma onward_payload now b e : onward b (fst (fst (br_drain_payload C W B rnd now b e))).
Proof. unfold br_drain_payload. destruct (br_phase b) as [|[]]; try apply onward_refl. apply onward_events. Qed.
End Bridge.
