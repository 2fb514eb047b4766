(** One message over an accepted connection: whatever the pieces its bytes come
    in, the bridge (BridgeModel.v) and the coordinator (CoordModel.v) hand over
    the message and nothing else. *)
From Coq Require Import Permutation.
From Verif Require Import CodecModel.
From Verif Require Import Base BaseFacts MapFacts LabelSpec LabelFacts StreamModel TransformModel CoreFacts EndpointInv EndpointHist EndpointDetect EndpointOutcome BridgeModel BridgeFacts CoordModel CoordFacts CoordRuns CoordSteps CoordFrame CoordClaims.
Local Open Scope N_scope.

(** a header not yet whole *)
Lemma classify_short skip l fed c : valid_label l -> c <> [] -> fed ++ c = header l -> classify_header fed (Some l) skip = VIncomplete.
Proof.
  intros V NE E. pose proof (classify_extend fed c (Some l) skip) as X. pose proof (classify_header_bytes l [] (Some l) skip V) as F. rewrite app_nil_r in F. rewrite E, F in X.
  destruct (classify_header fed (Some l) skip) as [n| |e] eqn:CE; [|reflexivity|].
  - destruct (classify_accepted _ _ _ _ CE) as [(p & -> & _)|(-> & _ & H)].
    + exfalso. unfold header in E. cbn in E. injection E as E. rewrite <- app_assoc in E. apply (f_equal (@length N)) in E. rewrite !app_length in E. destruct c; [congruence|cbn in E; lia].
    + exfalso. destruct H as (b & r & -> & NB). unfold header in E. cbn in E. injection E as E _. congruence.
  - destruct (bytes_eqb_spec l l) as [_|N]; [discriminate X|congruence].
Qed.

Section Deliver.
Context (W : wcodec) (B : backends) (rnd : N -> N -> option bytes).
(** [lab], [skip]: the label options; [kr]: the keys; [max]: the frame limit;
    [T]: a time before all deadlines; [u]: the unit sent; [pt]: the frame in it;
    [from], [lid]: the peer and the local id; [ev]: what the frame says, given the
    id of the stream; [dn]: nothing is to be answered *)
Context (lab : option bytes) (skip : bool) (kr : option keyring) (max T : N) (u pt : bytes) (from lid : N) (ev : N -> sevent) (dn : bool).
Definition hdr : bytes := match effective_label lab with Some l => header l | None => [] end.
Definition got_stream (id d : N) : stream := mkStream id from lid max (if dn then SpDone else SpResponding) [] [] (Some d) [ev id] (if dn then [SlClosed] else []).
Lemma got_fin id d now : now < d -> s_handle_data W [] now (got_stream id d) = (got_stream id d, None).
Proof. intros L. unfold s_handle_data, s_data_inner, s_late. destruct dn eqn:D; unfold got_stream; rewrite D; cbn; [reflexivity|]. destruct (N.leb_spec d now); [lia|reflexivity]. Qed.
Hypothesis HL : forall l, effective_label lab = Some l -> valid_label l.
Hypothesis HU : u <> [].
Hypothesis Htake : take_reliable_unit B kr max u = Ok (Some (pt, blen u)).
Hypothesis Hshort : forall a c, a ++ c = u -> c <> [] -> take_reliable_unit B kr max a = Ok None.
Hypothesis Hframe : forall id d now, now < d -> s_handle_data W pt now (stream_inbound id from lid max d) = (got_stream id d, None).

(** ** The record layer *)
(** [fed] came in, [acc] was read off it *)
Definition unseen (r : rlayer) (fed : bytes) : Prop :=
  g_validated (r_gate r) = false /\ r_in r = [] /\ r_tail r = [] /\ g_label (r_gate r) = effective_label lab /\ g_skip (r_gate r) = skip /\ g_role (r_gate r) = Acceptor /\
  match effective_label lab with Some l => g_raw (r_gate r) = fed /\ exists c, c <> [] /\ fed ++ c = header l | None => fed = [] end.
Definition seen (r : rlayer) (fed acc : bytes) : Prop :=
  g_validated (r_gate r) = true /\ fed = hdr ++ acc ++ r_tail r ++ r_in r.
Definition holds (r : rlayer) (fed acc : bytes) : Prop := (unseen r fed /\ acc = []) \/ seen r fed acc.
Definition whole : bytes := hdr ++ u.

Lemma new_holds : holds (rl_acceptor lab skip) [] [].
Proof.
  left. unfold unseen. cbn. split; [|reflexivity]. do 6 (split; [reflexivity|]). destruct (effective_label lab) as [l|]; [|reflexivity]. split; [reflexivity|]. exists (header l). split; [discriminate|reflexivity].
Qed.
Lemma flush_seen g (a b : bytes) (o : bool) t fed acc : g_validated g = true -> fed = hdr ++ acc ++ t ++ a -> seen (flush_outbound_label (mkR g a b o t)) fed acc.
Proof. intros V E. unfold flush_outbound_label. cbn. destruct o; [split; assumption|]. destruct (g_prefix g); (split; cbn; assumption). Qed.
Lemma queue_valid g : g_validated (queue_outbound_prefix_if_needed g) = g_validated g.
Proof. unfold queue_outbound_prefix_if_needed. now destruct (g_queued g). Qed.
Lemma feed_holds r fed acc c more : holds r fed acc -> fed ++ c ++ more = whole -> exists r', rl_feed r c = (r', false) /\ holds r' (fed ++ c) acc.
Proof.
  intros [((V & I & TL & GL & SK & RO & M) & ->)|(V & E)] EW; unfold rl_feed; cbn [r_gate r_in]; rewrite V.
  - unfold consume_inbound_label. cbn [r_in r_gate r_out r_emitted r_tail]. rewrite I. cbn [app].
    assert (KEEP : c = [] -> holds (mkR (r_gate r) [] (r_out r) (r_emitted r) (r_tail r)) (fed ++ c) []).
    { intros ->. rewrite app_nil_r. left. split; [|reflexivity]. unfold unseen. cbn. auto 8. }
    destruct c as [|b c]; [eexists; split; [reflexivity|auto]|]. clear KEEP. set (c0 := b :: c) in *. assert (NC : c0 <> []) by discriminate. clearbody c0. destruct c0 as [|b0 c0]; [congruence|]. cbv iota.
    set (cc := b0 :: c0) in *. clearbody cc. unfold consume_inbound. rewrite GL. unfold whole, hdr in EW. destruct (effective_label lab) as [l|] eqn:EL.
    + destruct M as (-> & (cm & NM & EH)). pose proof (HL l eq_refl) as VL. rewrite SK.
      destruct (le_lt_dec (length (header l)) (length (fed ++ cc))) as [LE|GT].
      * assert (P : exists p, fed ++ cc = header l ++ p).
        { rewrite app_assoc in EW. exists (skipn (length (header l)) (fed ++ cc)). transitivity (firstn (length (header l)) (fed ++ cc) ++ skipn (length (header l)) (fed ++ cc)); [symmetry; apply firstn_skipn|]. f_equal.
          transitivity (firstn (length (header l)) ((fed ++ cc) ++ more)). { rewrite (firstn_app (length (header l)) (fed ++ cc) more). replace (length (header l) - length (fed ++ cc))%nat with O by lia. now rewrite firstn_O, app_nil_r. }
          rewrite EW, firstn_app, Nat.sub_diag, firstn_O, app_nil_r. apply firstn_all. }
        destruct P as (p & P). rewrite P, classify_header_bytes by exact VL. destruct (bytes_eqb_spec l l) as [_|N]; [|congruence].
        eexists. split; [reflexivity|]. right. apply flush_seen; [now rewrite queue_valid|]. unfold hdr. rewrite EL, TL. cbn [app]. f_equal. rewrite app_nil_r.
        replace (2 + blen l) with (blen (header l)) by (unfold header, blen; cbn [length]; lia). symmetry. apply bdrop_app_exact. reflexivity.
      * assert (P : exists d, d <> [] /\ (fed ++ cc) ++ d = header l).
        { rewrite app_assoc in EW. exists (skipn (length (fed ++ cc)) (header l)). split.
          - intros Z. apply (f_equal (@length N)) in Z. rewrite skipn_length in Z. change (length (@nil N)) with O in Z. lia.
          - transitivity (firstn (length (fed ++ cc)) (header l) ++ skipn (length (fed ++ cc)) (header l)); [|apply firstn_skipn]. f_equal.
            transitivity (firstn (length (fed ++ cc)) (header l ++ u)); [rewrite <- EW, (firstn_app (length (fed ++ cc)) (fed ++ cc) more), Nat.sub_diag, firstn_O; now rewrite app_nil_r, firstn_all|].
            rewrite firstn_app. replace (length (fed ++ cc) - length (header l))%nat with O by lia. now rewrite firstn_O, app_nil_r. }
        destruct P as (d & ND & P). rewrite (classify_short skip l (fed ++ cc) d VL ND P). eexists. split; [reflexivity|]. left. split; [|reflexivity]. unfold unseen. cbn. rewrite EL. do 6 (split; [now auto|]). split; [reflexivity|]. exists d. auto.
    + subst fed. eexists. split; [reflexivity|]. right. apply flush_seen; [now rewrite queue_valid|]. unfold hdr. rewrite EL, TL. cbn. now rewrite app_nil_r.
  - eexists. split; [reflexivity|]. right. split; [exact V|]. cbn. rewrite E, <- !app_assoc. reflexivity.
Qed.
Lemma read_holds r fed acc : holds r fed acc -> let '(r', av) := rl_read r in holds r' fed (acc ++ av) /\ (g_validated (r_gate r) = true -> fed = hdr ++ acc ++ av).
Proof.
  intros [((V & I & TL & GL & SK & RO & M) & ->)|(V & E)]; unfold rl_read.
  - rewrite I, TL. cbn. split; [|congruence]. left. split; [|reflexivity]. unfold unseen. cbn. auto 8.
  - split; [|intros _; exact E]. right. split; [exact V|]. cbn. rewrite E. now rewrite !app_nil_r.
Qed.
(** all came in: the label is settled *)
Lemma all_seen r acc : holds r whole acc -> seen r whole acc /\ rl_is_handshaking r = false.
Proof.
  intros [((V & I & TL & GL & SK & RO & M) & ->)|H].
  - exfalso. unfold whole, hdr in M. destruct (effective_label lab) as [l|]; [|exact (HU M)]. destruct M as (_ & c & NC & E). rewrite <- app_assoc in E. rewrite <- (app_nil_r (header l)) in E at 2. apply app_inv_head in E. destruct u; [contradiction|discriminate].
  - split; [exact H|]. destruct H as (V & _). unfold rl_is_handshaking, is_validating. rewrite V. destruct (g_label (r_gate r)), (g_role (r_gate r)); reflexivity.
Qed.

(** ** The bridge *)
Record base (b : bridge) : Prop := { bs_kr : br_kr b = kr; bs_max : br_max b = max; bs_T : T <= br_deadline b }.
Record pre (fed : bytes) (eof : bool) (b : bridge) : Prop := {
  p_base : base b; p_phase : br_phase b = BHandshaking; p_stream : br_stream b = None; p_acc : br_accum b = [];
  p_eof : br_eof b = eof; p_fin : br_fin b = false; p_sent : br_sent b = false; p_rec : holds (br_rec b) fed [] }.
Record live (fed : bytes) (eof : bool) (b : bridge) : Prop := {
  l_base : base b; l_phase : br_phase b = BEst LActive;
  l_stream : exists id d, T <= d /\ br_stream b = Some (stream_inbound id from lid max d);
  l_eof : br_eof b = eof; l_fin : br_fin b = false; l_sent : br_sent b = false; l_rec : holds (br_rec b) fed (br_accum b);
  l_acc : exists c, c <> [] /\ br_accum b ++ c = u }.
Record got (eof : bool) (b : bridge) : Prop := {
  g_base : base b;
  g_stream : exists id d, T <= d /\ br_stream b = Some (got_stream id d);
  g_acc : br_accum b = [];
  g_rec : g_validated (r_gate (br_rec b)) = true /\ r_tail (br_rec b) = [] /\ r_in (br_rec b) = [];
  g_phase : if eof then (br_phase b = BEst LRecvClosed /\ br_fin b = false) \/ (br_phase b = BEst LBothClosed /\ dn = true)
            else br_eof b = false /\ ((br_phase b = BEst LActive /\ br_fin b = false) \/ (br_phase b = BEst LSendClosed /\ dn = true));
  g_sent : dn = false -> br_sent b = false }.
Definition running (fed : bytes) (eof : bool) (b : bridge) : Prop := live fed eof b \/ fed = whole /\ got eof b.
Hypothesis Hempty : take_reliable_unit B kr max [] = Ok None.

Lemma whole_acc fed acc : fed = hdr ++ acc -> fed = whole -> acc = u.
Proof. intros -> E. now apply app_inv_head in E. Qed.
(** the units, on a stream that has seen nothing *)
Lemma units_short n now s b c : base b -> c <> [] -> br_accum b ++ c = u -> br_units W B (S n) now s b = (b, s, INeed).
Proof. intros [K M _] NE E. cbn [br_units]. rewrite K, M, (Hshort _ c E NE). reflexivity. Qed.
Lemma units_whole n now id d b : base b -> br_accum b = u -> now < d ->
  br_units W B (S (S n)) now (stream_inbound id from lid max d) b = (br_set_accum [] b, got_stream id d, INeed).
Proof.
  intros [K M _] E L. cbn [br_units]. rewrite K, M, E, Htake, (Hframe id d now L).
  assert (Z : bdrop (blen u) u = []) by (rewrite <- (app_nil_r u) at 2; now apply bdrop_app_exact). rewrite Z. cbn [br_kr br_max br_accum br_set_accum]. rewrite K, M, Hempty. reflexivity.
Qed.
Lemma pump_live fed eof eof1 b s now c more : live fed eof b -> br_stream b = Some s -> fed ++ c ++ more = whole -> (eof1 = true -> fed ++ c = whole) -> (eof1 = false -> eof = false) -> now < T ->
  running (fed ++ c) eof1 (br_pump_in W B c eof1 now s b) /\ (fed ++ c = whole -> got eof1 (br_pump_in W B c eof1 now s b)).
Proof.
  intros [BS PH (id & d & LD & ST) EO FI SE RE (cc & NC & AC)] E EW EF EF2 LT. rewrite ST in E. injection E as <-. unfold br_pump_in. assert (TE : br_terminal b = false) by (unfold br_terminal; now rewrite PH). rewrite TE.
  destruct (feed_holds _ _ _ c more RE EW) as (r & F & H). rewrite F. cbn [br_rec br_set_rec]. pose proof (read_holds r _ _ H) as R. unfold rl_read in *. destruct R as (R1 & R2).
  set (r1 := mkR (r_gate r) [] (r_out r) (r_emitted r) []) in *. set (acc := br_accum b ++ r_tail r ++ r_in r) in *. change (br_accum (br_set_rec r b)) with (br_accum b). fold acc.
  set (b2 := br_set_accum acc (br_set_rec r1 (br_set_rec r b))). assert (B2 : base b2) by (destruct BS; constructor; assumption). assert (A2 : br_accum b2 = acc) by reflexivity.
  assert (CASE : (exists c1, c1 <> [] /\ acc ++ c1 = u) \/ (acc = u /\ g_validated (r_gate r) = true)).
  { destruct R1 as [((V & _) & Z)|(V & E1)].
    - left. rewrite Z. exists u. split; [exact HU|reflexivity].
    - cbn in E1. rewrite app_nil_r in E1. unfold whole in EW. rewrite app_assoc, E1, <- app_assoc in EW. apply app_inv_head in EW. destruct more as [|m0 more]; [right; split; [now rewrite app_nil_r in EW|exact V]|]. left. exists (m0 :: more). split; [discriminate|exact EW]. }
  destruct CASE as [(c1 & N1 & E1)|(EU & V)].
  - assert (NW : fed ++ c <> whole).
    { intros EWh. destruct (all_seen r1 acc) as ((V1 & E2) & _); [rewrite <- EWh; exact R1|]. cbn in E2. rewrite app_nil_r in E2. unfold whole in E2. apply app_inv_head in E2. rewrite <- E1 in E2. rewrite <- (app_nil_r acc) in E2 at 2. apply app_inv_head in E2. congruence. }
    rewrite A2. rewrite (units_short (length acc) now _ b2 c1 B2 N1 E1).
    assert (eof1 = false) as -> by (destruct eof1; [now destruct NW; apply EF|reflexivity]). cbn [negb].
    split; [|intros; contradiction]. left. constructor; cbn; auto; [now destruct B2|exists id, d; auto|rewrite EO; auto|exists c1; auto].
  - rewrite A2, EU. destruct (length u) as [|n] eqn:LU; [destruct u; [congruence|discriminate]|].
    assert (FW : fed ++ c = whole). { destruct R1 as [((V1 & _) & _)|(_ & E2)]; [cbn in V1; congruence|]. cbn in E2. rewrite app_nil_r in E2. unfold whole. now rewrite <- EU. }
    rewrite (units_whole n now id d b2 B2 EU ltac:(lia)).
    assert (RR : g_validated (r_gate r1) = true /\ r_tail r1 = [] /\ r_in r1 = []) by (cbn; auto).
    assert (GOT : got eof1 (if negb eof1 then br_set_stream (Some (got_stream id d)) (br_set_accum [] b2) else br_recv_fin (br_set_stream (Some (got_stream id d)) (br_set_stream (Some (got_stream id d)) (br_set_accum [] b2))))).
    { destruct eof1; cbn [negb].
      - constructor; [destruct B2; unfold br_recv_fin; cbn; rewrite PH; constructor; assumption|..]; unfold br_recv_fin; cbn; rewrite PH; cbn; [exists id, d; auto|reflexivity|exact RR|left; split; [reflexivity|exact FI]|intros _; exact SE].
      - constructor; cbn; [destruct B2; constructor; assumption|exists id, d; auto|reflexivity|exact RR| |intros _; exact SE]. rewrite PH, FI, EO. auto. }
    assert (EQ : (let b0 := br_set_stream (Some (got_stream id d)) (br_set_accum [] b2) in
       if negb eof1 then b0 else match br_accum b0 with [] => let '(s, e) := s_handle_data W [] now (got_stream id d) in let b0 := br_set_stream (Some s) b0 in match e with Some _ => br_fail_retire BfDecode b0 | None => br_recv_fin b0 end | _ :: _ => br_fail_retire BfDecode b0 end) =
       (if negb eof1 then br_set_stream (Some (got_stream id d)) (br_set_accum [] b2) else br_recv_fin (br_set_stream (Some (got_stream id d)) (br_set_stream (Some (got_stream id d)) (br_set_accum [] b2))))) by (rewrite (got_fin id d now (N.lt_le_trans _ _ _ LT LD)); destruct eof1; reflexivity).
    cbv zeta in EQ |- *. rewrite EQ. split; [|auto]. right. auto.
Qed.
Lemma pump_got eof eof1 b s now : now < T -> got eof b -> br_stream b = Some s -> (if eof then True else br_eof b = false) -> got (eof || eof1) (br_pump_in W B [] eof1 now s b).
Proof.
  intros LT [BS (id & d & LD & ST) AC (V & TL & I) PH SN] E _. rewrite ST in E. injection E as <-. unfold br_pump_in. destruct (br_terminal b) eqn:TE.
  { assert (eof = true) as ->. { destruct eof; [reflexivity|]. exfalso. unfold br_terminal in TE. destruct PH as (_ & [(P & _)|(P & _)]); rewrite P in TE; discriminate. }
    cbn [orb]. constructor; auto. exists id, d. auto. }
  assert (F : rl_feed (br_rec b) [] = (mkR (r_gate (br_rec b)) [] (r_out (br_rec b)) (r_emitted (br_rec b)) [], false)).
  { unfold rl_feed. cbn [r_gate]. rewrite V, I, TL. reflexivity. }
  rewrite F. set (r1 := mkR (r_gate (br_rec b)) [] (r_out (br_rec b)) (r_emitted (br_rec b)) []). change (br_rec (br_set_rec r1 b)) with r1. change (rl_read r1) with (r1, @nil N). cbv beta iota zeta. change (br_accum (br_set_rec r1 b)) with (br_accum b). rewrite AC.
  set (b2 := br_set_accum _ _). assert (B2 : base b2) by (destruct BS; constructor; assumption). rewrite (units_short (length (br_accum b2)) now (got_stream id d) b2 u B2 HU eq_refl).
  set (b3 := br_set_stream (Some (got_stream id d)) b2).
  assert (C3 : base b3 /\ br_stream b3 = Some (got_stream id d) /\ br_accum b3 = [] /\ br_phase b3 = br_phase b /\ br_fin b3 = br_fin b /\ br_eof b3 = br_eof b /\ br_sent b3 = br_sent b /\ g_validated (r_gate (br_rec b3)) = true /\ r_tail (br_rec b3) = [] /\ r_in (br_rec b3) = []).
  { split; [destruct B2; constructor; assumption|]. cbn. auto 10. }
  clearbody b3. destruct C3 as (C1 & C2 & C3 & C4 & C5 & C6 & CS & C7).
  destruct eof1; cbn [negb].
  - rewrite orb_true_r, C3, (got_fin id d now (N.lt_le_trans _ _ _ LT LD)).
    assert (G : got true (br_recv_fin (br_set_stream (Some (got_stream id d)) b3))).
    { unfold br_recv_fin. cbn [br_phase br_set_stream]. rewrite C4. assert (P : (br_phase b = BEst LRecvClosed /\ br_fin b = false) \/ (br_phase b = BEst LActive /\ br_fin b = false) \/ (br_phase b = BEst LSendClosed /\ dn = true)).
      { destruct eof; [|tauto]. destruct PH as [P|(P & _)]; [auto|]. unfold br_terminal in TE. rewrite P in TE. discriminate. }
      destruct P as [(P & Q)|[(P & Q)|(P & Q)]]; rewrite P; constructor; cbn; auto; try (exists id, d; auto; fail); try (destruct C1; constructor; assumption); try (intros Z; rewrite CS; exact (SN Z)); rewrite ?C4, ?C5, ?P, ?Q; auto. }
    exact G.
  - rewrite orb_false_r. constructor; auto; [exists id, d; auto| |now rewrite CS]. rewrite C4, C5, C6. exact PH.
Qed.
(** a chunk *)
Lemma chunk_pre fed b c more now : pre fed false b -> c <> [] -> fed ++ c ++ more = whole -> pre (fed ++ c) false (br_data W B c now b).
Proof.
  intros [BS PH ST AC EO FI SE RE] NE EW. unfold br_data. assert (TE : br_terminal b = false) by (unfold br_terminal; now rewrite PH). rewrite TE, ST. destruct c as [|c0 c]; [congruence|]. unfold br_intake_handshaking.
  destruct (feed_holds _ _ _ _ _ RE EW) as (r & F & H). rewrite F. destruct BS. constructor; cbn; auto. constructor; auto.
Qed.
Lemma chunk_run fed b c more now : running fed false b -> c <> [] -> fed ++ c ++ more = whole -> now < T -> running (fed ++ c) false (br_data W B c now b).
Proof.
  intros S NE EW LT. unfold br_data. destruct S as [L|(-> & G)].
  - pose proof L as [BS PH (id & d & LD & ST) _ _ _ _ _]. assert (TE : br_terminal b = false) by (unfold br_terminal; now rewrite PH). rewrite TE, ST. destruct c as [|c0 c]; [congruence|]. cbv iota.
    eapply pump_live; eauto. discriminate.
  - exfalso. rewrite <- (app_nil_r whole) in EW at 2. apply app_inv_head in EW. destruct c; [congruence|discriminate].
Qed.
(** the end *)
Lemma eof_pre b now : pre whole false b -> pre whole true (br_data W B [] now b).
Proof.
  intros [BS PH ST AC EO FI SE RE]. unfold br_data. assert (TE : br_terminal b = false) by (unfold br_terminal; now rewrite PH). rewrite TE, ST. destruct (all_seen _ _ RE) as (SN & NH). rewrite NH. unfold br_intake_handshaking. cbn [br_rec br_set_eof].
  destruct (feed_holds _ _ _ [] [] RE) as (r & F & H); [now rewrite !app_nil_r|]. rewrite F. rewrite app_nil_r in H. destruct BS. constructor; cbn; auto. constructor; auto.
Qed.
Lemma eof_run b now : running whole false b -> now < T -> running whole true (br_data W B [] now b).
Proof.
  intros S LT. unfold br_data. destruct S as [L|(_ & G)].
  - pose proof L as [BS PH (id & d & LD & ST) _ _ _ _ _]. assert (TE : br_terminal b = false) by (unfold br_terminal; now rewrite PH). rewrite TE, ST.
    pose proof (pump_live whole false true b _ now [] [] L ST) as X. rewrite !app_nil_r in X. apply X; auto.
  - pose proof G as [BS (id & d & LD & ST) AC RE PH _]. assert (TE : br_terminal b = false) by (unfold br_terminal; destruct PH as (_ & [(-> & _)|(-> & _)]); reflexivity). rewrite TE, ST. right. split; [reflexivity|].
    apply (pump_got false true b _ now LT G ST). apply PH.
Qed.
Lemma replay_pre fed eof b now : pre fed eof b -> br_replay W B now b = b.
Proof. intros P. unfold br_replay. now rewrite (p_stream _ _ _ P). Qed.
Lemma replay_run fed eof b more now : running fed eof b -> (eof = true -> fed = whole) -> fed ++ more = whole -> now < T ->
  running fed eof (br_replay W B now b) /\ (eof = true -> got true (br_replay W B now b)).
Proof.
  intros S EF EW LT. unfold br_replay. destruct S as [L|(-> & G)].
  - pose proof L as [BS PH (id & d & LD & ST) EO _ _ _ _]. rewrite ST, EO. pose proof (pump_live fed eof eof b _ now [] more L ST) as X. rewrite !app_nil_r in X. destruct X as (X1 & X2); auto.
    split; [exact X1|]. intros E. rewrite E in *. auto.
  - pose proof G as [BS (id & d & LD & ST) AC RE PH _]. rewrite ST. assert (X : forall e1, (eof = false -> e1 = false) -> got eof (br_pump_in W B [] e1 now (got_stream id d) b)).
    { intros e1 H1. pose proof (pump_got eof e1 b _ now LT G ST) as X. destruct eof; cbn [orb] in X; [auto|]. rewrite (H1 eq_refl) in *. apply X, PH. }
    assert (EE : eof = false -> br_eof b = false) by (intros E; rewrite E in PH; apply PH). specialize (X _ EE). split; [right; auto|]. intros ->. exact X.
Qed.
Lemma out_pre fed eof b now : pre fed eof b -> now < T -> br_pump_out B rnd now b = b.
Proof.
  intros [[K M TT] PH ST AC EO FI SE RE] LT. unfold br_pump_out. rewrite PH, ST. destruct (N.leb_spec (br_deadline b) now); [lia|reflexivity].
Qed.
Lemma out_got e b now : got e b -> now < T -> got e (br_pump_out B rnd now b) /\ (e = true -> br_phase (br_pump_out B rnd now b) = if dn then BEst LBothClosed else BEst LRecvClosed).
Proof.
  intros [BS (id & d & LD & ST) AC RE PH SN] LT. unfold br_pump_out. assert (NH : match br_phase b with BHandshaking => br_deadline b <=? now | _ => false end = false).
    { destruct e; [destruct PH as [(-> & _)|(-> & _)]|destruct PH as (_ & [(-> & _)|(-> & _)])]; reflexivity. }
    assert (NF : br_failed b = false) by (unfold br_failed; destruct e; [destruct PH as [(-> & _)|(-> & _)]|destruct PH as (_ & [(-> & _)|(-> & _)])]; reflexivity).
    set (s := got_stream id d) in *. assert (TR : s_transmit now s = (s, [])).
    { unfold s, s_transmit, s_terminal, s_late, got_stream. destruct dn; cbn; [reflexivity|]. destruct (N.leb_spec d now); [lia|reflexivity]. }
    assert (D : s_done s = dn) by (unfold s, s_done, got_stream; destruct dn; reflexivity). assert (F : s_failed s = None) by (unfold s, s_failed, got_stream; destruct dn; reflexivity).
    rewrite NH, ST, NF, F, TR. cbn [orb]. rewrite F. destruct BS as [K M TT]. destruct (N.leb_spec (br_deadline b) now); [lia|]. cbn [andb].
    unfold br_finish. rewrite D. change (br_failed (br_set_stream (Some s) b)) with (br_failed b). rewrite NF. cbn [negb br_fin br_sent br_set_stream]. rewrite andb_true_r.
    destruct dn eqn:DN.
    - rewrite orb_true_r, andb_true_r. destruct (br_fin b) eqn:FI; cbn [negb].
      + assert (e = true -> br_phase b = BEst LBothClosed) as PB by (intros ->; destruct PH as [(_ & X)|(X & _)]; [congruence|exact X]). split; [|exact PB].
        constructor; [constructor; assumption|exists id, d; auto|exact AC|exact RE| |congruence]. cbn. destruct e; [right; auto|]. destruct PH as (PE & [(_ & X)|(X & _)]); [congruence|auto].
      + unfold br_send_fin. cbn [br_phase br_set_fin br_set_stream]. destruct e.
        * destruct PH as [(P & _)|(P & _)]; rewrite P; (split; [constructor; [constructor; assumption|exists id, d; auto|exact AC|exact RE|cbn; rewrite ?P; auto|congruence]|intros _; cbn; auto]).
        * destruct PH as (PE & [(P & _)|(P & _)]); rewrite P; (split; [constructor; [constructor; assumption|exists id, d; auto|exact AC|exact RE|cbn; rewrite ?P; auto|congruence]|discriminate]).
    - rewrite (SN eq_refl), andb_false_r. split; [constructor; [constructor; assumption|exists id, d; auto|exact AC|exact RE|cbn; rewrite DN; exact PH|intros _; exact (SN eq_refl)]|].
      intros ->. cbn. destruct PH as [(P & _)|(_ & X)]; [exact P|discriminate].
Qed.
Lemma out_live fed eof b now : live fed eof b -> now < T -> live fed eof (br_pump_out B rnd now b).
Proof.
  intros [BS PH (id & d & LD & ST) EO FI SE RE AC] LT. unfold br_pump_out. rewrite PH, ST. unfold br_failed. rewrite PH. set (s := stream_inbound id from lid max d).
    assert (TR : s_transmit now s = (s, [])) by (unfold s_transmit, s_late; cbn; destruct (N.leb_spec d now); [lia|reflexivity]). assert (D : s_done s = false) by reflexivity. assert (F : s_failed s = None) by reflexivity.
    rewrite F, D, andb_false_r, TR. cbn [orb andb]. rewrite F. unfold br_finish. rewrite D. cbn [br_sent br_set_stream]. rewrite SE, andb_false_r. constructor; cbn; auto; [destruct BS; constructor; assumption|exists id, d; auto].
Qed.
Lemma out_run fed eof b now : running fed eof b -> now < T -> running fed eof (br_pump_out B rnd now b).
Proof. intros [L|(-> & G)] LT; [left; now apply out_live|right; split; [reflexivity|now apply out_got]]. Qed.
Lemma promote_stage fed eof b id d : pre fed eof b -> T <= d -> live fed eof (br_promote (stream_inbound id from lid max d) b).
Proof.
  intros [[K M TT] PH ST AC EO FI SE RE] LD. unfold br_promote. cbn [s_timeout s_terminal s_phase s_deadline stream_inbound].
  constructor; cbn; auto; [constructor; cbn; auto|exists id, d; auto|rewrite AC; exact RE|rewrite AC; exists u; auto].
Qed.
(** giving bytes out, which the stages do not look at *)
Lemma transmit_holds r fed acc : holds r fed acc -> holds (fst (rl_transmit r)) fed acc.
Proof. intros [(U & Z)|S]; [left|right]; [split; [exact U|exact Z]|exact S]. Qed.
Lemma transmit_pre fed eof b : pre fed eof b -> pre fed eof (br_set_rec (fst (rl_transmit (br_rec b))) b).
Proof. intros [[K M TT] PH ST AC EO FI SE RE]; constructor; auto using transmit_holds; constructor; auto. Qed.
Lemma transmit_run fed eof b : running fed eof b -> running fed eof (br_set_rec (fst (rl_transmit (br_rec b))) b).
Proof.
  intros [[[K M TT] PH ST EO FI SE RE AC]|(-> & [[K M TT] ST AC RE PH SN])]; [left|right; split; [reflexivity|]]; constructor; auto using transmit_holds; constructor; auto.
Qed.
Lemma new_pre d o : T <= d -> pre [] false (br_new (rl_acceptor lab skip) d o kr max).
Proof. intros L. constructor; auto; [constructor; auto|apply new_holds]. Qed.

(** * The coordinator *)
Context (C : cfg) (Q : qcfg) (x : N) (data : bytes).
Hypothesis Hlab : qc_label Q = lab.
Hypothesis Hskip : qc_skip Q = skip.
Hypothesis Hmax : c_frame_max C = max.
Hypothesis Hlid : c_id C = lid.
Hypothesis Hev : match dn with true => forall id, ev id = SEUser from data | false => exists st us j, forall id, ev id = SERequest from st us j id end.
(** the event the application is to see *)
Definition heard : event := EvUserPacket from data Reliable.
(** what a step that is not about [x] leaves *)
Record alone (q q' : coord) : Prop := {
  al_c : aget x (q_conns q') = aget x (q_conns q);
  al_x : aget x (q_ex q') = aget x (q_ex q);
  al_l : logs_of x (q_log q') = logs_of x (q_log q);
  al_n : q_next q <= q_next q';
  al_u : In x (q_unminted q) -> In x (q_unminted q');
  al_d : In x (q_dirty q) -> In x (q_dirty q');
  al_k : q_kr q' = q_kr q;
  al_e : einv C (q_ep q) -> einv C (q_ep q') /\ q_runs q' = q_runs q;
  al_v : einv C (q_ep q) -> In heard (k_ev (e_core (q_ep q))) -> In heard (k_ev (e_core (q_ep q'))) }.
Lemma alone_refl q : alone q q.
Proof. constructor; auto. lia. Qed.
Lemma alone_trans a b c : alone a b -> alone b c -> alone a c.
Proof.
  intros [A1 A2 A3 A4 A5 A6 A7 A8 A9] [B1 B2 B3 B4 B5 B6 B7 B8 B9]. constructor; try congruence; auto; try lia.
  - intros I. destruct (A8 I) as (I1 & R1). destruct (B8 I1) as (I2 & R2). split; [exact I2|congruence].
  - intros I J. apply B9; [now apply A8|auto].
Qed.
Lemma alone_fold {A} (f : coord -> A -> coord) l : (forall q a, In a l -> alone q (f q a)) -> forall q, alone q (fold_left f l q).
Proof. induction l as [|a l IH]; intros H q; [apply alone_refl|]. cbn. eapply alone_trans; [apply H; now left|apply IH]. intros; apply H; now right. Qed.
Lemma alone_still q q' : q_ep q' = q_ep q -> aget x (q_conns q') = aget x (q_conns q) -> aget x (q_ex q') = aget x (q_ex q) -> logs_of x (q_log q') = logs_of x (q_log q) ->
  q_next q <= q_next q' -> (In x (q_unminted q) -> In x (q_unminted q')) -> (In x (q_dirty q) -> In x (q_dirty q')) -> q_kr q' = q_kr q -> alone q q'.
Proof. intros E1 E2 E3 E4 E5 E6 E7 E8. constructor; auto; unfold q_runs; rewrite ?E1; auto. Qed.
Ltac still := apply alone_still; cbn; auto; try lia.
Lemma heard_keep e o : einv C e -> o <> EPollEvent -> In heard (k_ev (e_core e)) -> In heard (k_ev (e_core (fst (ep_step C e o)))).
Proof.
  intros I N J. pose proof (data_step C e o I) as D. rewrite (seen_none C e o N) in D. cbn [filter app] in D.
  assert (J1 : In heard (kind is_data (fst (ep_step C e o)))) by (rewrite D; apply in_or_app; left; apply filter_In; auto). now apply filter_In in J1 as (J1 & _).
Qed.
Lemma alone_call ox o q : ox <> Some x -> ordinary_op o -> alone q (call_ C ox o q).
Proof.
  intros NX NO. unfold call_. rewrite call_eq. constructor; cbn; auto; try lia.
  - rewrite logs_app, logs_one. assert (M : mine x (ox, o) = false) by (unfold mine; cbn; destruct ox as [y|]; [|reflexivity]; destruct (N.eqb_spec y x); congruence). now rewrite M, app_nil_r.
  - intros I. split; [now apply einv_op|]. unfold q_runs. cbn. now apply runs_keep.
  - intros I J. apply heard_keep; auto. intros ->. exact NO.
Qed.
Lemma alone_del y q : y <> x -> alone q (q_set_conns (adel y (q_conns q)) q).
Proof. intros N. still. rewrite aget_adel_ne; auto. Qed.
Lemma alone_put y b q : y <> x -> alone q (q_set_conns (aset y b (q_conns q)) q).
Proof. intros N. still. rewrite aget_aset_ne; auto. Qed.
Lemma alone_delx y q : y <> x -> alone q (q_set_ex (adel y (q_ex q)) q).
Proof. intros N. still. rewrite aget_adel_ne; auto. Qed.
Lemma alone_putx y b q : y <> x -> alone q (q_set_ex (aset y b (q_ex q)) q).
Proof. intros N. still. rewrite aget_aset_ne; auto. Qed.
Lemma alone_collect y b q : alone q (snd (collect y b q)).
Proof. unfold collect. destruct (aget y (q_ex q)) as [m|]; [|apply alone_refl]. cbn. destruct (r_out (br_rec b)); [apply alone_refl|still]. Qed.
Lemma alone_reap y b q : y <> x -> alone q (reap C y b q).
Proof.
  intros N. unfold reap. set (q1 := if br_failed b then purge y q else snd (collect y b q)). assert (T1 : alone q q1) by (unfold q1; destruct (br_failed b); [still|apply alone_collect]). clearbody q1.
  cbv zeta. set (q2 := q_set_ex _ q1). assert (T2 : alone q q2) by (eapply alone_trans; [exact T1|now apply alone_delx]). clearbody q2.
  set (q3 := match aget y (q_ex q1) with Some m => match x_kind m with Some k => call_ C _ _ q2 | None => q2 end | None => q2 end).
  assert (NY : Some y <> Some x) by congruence.
  assert (T3 : alone q q3) by (unfold q3; destruct (aget y (q_ex q1)) as [m|]; [destruct (x_kind m); [eapply alone_trans; [exact T2|apply alone_call; [exact NY|exact Logic.I]]|]|]; exact T2). clearbody q3.
  set (q4 := match aget y (q_ex q1) with Some m => match x_mint m with Some (MOut sid) => call_ C _ _ q3 | _ => q3 end | None => q3 end).
  assert (T4 : alone q q4) by (unfold q4; destruct (aget y (q_ex q1)) as [m|]; [destruct (x_mint m) as [[]|]; [eapply alone_trans; [exact T3|apply alone_call; [exact NY|exact Logic.I]]| |]|]; exact T3). clearbody q4.
  eapply alone_trans; [exact T4|still].
Qed.
Lemma calls_keep l : Forall (fun o => exists ev now, o = EStreamEv ev now) l -> forall e, einv C e ->
  einv C (fst (ep_run C e l)) /\ runs (fst (ep_run C e l)) = runs e /\ (In heard (k_ev (e_core e)) -> In heard (k_ev (e_core (fst (ep_run C e l))))).
Proof.
  intros F e. rewrite ep_run_fst. revert e. induction F as [|o l (v & now & ->) F IH]; intros e I; [auto|]. cbn [fold_left].
  destruct (IH _ (einv_op C e (EStreamEv v now) I)) as (I1 & R1 & J1). split; [exact I1|]. split; [rewrite R1; now apply runs_keep|]. intros J. apply J1, heard_keep; [exact I|discriminate|exact J].
Qed.
Lemma alone_drained y r q : y <> x -> snd (fst r) = fst (ep_run C (q_ep q) (snd r)) -> Forall (fun o => exists ev now, o = EStreamEv ev now) (snd r) -> alone q (snd (drained y r q)).
Proof.
  destruct r as [[b e] l]. cbn [fst snd]. intros N -> F. cbn. constructor; cbn; auto; try lia.
  - now rewrite logs_app, logs_tag_ne, app_nil_r by congruence.
  - intros I. unfold q_runs. cbn. destruct (calls_keep l F _ I) as (A & A2 & _). auto.
  - intros I. now apply calls_keep.
Qed.
Lemma alone_pump_one now q y : y <> x -> alone q (pump_one C W B rnd now q y).
Proof.
  intros N. unfold pump_one. destruct (aget y (q_conns q)) as [b|] eqn:G; [|apply alone_refl].
  pose proof (alone_del y q N) as T1. set (q1 := q_set_conns _ q) in *. clearbody q1. set (b1 := br_pump_out _ _ _ _) in *. clearbody b1. cbv zeta.
  assert (RP : forall b q0, alone q q0 -> alone q (let '(b, q) := drained y (br_drain_reap C W B rnd now b (q_ep q0)) q0 in reap C y b q)).
  { intros b0 q0 A. pose proof (reap_calls C W B rnd now b0 (q_ep q0)) as RC. destruct (br_drain_reap C W B rnd now b0 (q_ep q0)) as [[b2 e2] l]. destruct RC as (E & F). pose proof (alone_drained y (b2, e2, l) q0 N E F) as A2. destruct (drained _ _ _) as [b' q'].
    eapply alone_trans; [exact A|]. eapply alone_trans; [exact A2|now apply alone_reap]. }
  destruct (br_terminal b1); [now apply RP|].
  pose proof (payload_calls C W B rnd now b1 (q_ep q1)) as RC. destruct (br_drain_payload C W B rnd now b1 (q_ep q1)) as [[b2 e2] l]. destruct RC as (E & F). pose proof (alone_drained y (b2, e2, l) q1 N E F) as A2. destruct (drained _ _ _) as [b3 q3].
  cbn [snd] in A2. pose proof (alone_trans _ _ _ T1 A2) as A3.
  destruct (br_terminal b3); [now apply RP|]. eapply alone_trans; [exact A3|]. assert (T3 : alone q3 (maybe_shutdown y b3 q3)).
  { unfold maybe_shutdown. destruct (negb _); [apply alone_refl|]. destruct (aget y (q_ex q3)) as [m|]; [|apply alone_refl]. destruct (x_fin m); [apply alone_refl|]. eapply alone_trans; [apply (alone_putx y (x_set_fin true m) q3 N)|still]. }
  eapply alone_trans; [exact T3|]. eapply alone_trans; [apply (alone_put y b3 _ N)|still].
Qed.
Lemma alone_cancel y q : y <> x -> alone q (cancel y q).
Proof. intros N. unfold cancel. cbv zeta. eapply alone_trans; [apply (alone_del y q N)|]. eapply alone_trans; [apply (alone_delx y _ N)|]. cbn. still. Qed.
Lemma alone_retire y q : y <> x -> alone q (retire_dial C y q).
Proof.
  intros N. unfold retire_dial. set (q1 := purge_connect y (purge y q)). assert (T1 : alone q q1) by (unfold q1; still). clearbody q1. cbv zeta.
  pose proof (alone_trans _ _ _ T1 (alone_del y q1 N)) as T2. set (q2 := q_set_conns _ q1) in *. clearbody q2. pose proof (alone_trans _ _ _ T2 (alone_delx y q2 N)) as T3. set (q3 := q_set_ex _ q2) in *. clearbody q3.
  set (q4 := match aget y (q_ex q2) with Some m => match x_kind m with Some k => call_ C _ _ q3 | None => q3 end | None => q3 end).
  assert (T4 : alone q q4) by (unfold q4; destruct (aget y (q_ex q2)) as [m|]; [destruct (x_kind m); [eapply alone_trans; [exact T3|apply alone_call; [congruence|exact Logic.I]]|]|]; exact T3). clearbody q4. eapply alone_trans; [exact T4|still].
Qed.
Lemma alone_promote y s q : y <> x -> alone q (promote_in y s q).
Proof. intros N. unfold promote_in. destruct (aget y (q_conns q)) as [b|] eqn:G; [now apply alone_put|apply alone_refl]. Qed.
Lemma alone_mint_one now q y : y <> x -> alone q (mint_one C W now q y).
Proof.
  intros N. unfold mint_one. destruct (aget y (q_conns q)) as [b|]; [|apply alone_refl]. destruct (br_terminal b); [apply alone_refl|]. destruct (br_handshaking b); [still; rewrite in_oset; auto|]. destruct (aget y (q_ex q)) as [m|]; [|still].
  destruct (x_mint m) as [[sid|fr]|]; [| |still]; cbv zeta; set (q1 := mark_dirty _ _); (assert (T1 : alone q q1) by (unfold q1; eapply alone_trans; [apply (alone_putx y (x_set_mint None m) q N)|still; rewrite in_oset; auto])); clearbody q1; (eapply alone_trans; [exact T1|]).
  - pose proof (alone_call (Some y) (EDialOk sid now) q1 ltac:(congruence) Logic.I) as T2. unfold call_ in T2. destruct (call C (Some y) (EDialOk sid now) q1) as [q2 outs]. cbn [fst] in T2. eapply alone_trans; [exact T2|].
    destruct outs as [|[] [|]]; try (now apply alone_retire). all: destruct req as [[k msg]|]; (now apply alone_promote) || (now apply alone_retire).
  - pose proof (alone_call (Some y) (EAccept fr now) q1 ltac:(congruence) Logic.I) as T2. unfold call_ in T2. destruct (call C (Some y) (EAccept fr now) q1) as [q2 outs]. cbn [fst] in T2. eapply alone_trans; [exact T2|].
    destruct outs as [|[] [|]]; try (now apply alone_cancel). all: destruct req as [[k msg]|]; (now apply alone_promote) || (now apply alone_cancel).
Qed.
Lemma alone_collect_one q y : y <> x -> alone q (collect_one q y).
Proof.
  intros N. unfold collect_one. destruct (aget y (q_conns q)) as [b|] eqn:G; [|apply alone_refl].
  pose proof (alone_trans _ _ _ (alone_del y q N) (alone_collect y b _)) as A. destruct (collect _ _ _) as [b' q']. eapply alone_trans; [exact A|now apply alone_put].
Qed.
(** the same, events being polled *)
Record apart (q q' : coord) : Prop := {
  ap_c : aget x (q_conns q') = aget x (q_conns q);
  ap_x : aget x (q_ex q') = aget x (q_ex q);
  ap_l : logs_of x (q_log q') = logs_of x (q_log q);
  ap_n : q_next q <= q_next q';
  ap_u : In x (q_unminted q) -> In x (q_unminted q');
  ap_d : In x (q_dirty q) -> In x (q_dirty q');
  ap_k : q_kr q' = q_kr q;
  ap_e : einv C (q_ep q) -> einv C (q_ep q') /\ q_runs q' = q_runs q }.
Lemma alone_apart q q' : alone q q' -> apart q q'.
Proof. intros []. now constructor. Qed.
Lemma apart_refl q : apart q q.
Proof. apply alone_apart, alone_refl. Qed.
Lemma apart_trans a b c : apart a b -> apart b c -> apart a c.
Proof.
  intros [A1 A2 A3 A4 A5 A6 A7 A8] [B1 B2 B3 B4 B5 B6 B7 B8]. constructor; try congruence; auto; try lia.
  intros I. destruct (A8 I) as (I1 & R1). destruct (B8 I1) as (I2 & R2). split; [exact I2|congruence].
Qed.
Lemma apart_poll q : apart q (call_ C None EPollEvent q) /\ k_ev (e_core (q_ep (call_ C None EPollEvent q))) = tl (k_ev (e_core (q_ep q))).
Proof.
  unfold call_. rewrite call_eq. split; [|apply poll_tl]. constructor; cbn [fst q_conns q_ex q_log q_next q_unminted q_dirty q_kr q_ep q_set_log q_set_ep]; auto; try lia.
  - rewrite logs_app, logs_one. cbn. now rewrite app_nil_r.
  - intros I. split; [now apply einv_op|]. apply runs_poll.
Qed.
Lemma alone_sieve q : alone q (sieve C q).
Proof.
  unfold sieve. cbv zeta. set (evs := k_ev (e_core (q_ep q))).
  assert (H1 : forall (l : list event) q1, let q2 := fold_left (fun q _ => call_ C None EPollEvent q) l q1 in apart q1 q2 /\ k_ev (e_core (q_ep q2)) = skipn (length l) (k_ev (e_core (q_ep q1)))).
  { induction l as [|a l IH]; intros q1; [split; [apply apart_refl|reflexivity]|]. cbn [fold_left]. destruct (apart_poll q1) as (A & E1). destruct (IH (call_ C None EPollEvent q1)) as (K & E). split; [eapply apart_trans; eauto|].
    rewrite E, E1. destruct (k_ev (e_core (q_ep q1))); [now rewrite !skipn_nil|reflexivity]. }
  assert (H2 : forall (l : list event) q1, Forall (fun ev => is_dial ev = false) l -> let q2 := fold_left (fun q ev => call_ C None (ERequeue ev) q) l q1 in apart q1 q2 /\ k_ev (e_core (q_ep q2)) = k_ev (e_core (q_ep q1)) ++ l).
  { induction l as [|a l IH]; intros q1 F; [split; [apply apart_refl|now rewrite app_nil_r]|]. apply Forall_cons_iff in F as (F1 & F2). cbn [fold_left]. destruct (IH (call_ C None (ERequeue a) q1) F2) as (K & E). split; [eapply apart_trans; [apply alone_apart, (alone_call None (ERequeue a)); [discriminate|exact Logic.I]|exact K]|].
    rewrite E. unfold call_. rewrite call_eq. cbn [fst q_ep q_set_log q_set_ep]. rewrite add_ev by assumption. now rewrite <- app_assoc. }
  destruct (H1 evs q) as (A1 & E1). set (q1 := fold_left _ evs q) in *. clearbody q1. set (q2 := q_set_dials _ q1). assert (A2 : apart q q2) by (eapply apart_trans; [exact A1|]; constructor; cbn; auto; lia).
  assert (E2 : k_ev (e_core (q_ep q2)) = []) by (unfold q2; cbn; rewrite E1; unfold evs; apply skipn_all). clearbody q2.
  assert (FD : Forall (fun ev => is_dial ev = false) (filter (fun ev => negb (is_dial ev)) evs)) by (apply Forall_forall; intros v J; apply filter_In in J as (_ & J); now destruct (is_dial v)).
  destruct (H2 _ q2 FD) as (A3 & E3). pose proof (apart_trans _ _ _ A2 A3) as [B1 B2 B3 B4 B5 B6 B7 B8]. constructor; auto. intros _ J. rewrite E3, E2. cbn. apply filter_In. auto.
Qed.
Lemma alone_open y b m q q' : y <> x -> q_ep q' = q_ep q -> q_conns q' = aset y b (q_conns q) -> q_ex q' = aset y m (q_ex q) -> q_log q' = q_log q -> q_next q <= q_next q' ->
  (In x (q_unminted q) -> In x (q_unminted q')) -> (In x (q_dirty q) -> In x (q_dirty q')) -> q_kr q' = q_kr q -> alone q q'.
Proof. intros N E1 E2 E3 E4 E5 E6 E7 E8. apply alone_still; auto; rewrite ?E2, ?E3, ?E4; auto; rewrite aget_aset_ne; auto. Qed.
Lemma alone_dial_one now q t : x < q_next q -> alone q (dial_one C Q now q t).
Proof.
  intros L. destruct t as [[id peer] d]. unfold dial_one. cbv zeta. destruct (d <=? now); [eapply alone_trans; [|apply alone_call; [discriminate|exact Logic.I]]; still|].
  eapply (alone_open (q_next q)); try reflexivity; cbn; try lia; rewrite in_oset; auto.
Qed.
Lemma alone_dials now l : forall q, x < q_next q -> alone q (fold_left (dial_one C Q now) l q).
Proof.
  induction l as [|t l IH]; intros q L; [apply alone_refl|]. cbn [fold_left]. pose proof (alone_dial_one now q t L) as A. eapply alone_trans; [exact A|]. apply IH. pose proof (al_n _ _ A). lia.
Qed.
Lemma alone_dial_all now q : x < q_next q -> alone q (dial_all C Q now q).
Proof.
  intros L. unfold dial_all. destruct (negb _); [apply alone_refl|]. pose proof (alone_sieve q) as A. eapply alone_trans; [exact A|]. set (q1 := sieve C q) in *. clearbody q1.
  eapply alone_trans with (b := q_set_dials [] q1); [still|]. apply alone_dials. cbn. pose proof (al_n _ _ A). lia.
Qed.

(** ** The exchange: accepted, under way, over *)
Definition sound (q : coord) : Prop := einv C (q_ep q) /\ q_runs q = true /\ x < q_next q.
Definition open (q : coord) (b : bridge) (m : xmeta) : Prop :=
  aget x (q_conns q) = Some b /\ aget x (q_ex q) = Some m /\ x_kind m = None /\ filter payload (logs_of x (q_log q)) = [].
Definition A0 (fed : bytes) (eof : bool) (l : list N) (q : coord) : Prop :=
  sound q /\ exists b m, open q b m /\ pre fed eof b /\ x_mint m = Some (MIn from) /\ In x (l ++ q_unminted q).
Definition A1 (fed : bytes) (eof : bool) (q : coord) : Prop :=
  sound q /\ exists b m, open q b m /\ running fed eof b /\ x_mint m = None.
Definition over (q : coord) : Prop :=
  sound q /\ aget x (q_conns q) = None /\ (exists id t, filter payload (logs_of x (q_log q)) = [EStreamEv (ev id) t]) /\ (dn = true -> In heard (k_ev (e_core (q_ep q)))).
Lemma sound_apart q q' : apart q q' -> sound q -> sound q'.
Proof. intros A (I & R & L). destruct (ap_e _ _ A I) as (I1 & R1). split; [exact I1|]. split; [congruence|]. pose proof (ap_n _ _ A). lia. Qed.
Lemma open_apart q q' b m : apart q q' -> open q b m -> open q' b m.
Proof. intros [] (O1 & O2 & O3 & O4). unfold open. rewrite ap_c0, ap_x0, ap_l0. auto. Qed.
Lemma A0_apart fed eof l q q' : apart q q' -> A0 fed eof l q -> A0 fed eof l q'.
Proof.
  intros A (S & b & m & O & P & M & J). split; [eapply sound_apart; eauto|]. exists b, m. split; [eapply open_apart; eauto|]. split; [exact P|]. split; [exact M|]. rewrite in_app_iff in *. destruct J; [auto|right; now apply A].
Qed.
Lemma A1_apart fed eof q q' : apart q q' -> A1 fed eof q -> A1 fed eof q'.
Proof. intros A (S & b & m & O & P). split; [eapply sound_apart; eauto|]. exists b, m. split; [eapply open_apart; eauto|exact P]. Qed.
Lemma over_alone q q' : alone q q' -> over q -> over q'.
Proof.
  intros A (S & O1 & O2 & O3). split; [eapply sound_apart; [apply alone_apart|]; eauto|]. rewrite (al_c _ _ A), (al_l _ _ A). split; [exact O1|]. split; [exact O2|]. intros D. apply (al_v _ _ A); [apply S|exact (O3 D)].
Qed.

(** *** Pumping *)
Lemma pump_A0 fed eof l now q y : A0 fed eof l q -> now < T -> A0 fed eof l (pump_one C W B rnd now q y).
Proof.
  intros A LT. destruct (N.eq_dec y x) as [->|N]; [|eapply A0_apart; [apply alone_apart, alone_pump_one; exact N|exact A]].
  destruct A as ((I & R & LX) & b & m & (O1 & O2 & O3 & O4) & P & M & J). unfold pump_one. rewrite O1, (replay_pre _ _ _ now P), (out_pre _ _ _ now P LT). cbv zeta.
  assert (TE : br_terminal b = false) by (unfold br_terminal; now rewrite (p_phase _ _ _ P)). rewrite TE.
  assert (DP : forall e, br_drain_payload C W B rnd now b e = (b, e, [])) by (intros; unfold br_drain_payload; now rewrite (p_phase _ _ _ P)). rewrite DP. cbn [drained]. rewrite TE. unfold maybe_shutdown. rewrite (p_fin _ _ _ P). cbn [negb].
  split; [split; [exact I|split; [exact R|exact LX]]|]. exists b, m. split; [|split; [exact P|split; [exact M|exact J]]]. split; [cbn; now rewrite aget_aset_eq|]. split; [exact O2|]. split; [exact O3|]. cbn. now rewrite app_nil_r.
Qed.
Lemma pump_A1 fed more now q y : A1 fed false q -> fed ++ more = whole -> now < T -> A1 fed false (pump_one C W B rnd now q y).
Proof.
  intros A EW LT. destruct (N.eq_dec y x) as [->|N]; [|eapply A1_apart; [apply alone_apart, alone_pump_one; exact N|exact A]].
  destruct A as ((I & R & LX) & b & m & (O1 & O2 & O3 & O4) & P & M). unfold pump_one. rewrite O1. destruct (replay_run _ _ _ more now P ltac:(discriminate) EW LT) as (P1 & _). apply (out_run _ _ _ now) in P1; [|exact LT]. set (b1 := br_pump_out _ _ _ _) in *. clearbody b1. clear P O1. cbv zeta.
  assert (PH : br_phase b1 = BEst LActive \/ br_phase b1 = BEst LSendClosed). { destruct P1 as [L|(_ & G)]; [left; apply (l_phase _ _ _ L)|]. destruct (g_phase _ _ G) as (_ & [(X & _)|(X & _)]); auto. }
  assert (TE : br_terminal b1 = false) by (unfold br_terminal; destruct PH as [-> | ->]; reflexivity). rewrite TE.
  assert (DP : forall e, br_drain_payload C W B rnd now b1 e = (b1, e, [])) by (intros; unfold br_drain_payload; destruct PH as [-> | ->]; reflexivity). rewrite DP. cbn [drained]. rewrite TE.
  set (q1 := q_set_log _ _). assert (E1 : q_ex q1 = q_ex q /\ q_next q1 = q_next q /\ q_ep q1 = q_ep q /\ logs_of x (q_log q1) = logs_of x (q_log q)) by (unfold q1; cbn; rewrite app_nil_r; auto). clearbody q1. destruct E1 as (E1 & E2 & E3 & E4).
  assert (SH : exists m', aget x (q_ex (maybe_shutdown x b1 q1)) = Some m' /\ x_kind m' = None /\ x_mint m' = None /\ q_next (maybe_shutdown x b1 q1) = q_next q /\ q_ep (maybe_shutdown x b1 q1) = q_ep q /\ logs_of x (q_log (maybe_shutdown x b1 q1)) = logs_of x (q_log q)).
  { unfold maybe_shutdown. rewrite E1, O2. destruct (negb _); [exists m; rewrite E1; auto 8|]. destruct (x_fin m); [exists m; rewrite E1; auto 8|]. eexists. cbn. rewrite aget_aset_eq. split; [reflexivity|]. cbn. auto. }
  destruct SH as (m' & S1 & S2 & S3 & S4 & S5 & S6). set (q2 := maybe_shutdown x b1 q1) in *. clearbody q2.
  split; [split; [cbn; now rewrite S5|split; [unfold q_runs in *; cbn; now rewrite S5|cbn; now rewrite S4]]|]. exists b1, m'. split; [|split; [exact P1|exact S3]]. split; [cbn; now rewrite aget_aset_eq|]. split; [exact S1|]. split; [exact S2|]. cbn. now rewrite S6.
Qed.
Lemma drain_none now b1 s e : br_stream b1 = Some s -> s_ep s = [] -> br_drain_reap C W B rnd now b1 e = (b1, fst (ep_step C e (EStreamEv SEClosed now)), [EStreamEv SEClosed now]).
Proof. intros ST SE. unfold br_drain_reap, br_waiting. rewrite ST, SE. reflexivity. Qed.
Lemma drain_got now b1 e id d : dn = true -> br_stream b1 = Some (got_stream id d) -> runs e = true -> br_drain_reap C W B rnd now b1 e =
  (br_set_stream (Some (s_set_ep [] (got_stream id d))) b1, fst (ep_step C (fst (ep_step C e (EStreamEv (ev id) now))) (EStreamEv SEClosed now)), [EStreamEv (ev id) now; EStreamEv SEClosed now]).
Proof.
  intros D ST RE. unfold br_drain_reap, br_waiting. rewrite ST. change (length (s_ep (got_stream id d))) with 1%nat. cbn [br_events]. rewrite ST. change (s_ep (got_stream id d)) with [ev id]. rewrite D in Hev. rewrite Hev.
  change (ep_step C e (EStreamEv (SEUser from data) now)) with (if runs e then act C (KEmit (EvUserPacket from data Reliable)) e else e, @nil out). reflexivity.
Qed.
(** an answer, or none: either way this is the end of the exchange *)
Lemma failed_terminal k b s : br_stream b = Some s -> s_ep s = [] -> br_failed b = false -> br_terminal (br_fail_retire k b) = true /\ exists s', br_stream (br_fail_retire k b) = Some s' /\ s_ep s' = [].
Proof.
  intros ST SE NF. unfold br_fail_retire, br_fail. change (br_failed (br_retire b)) with (br_failed b). rewrite NF. split; [reflexivity|]. change (br_phase (br_retire b)) with (br_phase b). change (br_stream (br_retire b)) with (br_stream b). rewrite ST.
  destruct (br_phase b) as [|[]]; cbn; rewrite ?ST; eexists; split; try reflexivity; try exact SE; reflexivity.
Qed.
Lemma answered now b1 id d e : dn = false -> got true b1 -> br_phase b1 = BEst LRecvClosed -> br_stream b1 = Some (got_stream id d) -> now < tadd now (c_stream_timeout C) ->
  exists b2, br_drain_payload C W B rnd now b1 e = (b2, fst (ep_step C e (EStreamEv (ev id) now)), [EStreamEv (ev id) now]) /\ br_terminal b2 = true /\ exists s, br_stream b2 = Some s /\ s_ep s = [].
Proof.
  intros D G PH ST TM. unfold br_drain_payload. rewrite PH. unfold br_waiting. rewrite ST. change (length (s_ep (got_stream id d))) with 1%nat. cbn [br_events]. rewrite ST. change (s_ep (got_stream id d)) with [ev id].
  destruct (ep_step C e (EStreamEv (ev id) now)) as [e1 outs] eqn:ES. cbn [fst]. eexists. split; [cbv beta iota zeta; rewrite ?ES; reflexivity|].
  set (s := s_set_ep [] (got_stream id d)). set (b := br_set_stream (Some s) b1). assert (SB : br_stream b = Some s) by reflexivity. assert (PB : br_phase b = BEst LRecvClosed) by exact PH.
  assert (NF : br_failed b = false) by (unfold br_failed; now rewrite PB). assert (FI : br_fin b = false).
  { change (br_fin b) with (br_fin b1). destruct (g_phase _ _ G) as [(_ & F)|(_ & F)]; [exact F|congruence]. }
  assert (SS : s_phase s = SpResponding /\ s_ep s = [] /\ s_out s = []) by (unfold s, got_stream; rewrite D; auto). destruct SS as (S1 & S2 & S3). clearbody s. clearbody b.
  assert (OU : outs = [OClose] \/ exists m, outs = [OResponse m]).
  { rewrite D in Hev. destruct Hev as (st & us & j & HE). rewrite HE in ES. cbn [ep_step] in ES. unfold handle_stream_event in ES. destruct (runs e); cbn [negb] in ES; [|left; congruence]. destruct (e_merge e _); [right; eexists|left]; apply (f_equal snd) in ES; cbn [snd] in ES; symmetry; exact ES. }
  destruct OU as [->|(m & ->)]; cbn [br_command]; [now apply (failed_terminal _ b s)|]. rewrite SB.
  set (t := tadd now (c_stream_timeout C)) in *. set (ck := compress_payload _ _ _). clearbody ck. set (s1 := s_set_deadline _ _). assert (S1' : s_phase s1 = SpResponding /\ s_ep s1 = [] /\ s_out s1 = [ck] /\ s_deadline s1 = Some t) by (unfold s1; cbn; rewrite S3; auto). destruct S1' as (T1 & T2 & T3 & T4). clearbody s1.
  set (b2 := br_set_deadline _ _). assert (B2 : br_stream b2 = Some s1 /\ br_phase b2 = BEst LRecvClosed /\ br_fin b2 = false) by (unfold b2; cbn; auto). destruct B2 as (B1 & B2 & B3). clearbody b2.
  unfold br_pump_out. rewrite B2, B1. assert (NF2 : br_failed b2 = false) by (unfold br_failed; now rewrite B2). rewrite NF2. assert (SF : s_failed s1 = None) by (unfold s_failed; now rewrite T1). rewrite SF. assert (SD : s_done s1 = false) by (unfold s_done; now rewrite T1). rewrite SD, andb_false_r. cbn [orb andb].
  unfold s_transmit, s_terminal, s_late. rewrite T1, T4, T3. destruct (N.leb_spec t now) as [L|_]; [lia|]. set (s2 := s_set_ev _ _). assert (E2 : s_ep s2 = []) by exact T2. clearbody s2. cbv beta iota.
  set (b3 := br_set_sent true _). assert (C3 : br_stream b3 = Some s2 /\ br_phase b3 = BEst LRecvClosed /\ br_fin b3 = false /\ br_sent b3 = true) by (unfold b3; cbn; auto). destruct C3 as (C1 & C2 & C3 & C4). clearbody b3.
  assert (NF3 : br_failed b3 = false) by (unfold br_failed; now rewrite C2).
  destruct (br_unit _ _ _ _ _ b3) as [un|]; [|now apply (failed_terminal _ b3 s2)].
  unfold br_finish. cbn [br_fin br_sent br_set_rec]. rewrite C3, C4. change (br_failed (br_set_rec (rl_write (br_rec b3) un) b3)) with (br_failed b3). rewrite NF3. cbn [negb andb orb]. unfold br_send_fin. cbn [br_phase br_set_fin br_set_rec]. rewrite C2. split; [reflexivity|]. exists s2. split; [exact C1|exact E2].
Qed.
Lemma reap_over b2 m q2 : x_kind m = None -> x_mint m = None -> aget x (q_ex q2) = Some m -> aget x (q_conns q2) = None -> sound q2 ->
  (exists id t, filter payload (logs_of x (q_log q2)) = [EStreamEv (ev id) t]) -> (dn = true -> In heard (k_ev (e_core (q_ep q2)))) -> over (reap C x b2 q2).
Proof.
  intros O3 M M2 F5 (I & R & LX) LG HD.
  assert (RN : q_ep (reap C x b2 q2) = q_ep q2 /\ q_next (reap C x b2 q2) = q_next q2).
  { unfold reap. set (q3 := if br_failed b2 then purge x q2 else snd (collect x b2 q2)).
    assert (G3 : q_ep q3 = q_ep q2 /\ q_ex q3 = q_ex q2 /\ q_next q3 = q_next q2) by (unfold q3, collect; rewrite M2; cbn [rl_transmit snd]; destruct (br_failed b2); [auto|]; destruct (r_out (br_rec b2)); auto). clearbody q3. destruct G3 as (G1 & G2 & G3). rewrite G2, M2, O3, M. cbn. split; congruence. }
  destruct (reap_spec C x b2 m q2 M2) as (_ & _ & CO & EX & _ & SX). destruct RN as (RN1 & RN2).
  split; [split; [now rewrite RN1|split; [unfold q_runs in *; rewrite RN1; exact R|rewrite RN2; exact LX]]|]. split; [now rewrite CO|]. split; [|now rewrite RN1].
  change (logs_of x (q_log (reap C x b2 q2))) with (sl_log (sl x (reap C x b2 q2))). rewrite SX. cbn [sl_log]. unfold news. rewrite O3, M. cbn [app]. now rewrite !app_nil_r.
Qed.
Lemma payload_ev id now : payload (EStreamEv (ev id) now) = true.
Proof. pose proof Hev as H. destruct dn; [now rewrite H|]. destruct H as (st & us & j & H). now rewrite H. Qed.
Lemma pump_last now q : A1 whole true q -> now < T -> T <= tadd now (c_stream_timeout C) -> over (pump_one C W B rnd now q x).
Proof.
  intros ((I & R & LX) & b & m & (O1 & O2 & O3 & O4) & P & M) LT TT. unfold pump_one. rewrite O1. destruct (replay_run _ _ _ [] now P ltac:(reflexivity) (app_nil_r _) LT) as (_ & P1). specialize (P1 eq_refl). apply (out_got _ _ now) in P1 as (P1 & PH); [|exact LT]. specialize (PH eq_refl). set (b1 := br_pump_out _ _ _ _) in *. clearbody b1. clear P O1. cbv zeta.
  set (q1 := q_set_conns _ q). assert (E1 : q_ex q1 = q_ex q /\ q_next q1 = q_next q /\ q_ep q1 = q_ep q /\ logs_of x (q_log q1) = logs_of x (q_log q) /\ aget x (q_conns q1) = None) by (unfold q1; cbn; rewrite aget_adel_eq; auto). clearbody q1. destruct E1 as (E1 & E2 & E3 & E4 & E5).
  destruct (g_stream _ _ P1) as (id & d & _ & ST). set (e := q_ep q1) in *. assert (RE : runs e = true) by (rewrite E3; exact R).
  set (e1 := fst (ep_step C e (EStreamEv (ev id) now))). set (e2 := fst (ep_step C e1 (EStreamEv SEClosed now))).
  assert (DE : e1 = fst (ep_step C e (EStreamEv (ev id) now))) by reflexivity. assert (D2 : e2 = fst (ep_step C e1 (EStreamEv SEClosed now))) by reflexivity.
  assert (I0 : einv C e) by (now rewrite E3). assert (I1 : einv C e1) by (rewrite DE; now apply einv_op). assert (I2 : einv C e2) by (rewrite D2; now apply einv_op).
  assert (H2 : dn = true -> In heard (k_ev (e_core e2))).
  { intros D. pose proof Hev as HE. rewrite D in HE. assert (H1 : In heard (k_ev (e_core e1))).
    { rewrite HE in DE. pose proof (data_step C e (EStreamEv (SEUser from data) now) I0) as DS. rewrite seen_none in DS by discriminate. cbn [filter app brings] in DS. rewrite RE in DS. rewrite <- DE in DS.
      assert (J : In heard (kind is_data e1)) by (rewrite DS; apply in_or_app; right; now left). now apply filter_In in J as (J & _). }
    rewrite D2; apply heard_keep; [exact I1|discriminate|exact H1]. }
  assert (R2 : runs e2 = true) by (rewrite D2, runs_keep, DE, runs_keep; auto; exact Logic.I).
  assert (DN : dn = true \/ dn = false) by (destruct dn; auto). destruct DN as [DN|DN]; rewrite DN in PH.
  - assert (TE : br_terminal b1 = true) by (unfold br_terminal; now rewrite PH). rewrite TE, (drain_got now b1 e id d DN ST RE). fold e1. fold e2. clearbody e1 e2. clear DE D2. cbn [drained map]. apply (reap_over _ m); auto; cbn [q_ex q_conns q_set_log q_set_ep]; rewrite ?E1; auto.
    + split; [exact I2|split; [exact R2|cbn; now rewrite E2]].
    + exists id, now. cbn [q_log q_set_log q_set_ep]. change [(Some x, EStreamEv (ev id) now); (Some x, EStreamEv SEClosed now)] with (map (fun o => (Some x, o)) [EStreamEv (ev id) now; EStreamEv SEClosed now]). rewrite logs_app, logs_tag, E4, filter_app, O4. cbn [app filter]. rewrite payload_ev. reflexivity.
  - assert (TE : br_terminal b1 = false) by (unfold br_terminal; now rewrite PH). rewrite TE. destruct (answered now b1 id d e DN P1 PH ST ltac:(lia)) as (b2 & EQ & T2 & s2 & ST2 & SE2). rewrite EQ. fold e1. cbn [drained map]. rewrite T2. cbn [q_ep q_set_log q_set_ep]. rewrite (drain_none now b2 s2 _ ST2 SE2). fold e2. clearbody e1 e2. clear DE D2. cbn [drained map]. apply (reap_over _ m); auto; cbn [q_ex q_conns q_set_log q_set_ep]; rewrite ?E1; auto.
    + split; [exact I2|split; [exact R2|cbn; now rewrite E2]].
    + exists id, now. cbn [q_log q_set_log q_set_ep]. rewrite <- app_assoc. change ([(Some x, EStreamEv (ev id) now)] ++ [(Some x, EStreamEv SEClosed now)]) with (map (fun o => (Some x, o)) [EStreamEv (ev id) now; EStreamEv SEClosed now]). rewrite logs_app, logs_tag, E4, filter_app, O4. cbn [app filter]. rewrite payload_ev. reflexivity.
Qed.
(** *** Minting *)
Lemma mint_A0 fed eof l now q y : A0 fed eof (y :: l) q -> T <= tadd now (c_stream_timeout C) ->
  (A0 fed eof l (mint_one C W now q y) /\ (y = x -> eof = true -> fed = whole -> False)) \/ (A1 fed eof (mint_one C W now q y) /\ In x (q_dirty (mint_one C W now q y))).
Proof.
  intros A LT. destruct (N.eq_dec y x) as [->|N].
  2:{ left. split; [|congruence]. assert (A' : A0 fed eof l q). { destruct A as (S & b & m & O & P & M & J). split; [exact S|]. exists b, m. split; [exact O|]. split; [exact P|]. split; [exact M|]. destruct J as [J|J]; [congruence|exact J]. }
      eapply A0_apart; [apply alone_apart, alone_mint_one; exact N|exact A']. }
  destruct A as ((I & R & LX) & b & m & (O1 & O2 & O3 & O4) & P & M & _). unfold mint_one. rewrite O1.
  assert (TE : br_terminal b = false) by (unfold br_terminal; now rewrite (p_phase _ _ _ P)). rewrite TE. destruct (br_handshaking b) eqn:HS.
  - left. split.
    + split; [split; [exact I|split; [exact R|exact LX]]|]. exists b, m. split; [split; [exact O1|split; [exact O2|split; [exact O3|exact O4]]]|]. split; [exact P|]. split; [exact M|]. apply in_or_app. right. cbn. rewrite in_oset by exact rnd. auto.
    + intros _ _ ->. destruct (all_seen _ _ (p_rec _ _ _ P)) as (_ & NH). unfold br_handshaking in HS. rewrite (p_phase _ _ _ P) in HS. congruence.
  - right. rewrite O2, M. cbv zeta. set (q1 := mark_dirty x _).
    assert (E1 : q_ep q1 = q_ep q /\ q_conns q1 = q_conns q /\ q_next q1 = q_next q /\ q_log q1 = q_log q /\ aget x (q_ex q1) = Some (x_set_mint None m) /\ In x (q_dirty q1)) by (unfold q1; cbn; rewrite aget_aset_eq, in_oset; auto 8).
    clearbody q1. destruct E1 as (E1 & E2 & E3 & E4 & E5 & E6). rewrite call_eq.
    assert (ST : snd (ep_step C (q_ep q1) (EAccept from now)) = [OStream (fst (alloc_sid (q_ep q1))) from None (tadd now (c_stream_timeout C))]).
    { cbn [ep_step]. unfold accept_stream. unfold q_runs in R. rewrite E1, R. cbn [negb]. destruct (alloc_sid (q_ep q)); reflexivity. }
    rewrite ST. set (sid := fst _). clearbody sid. rewrite Hlid, Hmax. unfold promote_in. cbn [q_conns q_set_log q_set_ep]. rewrite E2, O1.
    pose proof (promote_stage _ _ _ sid (tadd now (c_stream_timeout C)) P LT) as L.
    assert (EI : einv C (fst (ep_step C (q_ep q1) (EAccept from now)))) by (apply einv_op; now rewrite E1).
    split; [|exact E6]. split; [split; [exact EI|split; [unfold q_runs in *; cbn [q_ep q_set_conns q_set_log q_set_ep]; rewrite E1, runs_keep; auto; exact Logic.I|cbn; now rewrite E3]]|].
    eexists _, _. split; [split; [cbn; rewrite aget_aset_eq; reflexivity|split; [exact E5|split; [exact O3|]]]|].
    + cbn. rewrite logs_app, logs_one, E4, filter_app, O4. cbn. rewrite N.eqb_refl. reflexivity.
    + split; [left; exact L|reflexivity].
Qed.
Lemma mint_A1 fed eof now q y : A1 fed eof q -> A1 fed eof (mint_one C W now q y) /\ (In x (q_dirty q) -> In x (q_dirty (mint_one C W now q y))).
Proof.
  intros A. destruct (N.eq_dec y x) as [->|N]; [|pose proof (alone_mint_one now q y N) as AL; split; [eapply A1_apart; [apply alone_apart, AL|exact A]|apply AL]].
  pose proof A as ((I & R & LX) & b & m & (O1 & O2 & O3 & O4) & P & M). unfold mint_one. rewrite O1. destruct (br_terminal b); [auto|].
  assert (HS : br_handshaking b = false). { unfold br_handshaking. destruct P as [L|(_ & G)]; [now rewrite (l_phase _ _ _ L)|]. pose proof (g_phase _ _ G) as PH. destruct eof; [destruct PH as [(-> & _)|(-> & _)]|destruct PH as (_ & [(-> & _)|(-> & _)])]; reflexivity. }
  rewrite HS, O2, M. split; [exact A|auto].
Qed.
Lemma mint_over now q y : over q -> over (mint_one C W now q y).
Proof.
  intros O. destruct (N.eq_dec y x) as [->|N]; [|eapply over_alone; [now apply alone_mint_one|exact O]]. unfold mint_one. destruct O as (S & O1 & O2). rewrite O1. split; auto.
Qed.
Lemma pump_over now q y : over q -> over (pump_one C W B rnd now q y).
Proof.
  intros O. destruct (N.eq_dec y x) as [->|N]; [|eapply over_alone; [now apply alone_pump_one|exact O]]. unfold pump_one. destruct O as (S & O1 & O2). rewrite O1. split; auto.
Qed.
(** *** Collecting *)
Lemma collect_own q b m : aget x (q_conns q) = Some b -> aget x (q_ex q) = Some m -> let q' := collect_one q x in
  aget x (q_conns q') = Some (br_set_rec (fst (rl_transmit (br_rec b))) b) /\ q_ex q' = q_ex q /\ q_ep q' = q_ep q /\ q_log q' = q_log q /\ q_next q' = q_next q /\ q_unminted q' = q_unminted q.
Proof.
  intros G M. unfold collect_one. rewrite G. unfold collect. cbn [q_ex q_set_conns]. rewrite M. cbn [rl_transmit fst]. destruct (r_out (br_rec b)); cbn; rewrite aget_aset_eq; auto 8.
Qed.
Lemma collect_A0 fed eof l q y : A0 fed eof l q -> A0 fed eof l (collect_one q y).
Proof.
  intros A. destruct (N.eq_dec y x) as [->|N]; [|eapply A0_apart; [apply alone_apart, alone_collect_one; exact N|exact A]].
  destruct A as ((I & R & LX) & b & m & (O1 & O2 & O3 & O4) & P & M & J). destruct (collect_own q b m O1 O2) as (C1 & C2 & C3 & C4 & C5 & C6). set (q1 := collect_one q x) in *. clearbody q1.
  split; [split; [now rewrite C3|split; [unfold q_runs in *; now rewrite C3|now rewrite C5]]|]. eexists _, m. split; [split; [exact C1|split; [now rewrite C2|split; [exact O3|now rewrite C4]]]|]. split; [now apply transmit_pre|]. split; [exact M|]. now rewrite C6.
Qed.
Lemma collect_A1 fed eof q y : A1 fed eof q -> A1 fed eof (collect_one q y).
Proof.
  intros A. destruct (N.eq_dec y x) as [->|N]; [|eapply A1_apart; [apply alone_apart, alone_collect_one; exact N|exact A]].
  destruct A as ((I & R & LX) & b & m & (O1 & O2 & O3 & O4) & P & M). destruct (collect_own q b m O1 O2) as (C1 & C2 & C3 & C4 & C5 & C6). set (q1 := collect_one q x) in *. clearbody q1.
  split; [split; [now rewrite C3|split; [unfold q_runs in *; now rewrite C3|now rewrite C5]]|]. eexists _, m. split; [split; [exact C1|split; [now rewrite C2|split; [exact O3|now rewrite C4]]]|]. split; [now apply transmit_run|exact M].
Qed.
Lemma collect_over q y : over q -> over (collect_one q y).
Proof.
  intros O. destruct (N.eq_dec y x) as [->|N]; [|eapply over_alone; [now apply alone_collect_one|exact O]]. unfold collect_one. destruct O as (S & O1 & O2). rewrite O1. split; auto.
Qed.
Lemma keep_fold {A} (P : coord -> Prop) (f : coord -> A -> coord) : (forall q a, P q -> P (f q a)) -> forall l q, P q -> P (fold_left f l q).
Proof. intros H l. induction l as [|a l IH]; intros q T0; [exact T0|]. cbn. auto. Qed.

(** *** One call, the message still coming *)
Definition under (fed : bytes) (q : coord) : Prop := A0 fed false [] q \/ A1 fed false q.
Definition timely (now : N) : Prop := now < T /\ T <= tadd now (c_stream_timeout C).
Lemma under_apart fed q q' : apart q q' -> under fed q -> under fed q'.
Proof. intros A [U|U]; [left; eapply A0_apart|right; eapply A1_apart]; eauto. Qed.
Lemma under_pumps fed more now q : under fed q -> fed ++ more = whole -> now < T -> under fed (pump_all C W B rnd now q).
Proof.
  intros [U|U] EW LT; [left|right]; unfold pump_all.
  - apply (keep_fold (A0 fed false [])); [intros; now apply pump_A0|exact U].
  - apply (keep_fold (A1 fed false)); [intros; now apply (pump_A1 fed more)|exact U].
Qed.
Lemma mints_A1 fed eof now l : forall q, A1 fed eof q -> A1 fed eof (fold_left (mint_one C W now) l q) /\ (In x (q_dirty q) -> In x (q_dirty (fold_left (mint_one C W now) l q))).
Proof. induction l as [|y l IH]; intros q U; [auto|]. cbn [fold_left]. destruct (mint_A1 fed eof now q y U) as (U1 & D1). destruct (IH _ U1) as (U2 & D2). auto. Qed.
Lemma under_mints fed now q : under fed q -> timely now -> under fed (mint_all C W now q).
Proof.
  intros U (_ & LT). unfold mint_all. destruct U as [U|U]; [|right; now apply mints_A1].
  assert (U1 : A0 fed false (q_unminted q) (q_set_unminted [] q)). { destruct U as (S & b & m & O & P & M & J). split; [exact S|]. exists b, m. repeat (split; [assumption|]). cbn in *. now rewrite app_nil_r. }
  revert U1. generalize (q_unminted q) as l, (q_set_unminted [] q) as q1. clear q U. induction l as [|y l IH]; intros q U; [now left|]. cbn [fold_left].
  destruct (mint_A0 fed false l now q y U LT) as [(U1 & _)|(U1 & _)]; [now apply IH|right; now apply mints_A1].
Qed.
Lemma under_collects fed q : under fed q -> under fed (collect_all q).
Proof.
  intros [U|U]; [left|right]; unfold collect_all.
  - apply (keep_fold (A0 fed false [])); [intros; now apply collect_A0|exact U].
  - apply (keep_fold (A1 fed false)); [intros; now apply collect_A1|exact U].
Qed.
Lemma under_sound fed q : under fed q -> sound q.
Proof. intros [(S & _)|(S & _)]; exact S. Qed.
Lemma under_call fed o q : ordinary_op o -> under fed q -> under fed (call_ C None o q).
Proof. intros O. apply under_apart, alone_apart, alone_call; [discriminate|exact O]. Qed.
Lemma under_dials fed now q : under fed q -> under fed (dial_all C Q now q).
Proof. intros U. eapply under_apart; [apply alone_apart, alone_dial_all, (under_sound _ _ U)|exact U]. Qed.
Lemma under_tick fed more now q : under fed q -> fed ++ more = whole -> timely now -> under fed (tick C Q W B rnd now q).
Proof.
  intros U EW TM. unfold tick. cbv zeta. pose proof TM as (LT & _).
  apply (under_pumps fed more now) in U; auto. apply (under_call fed (ETimeout now)) in U; [|exact Logic.I]. apply (under_mints fed now) in U; auto. apply (under_dials fed now) in U. apply (under_mints fed now) in U; auto.
  apply (under_pumps fed more now) in U; auto. apply (under_collects fed) in U. exact U.
Qed.
Lemma under_flush fed more now q : under fed q -> fed ++ more = whole -> timely now -> under fed (flush C W B rnd now q).
Proof.
  intros U EW TM. unfold flush. pose proof TM as (LT & _). apply (under_pumps fed more now) in U; auto. apply (under_mints fed now) in U; auto. apply (under_pumps fed more now) in U; auto. now apply (under_collects fed) in U.
Qed.
Lemma under_start fed more o k now q : ordinary_op o -> under fed q -> fed ++ more = whole -> timely now -> under fed (fst (CoordModel.start C Q W B rnd o k now q)).
Proof.
  intros NO U EW TM. unfold CoordModel.start. assert (U1 : under fed (q_set_last (Some now) q)) by exact U. pose proof (under_call fed o _ NO U1) as U2. unfold call_ in U2. destruct (call C None o _) as [q2 outs]. cbn [fst] in U2.
  destruct outs as [|[] [|]]; try exact U2. cbn [fst]. apply (under_flush fed more); auto. now apply under_dials.
Qed.
Lemma under_event fed n : forall q, under fed q -> under fed (fst (poll_event_loop C n q)).
Proof.
  induction n as [|n IH]; intros q U; [exact U|]. cbn [poll_event_loop]. assert (U1 : under fed (call_ C None EPollEvent q)) by (eapply under_apart; [apply apart_poll|exact U]). unfold call_ in U1. destruct (call C None EPollEvent q) as [q1 outs]. cbn [fst] in U1.
  destruct outs as [|[] [|]]; try exact U1. all: match goal with v : event |- _ => destruct v; try exact U1 end. apply IH. exact U1.
Qed.
(** the calls allowed meanwhile, and what they bring to [x] *)
Definition mild (o : qop) : Prop :=
  match o with
  | QData y _ eof now => timely now /\ (y = x -> eof = false)
  | QDialFailed y now | QLost y now => timely now /\ y <> x
  | QPushPull _ _ now | QReliable _ _ _ _ now | QUserMsg _ _ now | QTimeout now => timely now
  | QLeave _ _ | QEncrypt _ => False
  | _ => True
  end.
Definition bit (o : qop) : bytes := match o with QData y d _ _ => if y =? x then d else [] | _ => [] end.
Lemma under_data fed more d b now q : under fed q -> fed ++ d ++ more = whole -> now < T -> aget x (q_conns q) = Some b ->
  under (fed ++ d) (q_set_conns (aset x (match d with [] => b | _ => br_data W B d now b end) (q_conns q)) q).
Proof.
  intros U EW LT G. destruct U as [((I & R & LX) & b0 & m & (O1 & O2 & O3 & O4) & P & M & J)|((I & R & LX) & b0 & m & (O1 & O2 & O3 & O4) & P & M)]; assert (b0 = b) as -> by congruence.
  - left. split; [split; [exact I|split; [exact R|exact LX]]|]. eexists _, m. split; [split; [cbn; rewrite aget_aset_eq; reflexivity|split; [exact O2|split; [exact O3|exact O4]]]|]. split; [|split; [exact M|exact J]].
    destruct d as [|c d]; [now rewrite app_nil_r|]. eapply chunk_pre; eauto. discriminate.
  - right. split; [split; [exact I|split; [exact R|exact LX]]|]. eexists _, m. split; [split; [cbn; rewrite aget_aset_eq; reflexivity|split; [exact O2|split; [exact O3|exact O4]]]|]. split; [|exact M].
    destruct d as [|c d]; [now rewrite app_nil_r|]. eapply chunk_run; eauto. discriminate.
Qed.
Lemma under_has fed q : under fed q -> exists b, aget x (q_conns q) = Some b.
Proof. intros [(_ & b & m & (O1 & _) & _)|(_ & b & m & (O1 & _) & _)]; eauto. Qed.
Lemma under_step fed more q o : good C q -> under fed q -> mild o -> fed ++ bit o ++ more = whole -> under (fed ++ bit o) (fst (q_step C Q W B rnd q o)).
Proof.
  intros G U M EW. destruct o; cbn [q_step bit mild] in *; rewrite ?app_nil_r; try contradiction; try (cbn [app] in EW); try (cbn [fst]; exact U).
  - destruct M as (TM & NE). cbn [fst]. unfold on_data. destruct (N.eqb_spec x0 x) as [->|N].
    + specialize (NE eq_refl). subst eof. eapply under_tick; [|rewrite app_assoc in EW; exact EW|exact TM]. unfold on_bridge. change (q_conns (q_set_last (Some now) q)) with (q_conns q). destruct (under_has _ _ U) as (b & GB). rewrite GB.
      pose proof (under_data fed more data0 b now (q_set_last (Some now) q) U EW (proj1 TM) GB) as U1. eapply under_apart; [|exact U1]. apply alone_apart. still. rewrite in_oset; auto.
    + rewrite app_nil_r. eapply under_tick; [|exact EW|exact TM]. eapply under_apart; [|exact U]. apply alone_apart. eapply alone_trans with (b := q_set_last (Some now) q); [still|]. unfold on_bridge. destruct (aget x0 (q_conns (q_set_last (Some now) q))) as [b|]; [eapply alone_trans; [apply alone_put; exact N|]|]; still; rewrite in_oset; auto.
  - destruct M as (TM & N). cbn [fst]. unfold on_failure. eapply under_tick; [|exact EW|exact TM]. eapply under_apart; [|exact U]. apply alone_apart. eapply alone_trans with (b := q_set_last (Some now) q); [still|]. unfold on_bridge. destruct (aget x0 (q_conns (q_set_last (Some now) q))) as [b|]; [eapply alone_trans; [apply alone_put; exact N|]|]; still; rewrite in_oset; auto.
  - destruct M as (TM & N). cbn [fst]. unfold on_failure. eapply under_tick; [|exact EW|exact TM]. eapply under_apart; [|exact U]. apply alone_apart. eapply alone_trans with (b := q_set_last (Some now) q); [still|]. unfold on_bridge. destruct (aget x0 (q_conns (q_set_last (Some now) q))) as [b|]; [eapply alone_trans; [apply alone_put; exact N|]|]; still; rewrite in_oset; auto.
  - assert (X : alone q (fst (accept C Q from0 now q))).
    { unfold accept. cbv zeta. destruct (negb _); [still|]. destruct (match qc_max_in Q with Some max => _ | None => _ end); [still|]. cbn [fst]. assert (LX : x < q_next q) by apply (under_sound _ _ U). eapply (alone_open (q_next q)); try reflexivity; cbn; try lia; try (rewrite in_oset); auto. }
    destruct (accept C Q from0 now q) as [q1 r]. cbn [fst] in *. eapply under_apart; [apply alone_apart, X|exact U].
  - pose proof (under_start fed more (EPushPull peer join now) XPushPull now q Logic.I U EW M) as T1. destruct (CoordModel.start _ _ _ _ _ _ _ _ _); exact T1.
  - pose proof (under_start fed more (EReliable id addr seq deadline) XReliablePing now q Logic.I U EW M) as T1. destruct (CoordModel.start _ _ _ _ _ _ _ _ _); exact T1.
  - pose proof (under_start fed more (EUserMsg peer data0 now) XUserMessage now q Logic.I U EW M) as T1. destruct (CoordModel.start _ _ _ _ _ _ _ _ _); exact T1.
  - cbn [fst]. unfold on_timeout. cbv zeta. eapply under_tick; [|exact EW|exact M]. eapply under_apart; [|exact U]. apply alone_apart. eapply alone_trans with (b := q_set_last (Some now) q); [still|]. apply alone_fold. intros; still; rewrite in_oset; auto.
  - cbn [fst]. unfold on_gossip. cbv zeta. eapply under_apart; [|exact U]. apply alone_apart. destruct (negb _); [still|]. destruct (_ <=? _); still.
  - unfold poll_bytes. destruct (q_out q) as [|t r] eqn:E; cbn [fst]; [exact U|]. eapply under_apart; [|exact U]. apply alone_apart. still.
  - unfold poll_action. destruct (q_con q) as [|[[y p] s] r]; [destruct (take_first _ _) as [[t r]|]|]; cbn [fst]; try exact U; (eapply under_apart; [|exact U]; apply alone_apart; still).
  - pose proof (under_event fed (S (length (k_ev (e_core (q_ep q))))) q U) as T1. unfold poll_event. destruct (poll_event_loop C _ q); exact T1.
  - unfold poll_ingress. destruct (q_ing q); cbn [fst]; [exact U|]. eapply under_apart; [|exact U]. apply alone_apart. still.
  - cbn [fst]. unfold requeue. cbv zeta. destruct ev0; try (apply under_call; [exact Logic.I|exact U]). destruct (negb _); (eapply under_apart; [|exact U]; apply alone_apart; still).
  - destruct (plain o) eqn:PL; [|exact U]. destruct (plain_not o PL) as (_ & NO & _). set (q1 := match last with Some n => _ | None => q end). assert (T1 : under fed q1) by (unfold q1; destruct last; exact U). clearbody q1.
    pose proof (under_call fed o q1 NO T1) as T2. unfold call_ in T2. destruct (call C None o q1); exact T2.
  - cbn [fst]. eapply under_apart; [|exact U]. apply alone_apart. destruct G as (h & c & (G & _)). pose proof (qi_nc _ _ _ _ _ _ G) as NC. pose proof (qi_nx _ _ _ _ _ _ G) as NX. still; apply perm_aget; auto using shuffle_perm.
Qed.
Lemma under_run os : forall fed more q, good C q -> under fed q -> Forall mild os -> fed ++ flat_map bit os ++ more = whole -> under (fed ++ flat_map bit os) (fst (q_run C Q W B rnd q os)).
Proof.
  induction os as [|o os IH]; intros fed more q G U F EW; [cbn in *; now rewrite app_nil_r|]. apply Forall_cons_iff in F as (F1 & F2). cbn [flat_map] in *. rewrite <- app_assoc in EW.
  pose proof (under_step fed (flat_map bit os ++ more) q o G U F1 EW) as U1. pose proof (good_step C Q W B rnd o q G) as G1. cbn [q_run]. destruct (q_step C Q W B rnd q o) as [q1 y1]. cbn [fst] in U1, G1.
  rewrite app_assoc in EW. specialize (IH _ _ _ G1 U1 F2 EW). destruct (q_run C Q W B rnd q1 os). rewrite app_assoc. exact IH.
Qed.

(** *** The end of the peer's stream *)
Lemma pumps_last now : timely now -> forall l q, (A0 whole true [] q \/ over q) \/ (A1 whole true q /\ In x l) -> A0 whole true [] (fold_left (pump_one C W B rnd now) l q) \/ over (fold_left (pump_one C W B rnd now) l q).
Proof.
  intros (LT & TT) l. induction l as [|y l IH]; intros q H; [destruct H as [H|(_ & [])]; exact H|]. cbn [fold_left]. apply IH. destruct H as [[H|H]|(H & J)].
  - left. left. now apply pump_A0.
  - left. right. now apply pump_over.
  - destruct (N.eq_dec y x) as [->|N]; [left; right; now apply pump_last|]. right. split; [|destruct J as [J|J]; [congruence|exact J]]. eapply A1_apart; [apply alone_apart, alone_pump_one; exact N|exact H].
Qed.
Lemma mints_last now : timely now -> forall l q, (A0 whole true l q /\ In x l) \/ over q -> (A1 whole true (fold_left (mint_one C W now) l q) /\ In x (q_dirty (fold_left (mint_one C W now) l q))) \/ over (fold_left (mint_one C W now) l q).
Proof.
  intros (_ & LT) l. induction l as [|y l IH]; intros q H; [destruct H as [(_ & [])|H]; now right|]. cbn [fold_left]. destruct H as [(H & J)|H]; [|apply IH; right; now apply mint_over].
  destruct (mint_A0 whole true l now q y H LT) as [(H1 & NX)|(H1 & D1)].
  - apply IH. left. split; [exact H1|]. destruct J as [J|J]; [exfalso; auto|exact J].
  - left. destruct (mints_A1 whole true now l _ H1) as (H2 & D2). auto.
Qed.
Lemma tick_last now q : A0 whole true [] q \/ A1 whole true q -> In x (q_dirty q) -> timely now -> over (tick C Q W B rnd now q).
Proof.
  intros H D TM. pose proof TM as (LT & TT). unfold tick. cbv zeta.
  assert (H1 : A0 whole true [] (pump_all C W B rnd now q) \/ over (pump_all C W B rnd now q)) by (unfold pump_all; apply pumps_last; [exact TM|]; destruct H; [left; left|right; split]; assumption). set (q1 := pump_all _ _ _ _ _ q) in *. clearbody q1.
  assert (H2 : A0 whole true [] (call_ C None (ETimeout now) q1) \/ over (call_ C None (ETimeout now) q1)).
  { pose proof (alone_call None (ETimeout now) q1 ltac:(discriminate) Logic.I) as A. destruct H1 as [H1|H1]; [left; eapply A0_apart; [apply alone_apart|]; eauto|right; eapply over_alone; eauto]. }
  set (q2 := call_ C None (ETimeout now) q1) in *. clearbody q2.
  assert (H3 : (A1 whole true (mint_all C W now q2) /\ In x (q_dirty (mint_all C W now q2))) \/ over (mint_all C W now q2)).
  { unfold mint_all. apply mints_last; [exact TM|]. destruct H2 as [(S & b & m & O & P & M & J)|H2]; [left|right; exact H2]. cbn [app] in J. split; [|exact J]. split; [exact S|]. exists b, m. repeat (split; [assumption|]). cbn. now rewrite app_nil_r. }
  set (q3 := mint_all C W now q2) in *. clearbody q3.
  assert (H4 : (A1 whole true (dial_all C Q now q3) /\ In x (q_dirty (dial_all C Q now q3))) \/ over (dial_all C Q now q3)).
  { destruct H3 as [(H3 & D3)|H3].
    - pose proof (alone_dial_all now q3 ltac:(apply H3)) as A. left. split; [eapply A1_apart; [apply alone_apart|]; eauto|now apply A].
    - right. eapply over_alone; [apply alone_dial_all, H3|exact H3]. }
  set (q4 := dial_all C Q now q3) in *. clearbody q4.
  assert (H5 : (A1 whole true (mint_all C W now q4) /\ In x (q_dirty (mint_all C W now q4))) \/ over (mint_all C W now q4)).
  { unfold mint_all. destruct H4 as [(H4 & D4)|H4].
    - left. destruct (mints_A1 whole true now (q_unminted q4) (q_set_unminted [] q4) H4) as (X & Y). auto.
    - right. apply (keep_fold over); [intros; now apply mint_over|exact H4]. }
  set (q5 := mint_all C W now q4) in *. clearbody q5.
  assert (H6 : over (pump_all C W B rnd now q5)).
  { unfold pump_all. destruct H5 as [(H5 & D5)|H5].
    - assert (X : forall l q, (A1 whole true q /\ In x l) \/ over q -> over (fold_left (pump_one C W B rnd now) l q)).
      { intros l. induction l as [|y l IH]; intros qq HH; [destruct HH as [(_ & [])|HH]; exact HH|]. cbn [fold_left]. apply IH. destruct HH as [(HH & J)|HH]; [|right; now apply pump_over].
        destruct (N.eq_dec y x) as [->|N]; [right; now apply pump_last|]. left. split; [|destruct J as [J|J]; [congruence|exact J]]. eapply A1_apart; [apply alone_apart, alone_pump_one; exact N|exact HH]. }
      apply X. left. split; [exact H5|exact D5].
    - apply (keep_fold over); [intros; now apply pump_over|exact H5]. }
  set (q6 := pump_all _ _ _ _ _ q5) in *. clearbody q6.
  assert (H7 : over (collect_all q6)) by (unfold collect_all; apply (keep_fold over); [intros; now apply collect_over|exact H6]). exact H7.
Qed.
Lemma data_last fed c now q : under fed q -> fed ++ c = whole -> timely now -> over (on_data C Q W B rnd x c true now q).
Proof.
  intros U EW TM. unfold on_data. apply tick_last; [|cbn; rewrite in_oset; now left|exact TM]. unfold on_bridge. change (q_conns (q_set_last (Some now) q)) with (q_conns q). destruct (under_has _ _ U) as (b & GB). rewrite GB.
  assert (EW' : fed ++ c ++ [] = whole) by now rewrite app_nil_r. pose proof (under_data fed [] c b now (q_set_last (Some now) q) U EW' (proj1 TM) GB) as U1. rewrite EW in U1. set (b1 := match c with [] => b | _ => _ end) in *. clearbody b1.
  change (q_conns (q_set_last (Some now) q)) with (q_conns q) in U1.
  destruct U1 as [((I & R & LX) & b0 & m & (O1 & O2 & O3 & O4) & P & M & J)|((I & R & LX) & b0 & m & (O1 & O2 & O3 & O4) & P & M)]; cbn in O1; rewrite aget_aset_eq in O1; injection O1 as <-.
  - left. split; [split; [exact I|split; [exact R|exact LX]]|]. eexists _, m. split; [split; [cbn; rewrite aget_aset_eq; reflexivity|split; [exact O2|split; [exact O3|exact O4]]]|]. split; [now apply eof_pre|split; [exact M|exact J]].
  - right. split; [split; [exact I|split; [exact R|exact LX]]|]. eexists _, m. split; [split; [cbn; rewrite aget_aset_eq; reflexivity|split; [exact O2|split; [exact O3|exact O4]]]|]. split; [|exact M]. apply eof_run; [exact P|apply TM].
Qed.
(** *** The beginning *)
Lemma accept_under t0 q q1 : good C q -> q_kr q = kr -> T <= tadd t0 (qc_accept Q) -> q_step C Q W B rnd q (QAccept from t0) = (q1, [YId x]) -> under [] q1.
Proof.
  intros G K LT. cbn [q_step]. unfold accept. cbv zeta. change (q_runs (q_set_last (Some t0) q)) with (q_runs q). destruct (q_runs q) eqn:R; cbn [negb]; [|cbn; discriminate]. destruct (match qc_max_in Q with Some max => _ | None => _ end); [cbn; discriminate|].
  cbn [opt q_next q_set_last]. intros E. injection E as <- EX. left.
  assert (FR : logs_of x (q_log q) = []). { destruct G as (h & c & (GI & _)). destruct (qi_fresh _ _ _ _ _ _ GI x ltac:(lia)) as (S & _). unfold sl, empty in S. congruence. }
  split; [split; [exact (good_e C q G)|split; [exact R|cbn; lia]]|]. eexists _, _. split; [split; [cbn; rewrite EX, aget_aset_eq; reflexivity|split; [cbn; rewrite EX, aget_aset_eq; reflexivity|split; [reflexivity|cbn; now rewrite FR]]]|].
  split; [|split; [reflexivity|cbn; rewrite in_oset; now left]]. cbn [q_kr q_set_next q_set_last]. rewrite Hlab, Hskip, Hmax, K. now apply new_pre.
Qed.
Theorem arrives t0 q q1 os c now : good C q -> q_kr q = kr -> T <= tadd t0 (qc_accept Q) -> q_step C Q W B rnd q (QAccept from t0) = (q1, [YId x]) ->
  Forall mild os -> flat_map bit os ++ c = whole -> timely now ->
  let q2 := fst (q_run C Q W B rnd q1 os) in over (fst (q_step C Q W B rnd q2 (QData x c true now))).
Proof.
  intros G K LT E F EW TM q2. pose proof (accept_under t0 q q1 G K LT E) as U. pose proof (good_step C Q W B rnd (QAccept from t0) q G) as G1. rewrite E in G1. cbn [fst] in G1.
  pose proof (under_run os [] c q1 G1 U F EW) as U2. cbn [q_step fst]. eapply data_last; [exact U2|exact EW|exact TM].
Qed.
End Deliver.

(** ** Polling until the event comes *)
Section Poll.
Context (C : cfg) (Q : qcfg) (W : wcodec) (B : backends) (rnd : N -> N -> option bytes).
Lemma loop_gives ev : is_dial ev = false -> forall n q, (length (k_ev (e_core (q_ep q))) < n)%nat -> In ev (k_ev (e_core (q_ep q))) ->
  exists q' ev', poll_event_loop C n q = (q', Some ev') /\ (ev' = ev \/ In ev (k_ev (e_core (q_ep q')))) /\ (length (k_ev (e_core (q_ep q'))) < length (k_ev (e_core (q_ep q))))%nat.
Proof.
  intros ND. induction n as [|n IH]; intros q L J; [lia|]. cbn [poll_event_loop]. rewrite call_eq. pose proof (poll_tl C (q_ep q)) as TL. cbn [ep_step snd].
  change (fst (act C KPoll (q_ep q), _)) with (act C KPoll (q_ep q)). cbn [ep_step fst] in TL. set (e1 := act C KPoll (q_ep q)) in *. clearbody e1. destruct (k_ev (e_core (q_ep q))) as [|v r]; [destruct J|]. cbn [tl length] in *.
  destruct (is_dial v) eqn:DV.
  - destruct v; try discriminate DV. destruct J as [J|J]; [rewrite <- J in ND; discriminate|]. match goal with |- context [poll_event_loop C n ?z] => destruct (IH z) as (q' & ev' & E & H1 & H2) end; cbn [q_ep q_set_dials q_set_log q_set_ep] in *; try (rewrite TL; first [lia|exact J]).
    exists q', ev'. split; [exact E|]. split; [exact H1|]. rewrite TL in H2. lia.
  - exists (q_set_log (q_log q ++ [(None, EPollEvent)]) (q_set_ep e1 q)), v. split; [destruct v; try discriminate DV; reflexivity|]. cbn [q_ep q_set_log q_set_ep]. rewrite TL. split; [destruct J; auto|lia].
Qed.
Lemma polls_give ev : is_dial ev = false -> forall n q, (length (k_ev (e_core (q_ep q))) <= n)%nat -> In ev (k_ev (e_core (q_ep q))) -> In (YEvent ev) (snd (q_run C Q W B rnd q (repeat QPollEvent n))).
Proof.
  intros ND. induction n as [|n IH]; intros q L J; [destruct (k_ev (e_core (q_ep q))); [destruct J|cbn in L; lia]|]. cbn [repeat q_run q_step]. unfold poll_event.
  destruct (loop_gives ev ND _ q (Nat.lt_succ_diag_r _) J) as (q' & ev' & E & H1 & H2). rewrite E. cbn [opt]. specialize (IH q'). destruct (q_run C Q W B rnd q' (repeat QPollEvent n)) as [q2 y2]. cbn [snd] in *.
  destruct H1 as [-> |H1]; [now left|]. right. apply IH; [lia|exact H1].
Qed.
End Poll.
Lemma logs_filter x (f : eop -> bool) (l : list (option N * eop)) os : filter f (logs_of x l) = os -> filter (fun p => match fst p with Some y => (y =? x) && f (snd p) | None => false end) l = map (fun o => (Some x, o)) os.
Proof.
  intros <-. induction l as [|[[y|] o] l IH]; [reflexivity| |]; unfold logs_of in *; cbn [filter mine fst snd]; [|exact IH].
  destruct (N.eqb_spec y x) as [->|N]; cbn [andb map filter]; [|exact IH]. cbn [snd]. destruct (f o); cbn [map]; [f_equal|]; exact IH.
Qed.
