(** Proofs about cluster labels. *)
From Verif Require Import Base BaseFacts LabelModel LabelSpec.
Local Open Scope N_scope.

Lemma bytes_eqb_spec a : forall b, reflect (a = b) (bytes_eqb a b).
Proof.
  induction a as [|x a IH]; intros [|y b]; cbn [bytes_eqb]; try (constructor; congruence).
  destruct (N.eqb_spec x y); cbn [andb]; [|constructor; congruence].
  destruct (IH b); constructor; congruence.
Qed.

(** Every decided verdict survives more input. *)
Lemma classify_extend buf more exp skip :
  match classify_header buf exp skip with
  | VIncomplete => True
  | v => classify_header (buf ++ more) exp skip = v
  end.
Proof.
  destruct buf as [|b0 r]; [exact I|].
  cbn [classify_header app]. destruct (N.eqb_spec b0 LABELED_TAG) as [->|Hne].
  2:{ destruct exp; [|reflexivity]. destruct skip; reflexivity. }
  unfold LABEL_OVERHEAD, MAX_LABEL_LEN.
  destruct (N.ltb_spec (blen (LABELED_TAG :: r)) 2) as [|H2]; [exact I|].
  destruct r as [|len r]; [rewrite blen_cons in H2; change (@blen byte []) with 0 in H2; lia|].
  cbn [hd app].
  assert (blen (LABELED_TAG :: len :: r ++ more) = blen (LABELED_TAG :: len :: r) + blen more) as Hl.
  { rewrite !blen_cons, blen_app. lia. }
  rewrite Hl.
  destruct (N.ltb_spec (blen (LABELED_TAG :: len :: r) + blen more) 2); [lia|].
  destruct (N.ltb_spec 253 len); [reflexivity|].
  destruct (N.ltb_spec (blen (LABELED_TAG :: len :: r)) (2 + len)) as [|H3]; [exact I|].
  destruct (N.ltb_spec (blen (LABELED_TAG :: len :: r) + blen more) (2 + len)); [lia|].
  assert (btake len (bdrop 2 (LABELED_TAG :: len :: r ++ more)) = btake len (bdrop 2 (LABELED_TAG :: len :: r))) as ->.
  { rewrite !bdrop_cons by lia. change (2 - 1 - 1) with 0. rewrite !bdrop_0.
    rewrite btake_app. rewrite !blen_cons in H3. replace (len - blen r) with 0 by lia.
    rewrite btake_0, app_nil_r. reflexivity. }
  destruct (negb _); [reflexivity|].
  destruct exp as [e|]; [|reflexivity]. destruct (bytes_eqb _ _); reflexivity.
Qed.

(** Meaning of the classifier for complete inputs. *)
Lemma classify_header_bytes l payload exp skip : valid_label l ->
  classify_header (header l ++ payload) exp skip =
    match exp with
    | Some e => if bytes_eqb e l then VAccepted (2 + blen l) else VRejected LMismatch
    | None => VRejected LDoubleLabel
    end.
Proof.
  intros (Hne & Hlen & Hu & _). unfold header. cbn [app classify_header].
  change (12 =? LABELED_TAG) with true. cbv iota.
  unfold LABEL_OVERHEAD, MAX_LABEL_LEN. cbn [hd].
  rewrite !blen_cons, blen_app.
  destruct (N.ltb_spec (1 + (1 + (blen l + blen payload))) 2); [lia|].
  destruct (N.ltb_spec 253 (blen l)); [lia|].
  destruct (N.ltb_spec (1 + (1 + (blen l + blen payload))) (2 + blen l)); [lia|].
  rewrite !bdrop_cons by lia. change (2 - 1 - 1) with 0. rewrite bdrop_0.
  rewrite btake_app_exact by reflexivity. rewrite Hu. cbn [negb]. reflexivity.
Qed.

Lemma classify_accepted buf exp skip n : classify_header buf (Some exp) skip = VAccepted n ->
  (exists payload, buf = 12 :: blen exp :: exp ++ payload /\ n = 2 + blen exp) \/
  (skip = true /\ n = 0 /\ exists b r, buf = b :: r /\ b <> 12).
Proof.
  destruct buf as [|b0 r]; [discriminate|]. cbn [classify_header].
  destruct (N.eqb_spec b0 LABELED_TAG) as [->|Hne].
  - unfold LABEL_OVERHEAD, MAX_LABEL_LEN.
    destruct (N.ltb_spec (blen (LABELED_TAG :: r)) 2) as [|H2]; [discriminate|].
    destruct r as [|len r]; [rewrite blen_cons in H2; change (@blen byte []) with 0 in H2; lia|].
    cbn [hd]. destruct (N.ltb_spec 253 len); [discriminate|].
    destruct (N.ltb_spec (blen (LABELED_TAG :: len :: r)) (2 + len)) as [|H3]; [discriminate|].
    rewrite !bdrop_cons by lia. change (2 - 1 - 1) with 0. rewrite bdrop_0.
    destruct (negb _); [discriminate|].
    destruct (bytes_eqb_spec exp (btake len r)) as [He|]; [|discriminate].
    intros E. injection E as <-. left. exists (bdrop len r).
    rewrite !blen_cons in H3.
    assert (blen exp = len) as Hle by (rewrite He, blen_btake; lia).
    rewrite Hle. rewrite He at 1. rewrite btake_bdrop. auto.
  - destruct skip; [|discriminate]. intros E. injection E as <-. right. eauto 6.
Qed.

Lemma effective_label_some l : l <> [] -> effective_label (Some l) = Some l.
Proof. destruct l; [congruence|reflexivity]. Qed.

Lemma encode_label_prefix_header l : valid_label l -> encode_label_prefix l = header l.
Proof.
  intros (_ & H & _). unfold encode_label_prefix, header, LABELED_TAG.
  rewrite N.mod_small by lia. reflexivity.
Qed.

Lemma validate_label_ok l : blen l <= 253 -> utf8_valid l = true -> validate_label l = Ok tt.
Proof.
  intros H Hu. unfold validate_label, MAX_LABEL_LEN.
  destruct (N.ltb_spec 253 (blen l)); [lia|]. rewrite Hu. reflexivity.
Qed.

Lemma wrap_label_valid l inner : valid_label l -> wrap_label inner (Some l) = Ok (header l ++ inner).
Proof.
  intros V. assert (V' := V). destruct V as (Hne & Hl & Hu & _). unfold wrap_label.
  rewrite effective_label_some, validate_label_ok by assumption.
  rewrite encode_label_prefix_header by assumption. reflexivity.
Qed.

(** wrap succeeds exactly on configured labels *)
Lemma wrap_label_inv label inner raw : wf_bytes (match label with Some l => l | None => [] end) ->
  wrap_label inner label = Ok raw ->
  (effective_label label = None /\ raw = inner) \/
  (exists l, label = Some l /\ valid_label l /\ raw = header l ++ inner).
Proof.
  intros Hw. unfold wrap_label. destruct label as [[|b l]|]; cbn [effective_label].
  - intros E. injection E as <-. auto.
  - unfold validate_label, MAX_LABEL_LEN.
    destruct (N.ltb_spec 253 (blen (b :: l))); [discriminate|].
    destruct (utf8_valid (b :: l)) eqn:Hu; cbn [negb]; [|discriminate].
    intros E. injection E as <-. right. exists (b :: l).
    assert (valid_label (b :: l)) as V by (split; [discriminate|auto]).
    split; [reflexivity|]. split; [assumption|].
    change (encode_label_prefix (b :: l) ++ inner = header (b :: l) ++ inner).
    rewrite encode_label_prefix_header by assumption. reflexivity.
  - intros E. injection E as <-. auto.
Qed.

(** The datagram path end to end. *)
Lemma datagram_label_matrix sender receiver inner raw :
  wf_bytes (match sender with Some l => l | None => [] end) ->
  wrap_label inner sender = Ok raw -> inner <> [] -> hd 0 inner <> 12 ->
  decode_incoming raw receiver =
    if match effective_label sender, effective_label receiver with
       | None, None => true
       | Some a, Some b => bytes_eqb b a
       | _, _ => false
       end
    then Ok inner
    else match effective_label sender, effective_label receiver with
         | Some _, None => Err (CLabel LDoubleLabel)
         | _, _ => Err (CLabel LMismatch)
         end.
Proof.
  intros Hw E Hne H12. apply wrap_label_inv in E as [[Hs ->]|(l & -> & V & ->)]; [| |assumption].
  - rewrite Hs. unfold decode_incoming. destruct inner as [|b r]; [congruence|].
    cbn [hd] in H12. cbn [classify_header]. destruct (N.eqb_spec b LABELED_TAG) as [->|_]; [unfold LABELED_TAG in H12; congruence|].
    destruct (effective_label receiver); reflexivity.
  - rewrite effective_label_some by (apply V). unfold decode_incoming.
    rewrite classify_header_bytes by assumption.
    destruct (effective_label receiver) as [e|]; [|reflexivity].
    destruct (bytes_eqb e l); [|reflexivity].
    unfold header. cbn [app]. rewrite !bdrop_cons by lia.
    replace (2 + blen l - 1 - 1) with (blen l) by lia.
    rewrite bdrop_app_exact by reflexivity. destruct inner; [congruence|reflexivity].
Qed.

Lemma decode_incoming_ok raw label inner : decode_incoming raw label = Ok inner ->
  inner <> [] /\
  match effective_label label with
  | Some l => raw = 12 :: blen l :: l ++ inner
  | None => raw = inner /\ hd 0 raw <> 12
  end.
Proof.
  unfold decode_incoming. destruct (classify_header raw (effective_label label) false) as [n| |] eqn:C; try discriminate.
  intros D. assert (bdrop n raw = inner /\ inner <> []) as [Hd Hne].
  { destruct (bdrop n raw); [destruct (0 <? n); discriminate|]. injection D as <-. split; congruence. }
  split; [assumption|].
  destruct (effective_label label) as [l|].
  - apply classify_accepted in C as [(p & -> & ->)|(? & _)]; [|discriminate].
    rewrite !bdrop_cons in Hd by lia. replace (2 + blen l - 1 - 1) with (blen l) in Hd by lia.
    rewrite bdrop_app_exact in Hd by reflexivity. subst. reflexivity.
  - destruct raw as [|b r]; [discriminate|]. cbn [classify_header] in C.
    destruct (N.eqb_spec b LABELED_TAG) as [->|Hb].
    + exfalso. revert C.
      repeat match goal with |- context [if ?c then _ else _] => destruct c end; discriminate.
    + injection C as <-. rewrite bdrop_0 in Hd. split; [assumption|]. cbn [hd]. exact Hb.
Qed.

(** * Streams *)

(** Verdict on a whole inbound stream. *)
Definition stream_verdict (label : option bytes) (skip : bool) (s : bytes) : label_verdict :=
  match label with
  | None => VAccepted 0
  | Some l => classify_header s (Some l) skip
  end.

(** Invariant of the record layer: [s] fed so far. *)
Definition rl_inv (label : option bytes) (skip : bool) (ro : role) (s : bytes) (st : rl_state) : Prop :=
  let g := r_gate (rs_layer st) in
  g_label g = label /\ g_skip g = skip /\ g_role g = ro /\
  (rs_failed st = true -> g_validated g = false /\ delivered st = [] /\
      exists e, stream_verdict label skip s = VRejected e) /\
  (rs_failed st = false ->
     if g_validated g then
       exists n, stream_verdict label skip s = VAccepted n /\ delivered st = bdrop n s
     else
       delivered st = [] /\
       match label with
       | None => s = []
       | Some l => g_raw g = s /\ stream_verdict label skip s = VIncomplete
       end).

Lemma queue_prefix_fields g :
  let g' := queue_outbound_prefix_if_needed g in
  g_label g' = g_label g /\ g_skip g' = g_skip g /\ g_role g' = g_role g /\
  g_raw g' = g_raw g /\ g_validated g' = g_validated g.
Proof. unfold queue_outbound_prefix_if_needed. destruct (g_queued g); cbn; auto. Qed.

Lemma flush_fields r :
  let r' := flush_outbound_label r in
  g_label (r_gate r') = g_label (r_gate r) /\ g_skip (r_gate r') = g_skip (r_gate r) /\
  g_role (r_gate r') = g_role (r_gate r) /\
  g_raw (r_gate r') = g_raw (r_gate r) /\ g_validated (r_gate r') = g_validated (r_gate r) /\
  r_in r' = r_in r /\ r_tail r' = r_tail r.
Proof.
  unfold flush_outbound_label, take_outbound_prefix. destruct (r_emitted r); [cbn; auto 10|].
  destruct (g_prefix (r_gate r)); cbn; auto 10.
Qed.

Lemma stream_verdict_extend label skip s more : 
  match stream_verdict label skip s with
  | VIncomplete => True
  | v => stream_verdict label skip (s ++ more) = v
  end.
Proof.
  unfold stream_verdict. destruct label; [|reflexivity]. apply classify_extend.
Qed.

Lemma accepted_le label skip s n : stream_verdict label skip s = VAccepted n -> n <= blen s.
Proof.
  unfold stream_verdict. destruct label as [l|]; [|intros E; injection E as <-; lia].
  intros C. apply classify_accepted in C as [(p & -> & ->)|(_ & -> & _)]; [|lia].
  rewrite !blen_cons, blen_app. lia.
Qed.

Lemma bdrop_app_le {A} n (a b : list A) : n <= blen a -> bdrop n (a ++ b) = bdrop n a ++ b.
Proof. intros H. rewrite bdrop_app. replace (n - blen a) with 0 by lia. reflexivity. Qed.

(** Before anything is fed, nothing has been surfaced. *)
Ltac rl_split := split; [assumption|split; [assumption|split; [assumption|split]]].

Lemma rl_inv_start label skip ro r :
  g_label (r_gate r) = label -> g_skip (r_gate r) = skip -> g_role (r_gate r) = ro ->
  g_validated (r_gate r) = false -> g_raw (r_gate r) = [] -> r_in r = [] -> r_tail r = [] ->
  rl_inv label skip ro [] (rl_start r).
Proof.
  intros H1 H2 H3 H4 H5 H6 H7. unfold rl_inv, delivered. cbn [rs_layer rl_start rs_failed rs_read].
  rewrite H4, H6, H7. rl_split; [discriminate|]. intros _. split; [reflexivity|].
  destruct label; [|reflexivity]. auto.
Qed.

Lemma rl_inv_step label skip ro s st o :
  rl_inv label skip ro s st ->
  rl_inv label skip ro (s ++ match o with OFeed c => c | _ => [] end) (rl_step st o).
Proof.
  intros (Hl & Hs & Hr & Hf & Hn). destruct o as [c| |p| |]; cbn [rl_step].
  - (* feed *)
    destruct (rs_failed st) eqn:Ef.
    + unfold rl_inv. rewrite Ef. rl_split; [|discriminate]. intros _.
      destruct (Hf eq_refl) as (Hv & Hd & e & He). split; [assumption|]. split; [assumption|].
      exists e. pose proof (stream_verdict_extend label skip s c) as X. rewrite He in X. exact X.
    + specialize (Hn eq_refl). clear Hf.
      unfold rl_feed. cbn [r_gate r_in r_out r_emitted r_tail].
      destruct (g_validated (r_gate (rs_layer st))) eqn:Ev.
      * destruct Hn as (n & Hv & Hd). unfold rl_inv. cbn [rs_layer rs_failed r_gate]. rewrite Ev.
        rl_split; [discriminate|]. intros _. exists n.
        pose proof (stream_verdict_extend label skip s c) as X. rewrite Hv in X. split; [exact X|].
        rewrite bdrop_app_le by (eapply accepted_le; eassumption). rewrite <- Hd.
        unfold delivered. cbn. rewrite <- !app_assoc. reflexivity.
      * destruct Hn as (Hd & Hlab). unfold delivered in Hd.
        apply app_eq_nil in Hd as [Hrd Hd]. apply app_eq_nil in Hd as [Htl Hin].
        unfold consume_inbound_label. cbn [r_in r_gate r_out r_emitted r_tail]. rewrite Hin. cbn [app].
        destruct c as [|c0 c].
        { (* nothing surfaced *)
          unfold rl_inv, delivered. cbn [rs_layer rs_failed r_gate r_tail r_in rs_read]. rewrite Ev, !app_nil_r.
          rl_split; [discriminate|]. intros _. rewrite Hrd, Htl. split; [reflexivity|assumption]. }
        remember (c0 :: c) as ch eqn:Hch.
        unfold consume_inbound. rewrite Hl.
        destruct label as [l|].
        -- destruct Hlab as [Hraw Hinc]. rewrite Hraw, Hs. unfold stream_verdict in Hinc.
           destruct (classify_header (s ++ ch) (Some l) skip) as [n| |e] eqn:C.
           ++ unfold rl_inv. cbn [rs_layer rs_failed].
              match goal with |- context [flush_outbound_label ?x] =>
                destruct (flush_fields x) as (F1 & F2 & F3 & F4 & F5 & F6 & F7) end.
              match goal with |- context [queue_outbound_prefix_if_needed ?x] =>
                destruct (queue_prefix_fields x) as (Q1 & Q2 & Q3 & Q4 & Q5) end.
              cbn [r_gate r_in r_tail g_label g_skip g_role g_raw g_validated] in *.
              rewrite F1, F2, F3, F5, Q1, Q2, Q3, Q5.
              split; [reflexivity|]. split; [reflexivity|]. split; [assumption|]. split; [discriminate|].
              intros _. exists n. split; [exact C|].
              unfold delivered. cbn [rs_read rs_layer]. rewrite F6, F7, Hrd, Htl. cbn [app].
              apply app_nil_r.
           ++ unfold rl_inv. cbn [rs_layer rs_failed r_gate g_label g_skip g_role g_validated g_raw].
              rewrite Ev. split; [reflexivity|]. split; [reflexivity|]. split; [assumption|]. split; [discriminate|].
              intros _. split; [|split; [reflexivity|exact C]].
              unfold delivered. cbn. rewrite Hrd, Htl. reflexivity.
           ++ unfold rl_inv. cbn [rs_layer rs_failed r_gate g_label g_skip g_role g_validated g_raw].
              split; [reflexivity|]. split; [reflexivity|]. split; [assumption|]. split; [|discriminate].
              intros _. split; [assumption|]. split; [|exists e; exact C].
              unfold delivered. cbn. rewrite Hrd, Htl. reflexivity.
        -- subst s. cbn [app]. unfold rl_inv. cbn [rs_layer rs_failed].
           match goal with |- context [flush_outbound_label ?x] =>
             destruct (flush_fields x) as (F1 & F2 & F3 & F4 & F5 & F6 & F7) end.
           match goal with |- context [queue_outbound_prefix_if_needed ?x] =>
             destruct (queue_prefix_fields x) as (Q1 & Q2 & Q3 & Q4 & Q5) end.
           cbn [r_gate r_in r_tail g_label g_skip g_role g_raw g_validated] in *.
           rewrite F1, F2, F3, F5, Q1, Q2, Q3, Q5.
           split; [reflexivity|]. split; [assumption|]. split; [assumption|]. split; [discriminate|].
           intros _. exists 0. split; [reflexivity|].
           unfold delivered. cbn [rs_read rs_layer]. rewrite F6, F7, Hrd, Htl. cbn [app].
           rewrite app_nil_r. reflexivity.
  - (* read *)
    rewrite app_nil_r. unfold rl_inv, rl_read. cbn [rs_layer rs_failed r_gate].
    assert (delivered (mkRS (mkR (r_gate (rs_layer st)) [] (r_out (rs_layer st)) (r_emitted (rs_layer st)) [])
       (rs_read st ++ r_tail (rs_layer st) ++ r_in (rs_layer st)) (rs_wire st) (rs_failed st)) = delivered st) as ->.
    { unfold delivered. cbn. rewrite app_nil_r. reflexivity. }
    rl_split; assumption.
  - rewrite app_nil_r. unfold rl_inv. cbn [rs_layer rs_failed r_gate rl_write]. rl_split; assumption.
  - rewrite app_nil_r. unfold rl_inv. cbn [rs_layer rs_failed r_gate rl_transmit].
    rl_split; assumption.
  - rewrite app_nil_r. unfold rl_inv. cbn [rs_layer rs_failed r_gate rl_clear_outbound gate_clear g_label g_skip g_role g_raw g_validated].
    rl_split; assumption.
Qed.

Lemma rl_inv_run label skip ro ops : forall s st,
  rl_inv label skip ro s st -> rl_inv label skip ro (s ++ fed ops) (rl_run st ops).
Proof.
  induction ops as [|o ops IH]; intros s st H; cbn [fed flat_map rl_run fold_left].
  - rewrite app_nil_r. exact H.
  - rewrite app_assoc. apply IH. apply rl_inv_step. exact H.
Qed.

(** Streams as seen by the application. *)
Lemma stream_inbound mk label skip ops :
  mk = rl_dialer \/ mk = rl_acceptor ->
  let st := rl_run (rl_start (mk label skip)) ops in
  match stream_verdict (effective_label label) skip (fed ops) with
  | VAccepted n => rs_failed st = false /\ delivered st = bdrop n (fed ops)
  | VIncomplete => rs_failed st = false /\ delivered st = []
  | VRejected _ => rs_failed st = true /\ delivered st = []
  end.
Proof.
  intros Hmk st.
  assert (exists ro, rl_inv (effective_label label) skip ro (fed ops) st) as (ro & H).
  { destruct Hmk as [-> | ->].
    - exists Dialer. apply (rl_inv_run _ _ _ ops []).
      unfold rl_dialer.
      match goal with |- context [flush_outbound_label ?x] =>
        destruct (flush_fields x) as (F1 & F2 & F3 & F4 & F5 & F6 & F7) end.
      unfold gate_dialer in *.
      match type of F1 with context [queue_outbound_prefix_if_needed ?x] =>
        destruct (queue_prefix_fields x) as (Q1 & Q2 & Q3 & Q4 & Q5) end.
      cbn [r_gate r_in r_tail] in *. cbn [g_label g_skip g_role g_raw g_validated] in *.
      apply rl_inv_start; congruence.
    - exists Acceptor. apply (rl_inv_run _ _ _ ops []). apply rl_inv_start; reflexivity. }
  destruct H as (_ & _ & _ & Hf & Hn).
  destruct (rs_failed st) eqn:Ef.
  - destruct (Hf eq_refl) as (_ & Hd & e & ->). auto.
  - specialize (Hn eq_refl). destruct (g_validated (r_gate (rs_layer st))).
    + destruct Hn as (n & -> & Hd). auto.
    + destruct Hn as (Hd & Hl). destruct (effective_label label) as [l|].
      * destruct Hl as [_ ->]. auto.
      * rewrite Hl. cbn [stream_verdict]. auto.
Qed.

Lemma classify_incomplete_len buf exp skip :
  classify_header buf exp skip = VIncomplete -> blen buf <= 254.
Proof.
  destruct buf as [|b0 r]; [intros _; vm_compute; discriminate|].
  cbn [classify_header]. destruct (N.eqb_spec b0 LABELED_TAG) as [->|Hne].
  - unfold LABEL_OVERHEAD, MAX_LABEL_LEN.
    destruct (N.ltb_spec (blen (LABELED_TAG :: r)) 2); [lia|].
    destruct (N.ltb_spec 253 (hd 0 r)); [discriminate|].
    destruct (N.ltb_spec (blen (LABELED_TAG :: r)) (2 + hd 0 r)); [lia|].
    destruct (negb _); [discriminate|]. destruct exp; [|discriminate]. destruct (bytes_eqb _ _); discriminate.
  - destruct exp; [destruct skip|]; discriminate.
Qed.

Lemma stream_buffer_bounded mk label skip ops :
  mk = rl_dialer \/ mk = rl_acceptor ->
  let st := rl_run (rl_start (mk label skip)) ops in
  rs_failed st = false -> blen (held_back st) <= 254.
Proof.
  intros Hmk st Hnf.
  (* a stronger invariant tracking the buffer after validation *)
  assert (forall ops st0,
    (exists ro s, rl_inv (effective_label label) skip ro s st0) ->
    (rs_failed st0 = false -> blen (held_back st0) <= 254) ->
    (rs_failed (rl_run st0 ops) = false -> blen (held_back (rl_run st0 ops)) <= 254)) as G.
  { clear. induction ops as [|o ops IH]; intros st0 (ro & s & Hi) H0; [exact H0|].
    cbn [rl_run fold_left]. apply IH.
    - exists ro. eexists. apply rl_inv_step. exact Hi.
    - pose proof (rl_inv_step _ _ _ _ _ o Hi) as (Hl' & _ & _ & _ & Hn').
      intros Hnf. specialize (Hn' Hnf). unfold held_back in *.
      destruct (g_validated (r_gate (rs_layer (rl_step st0 o)))) eqn:Ev.
      + (* validated: the buffer is unchanged or emptied *)
        destruct o as [c| |p| |]; cbn [rl_step] in *; try (apply H0; exact Hnf).
        destruct (rs_failed st0) eqn:Ef; [congruence|].
        unfold rl_feed in *. cbn [r_gate r_in r_out r_emitted r_tail] in *.
        destruct (g_validated (r_gate (rs_layer st0))) eqn:Ev0; [apply H0; reflexivity|].
        unfold consume_inbound_label in *. cbn [r_gate r_in r_out r_emitted r_tail] in *.
        destruct (r_in (rs_layer st0) ++ c) as [|x y]; [apply H0; reflexivity|].
        unfold consume_inbound in *.
        destruct (g_label (r_gate (rs_layer st0))) as [l|] eqn:Hl.
        * destruct (classify_header _ _ _) as [n| |e] eqn:C; cbn [rs_layer rs_failed] in *.
          -- match goal with |- context [flush_outbound_label ?x] =>
               destruct (flush_fields x) as (F1 & F2 & F3 & F4 & F5 & F6 & F7) end.
             rewrite F4. cbn [r_gate].
             match goal with |- context [queue_outbound_prefix_if_needed ?x] =>
               destruct (queue_prefix_fields x) as (Q1 & Q2 & Q3 & Q4 & Q5) end.
             rewrite Q4. vm_compute. discriminate.
          -- cbn [r_gate g_raw]. eapply classify_incomplete_len. exact C.
          -- discriminate.
        * cbn [rs_layer rs_failed] in *.
          match goal with |- context [flush_outbound_label ?x] =>
            destruct (flush_fields x) as (F1 & F2 & F3 & F4 & F5 & F6 & F7) end.
          rewrite F4. cbn [r_gate].
          match goal with |- context [queue_outbound_prefix_if_needed ?x] =>
            destruct (queue_prefix_fields x) as (Q1 & Q2 & Q3 & Q4 & Q5) end.
          rewrite Q4. cbn [g_raw]. apply H0. reflexivity.
      + destruct Hn' as (_ & Hl). destruct (effective_label label) as [l|].
        * destruct Hl as [-> C]. eapply classify_incomplete_len. exact C.
        * (* no label: never buffers *)
          destruct o as [c| |p| |]; cbn [rl_step] in *; try (apply H0; exact Hnf).
          destruct (rs_failed st0) eqn:Ef; [congruence|].
          unfold rl_feed in *. cbn [r_gate r_in r_out r_emitted r_tail] in *.
          destruct (g_validated (r_gate (rs_layer st0))) eqn:Ev0; [apply H0; reflexivity|].
          unfold consume_inbound_label in *. cbn [r_gate r_in r_out r_emitted r_tail] in *.
          destruct (r_in (rs_layer st0) ++ c) as [|x y]; [apply H0; reflexivity|].
          exfalso. revert Ev. destruct Hi as (Hlab & _). unfold consume_inbound. rewrite Hlab.
          cbn [rs_layer].
          match goal with |- context [flush_outbound_label ?x] =>
            destruct (flush_fields x) as (F1 & F2 & F3 & F4 & F5 & F6 & F7) end.
          rewrite F5. cbn [r_gate].
          match goal with |- context [queue_outbound_prefix_if_needed ?x] =>
            destruct (queue_prefix_fields x) as (Q1 & Q2 & Q3 & Q4 & Q5) end.
          rewrite Q5. discriminate. }
  apply G; [|intros _; destruct Hmk as [-> | ->]|exact Hnf].
  - destruct Hmk as [-> | ->].
    + exists Dialer, []. unfold rl_dialer.
      match goal with |- context [flush_outbound_label ?x] =>
        destruct (flush_fields x) as (F1 & F2 & F3 & F4 & F5 & F6 & F7) end.
      unfold gate_dialer in *.
      match type of F1 with context [queue_outbound_prefix_if_needed ?x] =>
        destruct (queue_prefix_fields x) as (Q1 & Q2 & Q3 & Q4 & Q5) end.
      cbn [r_gate r_in r_tail] in *. cbn [g_label g_skip g_role g_raw g_validated] in *.
      apply rl_inv_start; congruence.
    + exists Acceptor, []. apply rl_inv_start; reflexivity.
  - unfold held_back, rl_start. cbn [rs_layer]. unfold rl_dialer.
    match goal with |- context [flush_outbound_label ?x] =>
      destruct (flush_fields x) as (F1 & F2 & F3 & F4 & F5 & F6 & F7) end.
    rewrite F4. cbn [r_gate]. unfold gate_dialer.
    match goal with |- context [queue_outbound_prefix_if_needed ?x] =>
      destruct (queue_prefix_fields x) as (Q1 & Q2 & Q3 & Q4 & Q5) end.
    rewrite Q4. vm_compute. discriminate.
  - vm_compute. discriminate.
Qed.

(** * Outbound side *)

(** Outbound invariant without clears: [w] written so far. *)
Definition out_inv (l : bytes) (ro : role) (w : bytes) (st : rl_state) : Prop :=
  let g := r_gate (rs_layer st) in
  g_label g = Some l /\ g_role g = ro /\ g_prefix g = [] /\
  r_emitted (rs_layer st) = g_queued g /\
  (ro = Dialer -> g_queued g = true /\ sent st = encode_label_prefix l ++ w) /\
  (ro = Acceptor -> g_queued g = g_validated g /\
     if g_validated g
     then exists w1 w2, w = w1 ++ w2 /\ sent st = w1 ++ encode_label_prefix l ++ w2
     else sent st = w).

Lemma out_inv_step l ro w st o : o <> OClear -> out_inv l ro w st ->
  out_inv l ro (w ++ match o with OWrite p => p | _ => [] end) (rl_step st o).
Proof.
  intros Hc (Hl & Hr & Hp & He & Hd & Ha).
  destruct o as [c| |p| |]; cbn [rl_step]; [| | | |congruence].
  - rewrite app_nil_r. destruct (rs_failed st) eqn:Ef; [unfold out_inv; auto 10|].
    unfold rl_feed. cbn [r_gate r_in r_out r_emitted r_tail].
    destruct (g_validated (r_gate (rs_layer st))) eqn:Ev.
    { unfold out_inv, sent in *. cbn [rs_layer rs_wire r_gate r_emitted r_out]. rewrite Ev.
      repeat (split; [assumption|]). assumption. }
    unfold consume_inbound_label. cbn [r_gate r_in r_out r_emitted r_tail].
    destruct (r_in (rs_layer st) ++ c) as [|x y] eqn:Hch.
    { unfold out_inv, sent in *. cbn [rs_layer rs_wire r_gate r_emitted r_out]. rewrite Ev.
      repeat (split; [assumption|]). assumption. }
    unfold consume_inbound. rewrite Hl.
    destruct (classify_header _ _ _) as [n| |e] eqn:C.
    + (* validated now *)
      destruct ro.
      * destruct (Hd eq_refl) as [Hq Hs].
        unfold queue_outbound_prefix_if_needed. cbn [g_queued]. rewrite Hq.
        unfold flush_outbound_label. cbn [r_emitted]. rewrite He, Hq.
        unfold out_inv, sent in *. cbn. rewrite Hp, Hr.
        repeat (split; [first [reflexivity|assumption]|]). split; [auto|discriminate].
      * destruct (Ha eq_refl) as [Hq Hs].
        unfold queue_outbound_prefix_if_needed. cbn [g_queued]. rewrite Hq. cbn [g_label g_skip g_role g_prefix g_raw g_validated].
        unfold flush_outbound_label. cbn [r_emitted]. rewrite He, Hq.
        unfold take_outbound_prefix. cbn [r_gate g_prefix]. rewrite Hp. cbn [app].
        unfold encode_label_prefix at 1.
        unfold out_inv, sent in *. cbn. rewrite Hr.
        repeat (split; [first [reflexivity|assumption]|]). split; [discriminate|].
        intros _. split; [reflexivity|]. exists w, []. rewrite app_nil_r. split; [reflexivity|].
        rewrite app_assoc, Hs. unfold encode_label_prefix. rewrite ?app_nil_r. reflexivity.
    + unfold out_inv, sent in *. cbn [rs_layer rs_wire r_gate r_emitted r_out g_label g_role g_prefix g_queued g_validated].
      rewrite Ev. repeat (split; [first [reflexivity|assumption]|]). assumption.
    + unfold out_inv, sent in *. cbn [rs_layer rs_wire r_gate r_emitted r_out g_label g_role g_prefix g_queued g_validated].
      rewrite Ev. repeat (split; [first [reflexivity|assumption]|]). assumption.
  - rewrite app_nil_r. unfold out_inv, sent in *. cbn [rs_layer rs_wire r_gate r_emitted r_out rl_read].
    repeat (split; [assumption|]). assumption.
  - unfold out_inv, sent in *. cbn [rs_layer rs_wire r_gate r_emitted r_out rl_write].
    repeat (split; [assumption|]). rewrite app_assoc. split.
    + intros E. destruct (Hd E) as [Hq Hs]. split; [assumption|]. rewrite Hs, <- app_assoc. reflexivity.
    + intros E. destruct (Ha E) as [Hq Hs]. split; [assumption|].
      destruct (g_validated _).
      * destruct Hs as (w1 & w2 & -> & Hs). exists w1, (w2 ++ p). rewrite Hs, <- !app_assoc. auto.
      * rewrite Hs. reflexivity.
  - rewrite app_nil_r. unfold out_inv, sent in *. cbn [rs_layer rs_wire r_gate r_emitted r_out rl_transmit].
    rewrite app_nil_r. repeat (split; [assumption|]). assumption.
Qed.

Lemma out_inv_run l ro ops : no_clear ops -> forall w st,
  out_inv l ro w st -> out_inv l ro (w ++ written ops) (rl_run st ops).
Proof.
  unfold no_clear. induction ops as [|o ops IH]; intros Hc w st H; cbn [written flat_map rl_run fold_left].
  - rewrite app_nil_r. exact H.
  - rewrite app_assoc. apply IH; [intros Hin; apply Hc; right; exact Hin|].
    apply out_inv_step; [|exact H]. intros ->. apply Hc. left. reflexivity.
Qed.

Lemma dialer_label_first l skip ops : valid_label l -> no_clear ops ->
  sent (rl_run (rl_start (rl_dialer (Some l) skip)) ops) = header l ++ written ops.
Proof.
  intros V Hc. rewrite <- encode_label_prefix_header by assumption.
  destruct (out_inv_run l Dialer ops Hc [] (rl_start (rl_dialer (Some l) skip))) as (_ & _ & _ & _ & H & _).
  - unfold rl_dialer, gate_dialer. rewrite effective_label_some by (apply V).
    unfold out_inv, sent. cbn. repeat (split; [reflexivity|]). split; [|discriminate].
    intros _. split; [reflexivity|]. rewrite app_nil_r. reflexivity.
  - exact (proj2 (H eq_refl)).
Qed.

Lemma acceptor_out l skip ops : valid_label l -> no_clear ops ->
  out_inv l Acceptor (written ops) (rl_run (rl_start (rl_acceptor (Some l) skip)) ops).
Proof.
  intros V Hc. apply (out_inv_run l Acceptor ops Hc []).
  unfold rl_acceptor, gate_acceptor. rewrite effective_label_some by (apply V).
  unfold out_inv, sent. cbn. repeat (split; [reflexivity|]). split; [discriminate|].
  intros _. split; reflexivity.
Qed.

Lemma acceptor_gate_inv l skip ops : l <> [] ->
  let st := rl_run (rl_start (rl_acceptor (Some l) skip)) ops in
  rl_inv (Some l) skip Acceptor (fed ops) st.
Proof.
  intros Hne st. apply (rl_inv_run _ _ _ ops []). apply rl_inv_start; try reflexivity.
  cbn. apply effective_label_some. assumption.
Qed.

Lemma acceptor_silent l skip ops : valid_label l -> no_clear ops ->
  (forall n, classify_header (fed ops) (Some l) skip <> VAccepted n) ->
  sent (rl_run (rl_start (rl_acceptor (Some l) skip)) ops) = written ops.
Proof.
  intros V Hc Hn. destruct (acceptor_out l skip ops V Hc) as (_ & _ & _ & _ & _ & H).
  destruct (H eq_refl) as [_ Hs]. clear H.
  destruct (acceptor_gate_inv l skip ops (proj1 V)) as (_ & _ & _ & Hf & Hok).
  destruct (g_validated _) eqn:Ev; [|exact Hs]. exfalso.
  destruct (rs_failed _) eqn:Ef.
  - destruct (Hf eq_refl) as [E _]. congruence.
  - destruct (Hok eq_refl) as (n & Hv & _). apply (Hn n). exact Hv.
Qed.

Lemma acceptor_once l skip ops : valid_label l -> no_clear ops ->
  (exists n, classify_header (fed ops) (Some l) skip = VAccepted n) ->
  exists w1 w2, written ops = w1 ++ w2 /\
    sent (rl_run (rl_start (rl_acceptor (Some l) skip)) ops) = w1 ++ header l ++ w2.
Proof.
  intros V Hc (n & Hn). rewrite <- encode_label_prefix_header by assumption.
  destruct (acceptor_out l skip ops V Hc) as (_ & _ & _ & _ & _ & H).
  destruct (H eq_refl) as [_ Hs]. clear H.
  destruct (acceptor_gate_inv l skip ops (proj1 V)) as (_ & _ & _ & Hf & Hok).
  destruct (g_validated _) eqn:Ev; [exact Hs|]. exfalso.
  destruct (rs_failed _) eqn:Ef.
  - destruct (Hf eq_refl) as (_ & _ & e & E). unfold stream_verdict in E. congruence.
  - destruct (Hok eq_refl) as (_ & _ & E). unfold stream_verdict in E. congruence.
Qed.

(** A user that writes only once the handshake is over. *)
Lemma acceptor_disciplined l skip ops : valid_label l -> no_clear ops ->
  disciplined (rl_start (rl_acceptor (Some l) skip)) ops ->
  let st := rl_run (rl_start (rl_acceptor (Some l) skip)) ops in
  sent st = if rl_is_handshaking (rs_layer st) then [] else header l ++ written ops.
Proof.
  intros V Hc Hd. rewrite <- encode_label_prefix_header by assumption.
  assert (forall ops st w, no_clear ops -> disciplined st ops -> out_inv l Acceptor w st ->
     (sent st = if rl_is_handshaking (rs_layer st) then [] else encode_label_prefix l ++ w) ->
     sent (rl_run st ops) = if rl_is_handshaking (rs_layer (rl_run st ops)) then []
                            else encode_label_prefix l ++ w ++ written ops) as G.
  { clear. unfold no_clear. induction ops as [|o ops IH]; intros st w Hc Hdis Hi Hs.
    - cbn [rl_run fold_left written flat_map]. rewrite app_nil_r. exact Hs.
    - destruct Hdis as [Ho Hd].
      cbn [rl_run fold_left written flat_map]. rewrite (app_assoc w). apply IH; [|exact Hd| |].
      + intros Hin. apply Hc. right. exact Hin.
      + apply out_inv_step; [|exact Hi]. intros ->. apply Hc. left. reflexivity.
      + assert (o <> OClear) as Hoc by (intros ->; apply Hc; left; reflexivity).
        pose proof (out_inv_step l Acceptor w st o Hoc Hi) as Hi'.
        destruct Hi as (Hl & Hr & Hp & He & _ & Ha). destruct (Ha eq_refl) as [Hq Hsn].
        destruct Hi' as (Hl' & Hr' & Hp' & He' & _ & Ha'). destruct (Ha' eq_refl) as [Hq' Hsn'].
        unfold rl_is_handshaking, is_validating in *. rewrite Hl, Hr in *. rewrite Hl', Hr' in *.
        destruct o as [c| |p| |]; cbn [rl_step] in *; [| | | |congruence].
        * rewrite app_nil_r in *.
          destruct (rs_failed st); [exact Hs|].
          unfold rl_feed in *. cbn [r_gate r_in r_out r_emitted r_tail] in *.
          destruct (g_validated (r_gate (rs_layer st))) eqn:Ev.
          { cbn [rs_layer r_gate] in *. rewrite Ev in *. cbn [negb] in *. exact Hs. }
          cbn [negb] in Hs. rewrite Hs in Hsn. subst w.
          match goal with |- sent ?x = _ => set (X := x) in *; clearbody X end.
          destruct (g_validated (r_gate (rs_layer X))) eqn:Ev'; cbn [negb].
          -- destruct Hsn' as (w1 & w2 & E & Hsn'). symmetry in E. apply app_eq_nil in E as [-> ->].
             exact Hsn'.
          -- exact Hsn'.
        * rewrite app_nil_r in *. exact Hs.
        * cbn [rs_layer rl_write r_gate] in *. rewrite Ho in *. 
          unfold sent in *. cbn [rs_wire rs_layer r_out] in *. unfold rl_write; cbn [r_out]. rewrite app_assoc, Hs, <- app_assoc. reflexivity.
        * rewrite app_nil_r in *. unfold sent in *. cbn [rs_wire rs_layer r_out rl_transmit r_gate] in *.
          rewrite app_nil_r. exact Hs. }
  intros st. specialize (G ops (rl_start (rl_acceptor (Some l) skip)) [] Hc Hd).
  cbn [app] in G. apply G.
  - unfold rl_acceptor, gate_acceptor. rewrite effective_label_some by (apply V).
    unfold out_inv, sent. cbn. repeat (split; [reflexivity|]). split; [discriminate|].
    intros _. split; reflexivity.
  - unfold rl_acceptor, gate_acceptor, rl_is_handshaking. rewrite effective_label_some by (apply V). reflexivity.
Qed.

(** After a failed exchange is cleared, nothing but explicit writes is sent. *)
Lemma cleared_failed_reveals_nothing ops : forall st, rs_failed st = true ->
  sent (rl_run (rl_step st OClear) ops) = rs_wire st ++ written ops \/
  In OClear ops.
Proof.
  intros st Hf.
  assert (forall ops st w, rs_failed st = true -> sent st = w -> ~ In OClear ops ->
             sent (rl_run st ops) = w ++ written ops) as G.
  { clear. induction ops as [|o ops IH]; intros st w Hf Hs Hc; cbn [rl_run fold_left written flat_map].
    - rewrite app_nil_r. exact Hs.
    - rewrite app_assoc. apply IH; [| |intros Hin; apply Hc; right; exact Hin].
      + destruct o; cbn [rl_step]; try rewrite Hf; try assumption; reflexivity.
      + destruct o as [c| |p| |]; cbn [rl_step].
        * rewrite Hf, app_nil_r. exact Hs.
        * rewrite app_nil_r. exact Hs.
        * unfold sent in *. cbn. rewrite app_assoc, Hs. reflexivity.
        * unfold sent in *. cbn. rewrite app_nil_r, app_nil_r. exact Hs.
        * exfalso. apply Hc. left. reflexivity. }
  destruct (in_dec (fun a b : rl_op => ltac:(decide equality; apply list_eq_dec, N.eq_dec)) OClear ops) as [Hin|Hni];
    [right; exact Hin|left].
  apply G; [exact Hf| |exact Hni]. unfold sent. cbn. apply app_nil_r.
Qed.

(** Which streams a labelled node accepts. *)
Lemma stream_accept_labelled l skip s n : valid_label l ->
  stream_verdict (effective_label (Some l)) skip s = VAccepted n <->
  (n = 2 + blen l /\ exists payload, s = header l ++ payload) \/
  (skip = true /\ n = 0 /\ exists b r, s = b :: r /\ b <> 12).
Proof.
  intros V. rewrite effective_label_some by (apply V). cbn [stream_verdict]. split.
  - intros C. apply classify_accepted in C as [(p & -> & ->)|(-> & -> & H)]; [left|right; auto].
    split; [reflexivity|]. exists p. reflexivity.
  - intros [(-> & p & ->)|(-> & -> & b & r & -> & Hb)].
    + rewrite classify_header_bytes by assumption. destruct (bytes_eqb_spec l l); [reflexivity|congruence].
    + cbn [classify_header]. destruct (N.eqb_spec b LABELED_TAG) as [->|_]; [unfold LABELED_TAG in Hb; congruence|reflexivity].
Qed.

(** Two streams with the same bytes behave the same however they are cut. *)
Lemma chunking_independent mk label skip ops1 ops2 :
  mk = rl_dialer \/ mk = rl_acceptor -> fed ops1 = fed ops2 ->
  let st1 := rl_run (rl_start (mk label skip)) ops1 in
  let st2 := rl_run (rl_start (mk label skip)) ops2 in
  rs_failed st1 = rs_failed st2 /\ delivered st1 = delivered st2.
Proof.
  intros Hmk Hfed st1 st2.
  pose proof (stream_inbound mk label skip ops1 Hmk) as H1.
  pose proof (stream_inbound mk label skip ops2 Hmk) as H2.
  fold st1 in H1. fold st2 in H2. cbv zeta in H1, H2. rewrite Hfed in H1.
  destruct (stream_verdict _ _ _); destruct H1 as [-> ->]; destruct H2 as [-> ->]; auto.
Qed.

Lemma stream_delivers_labelled mk l skip ops : valid_label l ->
  mk = rl_dialer \/ mk = rl_acceptor ->
  let st := rl_run (rl_start (mk (Some l) skip)) ops in
  delivered st <> [] ->
  rs_failed st = false /\
  (fed ops = header l ++ delivered st \/
   (skip = true /\ fed ops = delivered st /\ hd 0 (fed ops) <> 12)).
Proof.
  intros V Hmk st Hd. pose proof (stream_inbound mk (Some l) skip ops Hmk) as H. cbv zeta in H. fold st in H.
  destruct (stream_verdict _ _ _) as [n| |] eqn:E; destruct H as [Hf Hdel]; [|congruence|congruence].
  split; [assumption|]. apply stream_accept_labelled in E as [(-> & p & Hp)|(-> & -> & b & r & Hp & Hb)]; [| |assumption].
  - left. rewrite Hdel, Hp. f_equal. unfold header. cbn [app]. rewrite !bdrop_cons by lia.
    replace (2 + blen l - 1 - 1) with (blen l) by lia. symmetry. apply bdrop_app_exact. reflexivity.
  - right. rewrite Hdel, bdrop_0, Hp. auto.
Qed.

Lemma stream_accepts_matching mk l skip ops payload : valid_label l ->
  mk = rl_dialer \/ mk = rl_acceptor -> fed ops = header l ++ payload ->
  let st := rl_run (rl_start (mk (Some l) skip)) ops in
  rs_failed st = false /\ delivered st = payload.
Proof.
  intros V Hmk Hfed st. pose proof (stream_inbound mk (Some l) skip ops Hmk) as H. cbv zeta in H. fold st in H.
  assert (stream_verdict (effective_label (Some l)) skip (fed ops) = VAccepted (2 + blen l)) as E.
  { apply stream_accept_labelled; [assumption|]. left. eauto. }
  rewrite E in H. destruct H as [-> ->]. split; [reflexivity|].
  rewrite Hfed. unfold header. cbn [app]. rewrite !bdrop_cons by lia.
  replace (2 + blen l - 1 - 1) with (blen l) by lia. apply bdrop_app_exact. reflexivity.
Qed.

Lemma stream_rejects_other mk l l' skip ops payload : valid_label l -> valid_label l' -> l <> l' ->
  mk = rl_dialer \/ mk = rl_acceptor -> fed ops = header l' ++ payload ->
  let st := rl_run (rl_start (mk (Some l) skip)) ops in
  rs_failed st = true /\ delivered st = [].
Proof.
  intros V V' Hne Hmk Hfed st. pose proof (stream_inbound mk (Some l) skip ops Hmk) as H. cbv zeta in H. fold st in H.
  rewrite effective_label_some in H by (apply V). cbn [stream_verdict] in H. rewrite Hfed in H.
  rewrite classify_header_bytes in H by assumption.
  destruct (bytes_eqb_spec l l'); [congruence|]. exact H.
Qed.

Lemma stream_rejects_unlabelled mk l ops : valid_label l ->
  mk = rl_dialer \/ mk = rl_acceptor -> fed ops <> [] -> hd 0 (fed ops) <> 12 ->
  let st := rl_run (rl_start (mk (Some l) false)) ops in
  rs_failed st = true /\ delivered st = [].
Proof.
  intros V Hmk Hne Hh st. pose proof (stream_inbound mk (Some l) false ops Hmk) as H. cbv zeta in H. fold st in H.
  rewrite effective_label_some in H by (apply V). cbn [stream_verdict] in H.
  destruct (fed ops) as [|b r]; [congruence|]. cbn [classify_header hd] in *.
  destruct (N.eqb_spec b LABELED_TAG) as [->|_]; [unfold LABELED_TAG in Hh; congruence|]. exact H.
Qed.

Lemma stream_unlabelled_passthrough mk skip ops :
  mk = rl_dialer \/ mk = rl_acceptor ->
  let st := rl_run (rl_start (mk None skip)) ops in
  rs_failed st = false /\ delivered st = fed ops.
Proof.
  intros Hmk st. pose proof (stream_inbound mk None skip ops Hmk) as H. cbv zeta in H. fold st in H.
  cbn [effective_label stream_verdict] in H. rewrite bdrop_0 in H. exact H.
Qed.

Lemma decode_incoming_iff raw label inner :
  match effective_label label with Some l => valid_label l | None => True end ->
  decode_incoming raw label = Ok inner <->
  (inner <> [] /\ match effective_label label with
                  | Some l => raw = header l ++ inner
                  | None => raw = inner /\ hd 0 raw <> 12
                  end).
Proof.
  intros V. split; [apply decode_incoming_ok|].
  intros [Hne H]. unfold decode_incoming. destruct (effective_label label) as [l|] eqn:El.
  - subst raw. rewrite classify_header_bytes by assumption.
    destruct (bytes_eqb_spec l l) as [_|]; [|congruence].
    unfold header. cbn [app]. rewrite !bdrop_cons by lia.
    replace (2 + blen l - 1 - 1) with (blen l) by lia.
    rewrite bdrop_app_exact by reflexivity. destruct inner; [congruence|reflexivity].
  - destruct H as [-> Hh]. destruct inner as [|b r]; [congruence|].
    cbn [classify_header hd] in *. destruct (N.eqb_spec b LABELED_TAG) as [->|_]; [unfold LABELED_TAG in Hh; congruence|].
    reflexivity.
Qed.

Lemma unlabelled_stream_accepts_witness :
  exists l payload, valid_label l /\ payload <> [] /\
    (let st := rl_run (rl_start (rl_acceptor None false)) [OFeed (header l ++ payload)] in
     rs_failed st = false /\ delivered st = header l ++ payload).
Proof.
  exists [97], [6; 0]. split.
  - repeat split; try discriminate; try (vm_compute; congruence); repeat constructor.
  - repeat split. discriminate.
Qed.
