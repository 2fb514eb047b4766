(** Answers are given only when asked for, and farewells carry their payload. *)
From Coq Require Import Permutation.
From Verif Require Import CodecModel BroadcastInv BroadcastHist EndpointModel MapFacts BaseFacts CoreFacts CoreInv CoreSteps CoreTrans EndpointSteps EndpointInv EndpointHist EndpointRuns.
Local Open Scope N_scope.

Section Answers.
Variable C : cfg.
Notation LID := (c_id C).

(** the answers in a datagram, with the address they go to *)
Definition answer_in (to : N) (m : msg) : list (N * N) := match m with MAck q _ | MNack q => [(to, q)] | _ => [] end.
Definition answers (t : transmit) : list (N * N) :=
  match t with TPacket to m => answer_in to m | TCompound to ms => flat_map (answer_in to) ms end.
Definition cnt (c : N * N) (l : list (N * N)) : N := blen (filter (fun x => (fst x =? fst c) && (snd x =? snd c)) l).
Definition due_to (p : N * forward) : N * N := (f_reply (snd p), f_rseq (snd p)).
Definition load (c : N * N) (e : ep) : N := cnt c (flat_map answers (e_tx e)) + cnt c (map due_to (e_fwds e)).

Lemma cnt_app c a b : cnt c (a ++ b) = cnt c a + cnt c b.
Proof. unfold cnt. rewrite filter_app, blen_app. reflexivity. Qed.
Lemma cnt_perm c a b : Permutation a b -> cnt c a = cnt c b.
Proof.
  intros P. unfold cnt. induction P as [|x l l' P IH|x y l|l l' l'' P1 IH1 P2 IH2]; cbn [filter].
  - reflexivity.
  - destruct (_ && _); [rewrite !blen_cons, IH; reflexivity|exact IH].
  - destruct (_ && _), (_ && _); reflexivity.
  - congruence.
Qed.
Lemma quiet_answers ms to : Forall not_answer ms -> flat_map (answer_in to) ms = [].
Proof. induction 1 as [|m ms H F IH]; [reflexivity|]. cbn. rewrite IH, app_nil_r. destruct m; try reflexivity; contradiction. Qed.
Lemma gossip_na e : gq C (e_core e) -> Forall not_answer (snd (gossip_batch C e)).
Proof.
  intros [W NW]. set (Q := k_bc (e_core e)) in *.
  assert (forall l, Forall not_answer (map MUserData l)) as UN by (intros; apply Forall_map, Forall_forall; intros; exact Logic.I).
  assert (forall b, In b (map i_b (bq_q Q)) -> not_answer (snd b)) as NA by (intros b I; apply NW in I; destruct (snd b); cbn in *; tauto).
  unfold gossip_batch. fold Q. destruct (peek_first_sendable Q (c_mtu C)) as [len|]; [destruct (_ <? _)|].
  2-3: pose proof (batch_spec (mbcast C) (c_lim C (k_n (e_core e))) PART_LEN (c_mtu C - (TAG_LEN + COUNT_LEN)) Q W) as B;
       destruct (take_broadcasts_measured _ _ _ _ _) as [[Q' got] used]; destruct B as (_ & _ & rest & P & _);
       destruct (drain_user C _ _) as [e2 us]; cbn [snd]; apply Forall_app; split; [|apply UN]; apply Forall_map, Forall_forall;
       intros b I; apply NA; eapply Permutation_in; [symmetry; exact P|]; apply in_or_app; left; exact I.
  cbn [snd]. rewrite (take_one_first (mbcast C) _ _ Q W). destruct (find _ _) as [x|] eqn:F; [|constructor].
  cbn [snd]. constructor; [|constructor]. apply NA, in_map. apply find_some in F. apply F.
Qed.
Lemma just_quiet t : just C t -> answers t = [].
Proof. intros [to m NA L|to ms L NA A]; cbn; [destruct m; try reflexivity; contradiction|apply quiet_answers, NA]. Qed.
Lemma leave_quiet now fw e : runs e = true -> flat_map answers (e_tx (leave_with C now fw e)) = [].
Proof.
  intros R. rewrite (leave_eq C now fw e R). cbv zeta. set (live := live_addrs C _). set (dead := MDead _ _ _).
  set (P := match live with [] => (_, _) | _ => _ end).
  enough (flat_map answers (map (fun to => match snd P with [] => TPacket to dead | _ => TCompound to (map MUserData (snd P) ++ [dead]) end) live) = []) as K by (destruct live; exact K).
  clear. generalize live as l. intros l. induction l as [|a l IH]; [reflexivity|]. cbn [map flat_map]. rewrite IH, app_nil_r.
  destruct (snd P) as [|d r]; [reflexivity|]. apply quiet_answers, Forall_app. split; [apply Forall_map, Forall_forall; intros; exact Logic.I|constructor; [exact Logic.I|constructor]].
Qed.
Lemma cnt_adel c s f (m : amap forward) : NoDup (akeys m) -> aget s m = Some f -> cnt c (map due_to (adel s m)) + cnt c [due_to (s, f)] = cnt c (map due_to m).
Proof.
  intros ND G. rewrite <- cnt_app. apply cnt_perm.
  assert (Permutation (adel s m ++ [(s, f)]) m) as P.
  { revert ND G. induction m as [|[j x] m IH]; intros ND G; [discriminate|]. unfold akeys in ND. cbn [map fst] in ND. apply NoDup_cons_iff in ND as [NI ND].
    cbn in G |- *. destruct (N.eqb_spec j s) as [->|NE]; cbn in *.
    - rewrite N.eqb_refl in *. apply Some_inj in G. subst x. rewrite (adel_none s m); [symmetry; apply Permutation_cons_append|].
      destruct (aget s m) eqn:A; [|reflexivity]. exfalso. apply NI. apply (aget_some_key _ _ _ A).
    - destruct (N.eqb_spec s j); [congruence|]. constructor. apply IH; assumption. }
  apply (Permutation_map due_to) in P. rewrite map_app in P. exact P.
Qed.
Lemma estep_load e ls cr e' c : enc_ok C -> einv C e -> gq C (e_core e) -> estep C e ls cr e' -> load c e' <= load c e + cnt c cr.
Proof.
  intros HE I Q S. unfold load. destruct S; try (cbn; lia).
  - destruct (fail_rest C s now e) as (-> & _ & -> & _). lia.
  - destruct H as (_ & _ & _ & -> & _ & -> & _). lia.
  - cbn [push e_tx e_fwds e_set_tx]. rewrite flat_map_app, cnt_app. cbn [flat_map]. rewrite (just_quiet _ H0). cbn. lia.
  - cbn [push e_tx e_fwds e_set_tx]. rewrite flat_map_app, cnt_app. cbn [flat_map]. rewrite app_nil_r. destruct H0; cbn [answers answer_in]; lia.
  - pose proof (gossip_na e Q) as NA. destruct (gossip_rest C e) as (_ & _ & F & _ & _ & T & _). destruct (gossip_batch C e) as [g ms]. cbn [fst snd] in *.
    cbn [e_tx e_fwds e_set_tx]. rewrite F, T, flat_map_app, cnt_app.
    enough (flat_map answers (flat_map (gossip_tx ms) targets) = []) as -> by (cbn; lia).
    induction targets as [|a l IH]; [reflexivity|]. cbn [flat_map]. rewrite flat_map_app, IH, app_nil_r.
    unfold gossip_tx. destruct ms as [|m1 [|m2 l2]]; [reflexivity| |]; cbn [flat_map answers]; rewrite app_nil_r.
    + inversion NA; subst. destruct m1; try reflexivity; contradiction.
    + change (flat_map (answer_in a) (m1 :: m2 :: l2) = []). apply quiet_answers, NA.
  - cbn [e_tx e_fwds e_set_fwds e_set_acks]. apply seq_used_false in H2 as (_ & F & _).
    assert (aset s (mkFwd a t q (tadd now (c_probe_timeout C))) (e_fwds e) = (s, mkFwd a t q (tadd now (c_probe_timeout C))) :: e_fwds e) as -> by (unfold aset; rewrite (adel_none _ _ F); reflexivity).
    cbn [map]. unfold due_to at 1. cbn [f_reply f_rseq snd]. pose proof (cnt_app c [(a, q)] (map due_to (e_fwds e))) as X. cbn [app] in X. lia.
  - cbn [push e_tx e_fwds e_set_tx e_set_fwds e_set_acks]. rewrite flat_map_app, cnt_app. cbn [flat_map]. rewrite app_nil_r.
    pose proof (cnt_adel c s f (e_fwds e) (ei_fnd _ _ I) H0) as A. unfold due_to in A at 2. cbn [snd] in A.
    assert (answers (TPacket (f_reply f) m) = [(f_reply f, f_rseq f)]) as -> by (destruct H1; reflexivity). cbn. lia.
  - cbn [e_tx e_fwds e_set_probes e_set_fwds e_set_int]. rewrite (cnt_perm c (map due_to (shuffle f (e_fwds e))) (map due_to (e_fwds e))); [cbn; lia|].
    apply Permutation_map. symmetry. apply shuffle_perm.
  - rewrite (leave_quiet now fw e H). pose proof (leave_rest C now fw e H) as X. cbv zeta in X. destruct X as (_ & _ & -> & _). cbn. lia.
  - pose proof (poll_rest C e) as X. cbv zeta in X. destruct X as (_ & _ & -> & _ & _ & _ & _ & _ & _ & _ & _ & -> & _).
    destruct (e_tx e) as [|t l]; [cbn; lia|]. cbn [tl flat_map]. rewrite cnt_app. lia.
Qed.
Lemma esteps_load e ls cr e' c : enc_ok C -> esteps C e ls cr e' -> einv C e -> gq C (e_core e) -> load c e' <= load c e + cnt c cr.
Proof.
  intros HE. induction 1 as [|e1 e2 e3 k1 k2 c1 c2 S T IH]; intros I Q; [cbn; lia|].
  pose proof (estep_load _ _ _ _ c HE I Q S). rewrite cnt_app.
  assert (gq C (e_core e2)) as Q2 by (rewrite (estep_core C _ _ _ _ S); apply gq_run; [exact HE|apply (ei_core _ _ I)|exact Q]).
  pose proof (IH (einv_step C _ _ _ _ I S) Q2). lia.
Qed.
Lemma gq_ep e o : enc_ok C -> einv C e -> gq C (e_core e) -> gq C (e_core (fst (ep_step C e o))).
Proof.
  intros HE I Q. destruct (step_chain C e o I) as (ls & cr & S & _). rewrite (esteps_core C _ _ _ _ S). apply gq_run; [exact HE|apply (ei_core _ _ I)|exact Q].
Qed.

(** ** Over a history *)
Definition handed (x : list out) : list transmit := flat_map (fun o => match o with OTx t => [t] | _ => [] end) x.
Lemma handed_app a b : handed (a ++ b) = handed a ++ handed b.
Proof. apply flat_map_app. Qed.
Lemma step_handed e o : o <> EPollTx -> handed (snd (ep_step C e o)) = [].
Proof.
  intros H. destruct o; cbn [ep_step snd]; try reflexivity; try congruence.
  - unfold handle_stream_event. destruct ev; try reflexivity; destruct (runs e); cbn [negb]; try reflexivity; destruct (e_merge e _); reflexivity.
  - destruct (ping C nd now e) as [? [?|]]; reflexivity.
  - destruct (announce C _); reflexivity.
  - unfold dialled. destruct (push_pull_direct _ _ _ _ _) as [[i e1] [|]]; [|reflexivity]. destruct (aget i (e_int e1)); reflexivity.
  - destruct (announce C _); reflexivity.
  - unfold dialled. destruct (reliable_ping_direct _ _ _ _ _ _) as [[i e1] [|]]; [|reflexivity]. destruct (aget i (e_int e1)); reflexivity.
  - destruct (runs e); [|reflexivity]. destruct (announce C _); reflexivity.
  - destruct (runs e); [|reflexivity]. unfold dialled. destruct (user_message_direct _ _ _ _ _) as [[i e1] [|]]; [|reflexivity]. destruct (aget i (e_int e1)); reflexivity.
  - unfold dial_succeeded. destruct (aget id (e_int e)) as [i|]; [|reflexivity]. destruct (_ || _); reflexivity.
  - unfold accept_stream. destruct (runs e); reflexivity.
  - destruct (k_ev (e_core e)); reflexivity.
  - match goal with |- context [res ?r] => destruct r as [? []]; reflexivity end.
  - match goal with |- context [res ?r] => destruct r as [? []]; reflexivity end.
  - match goal with |- context [res ?r] => destruct r as [? []]; reflexivity end.
  - match goal with |- context [res ?r] => destruct r as [? []]; reflexivity end.
  - match goal with |- context [res ?r] => destruct r as [? []]; reflexivity end.
  - destruct (fst _); reflexivity.
Qed.
Lemma answered_le e0 os c : enc_ok C -> einv C e0 -> gq C (e_core e0) ->
  cnt c (flat_map answers (handed (snd (ep_run C e0 os)))) + load c (fst (ep_run C e0 os)) <= load c e0 + cnt c (flat_map credit os).
Proof.
  intros HE I0 Q0.
  refine (proj2 (run_acc C (fun h x e => gq C (e_core e) /\ cnt c (flat_map answers (handed x)) + load c e <= load c e0 + cnt c (flat_map credit h)) e0 I0 _ _ os)).
  { split; [exact Q0|]. cbn. lia. }
  intros h x e o I [Q L]. split; [apply gq_ep; assumption|]. rewrite handed_app, !flat_map_app, !cnt_app.
  assert (o = EPollTx \/ o <> EPollTx) as [->|NE] by (destruct o; (left; reflexivity) || (right; discriminate)).
  - cbn [ep_step credit flat_map app]. pose proof (poll_rest C e) as X. cbv zeta in X. destruct X as (_ & _ & F & _ & _ & _ & _ & _ & _ & _ & _ & T & _).
    unfold load in *. change (fst (let '(e1, t) := poll_transmit C e in (e1, match t with Some t => [OTx t] | None => [] end))) with (fst (ep_step C e EPollTx)).
    assert (fst (ep_step C e EPollTx) = fst (poll_transmit C e)) as -> by (cbn [ep_step]; destruct (poll_transmit C e); reflexivity). rewrite F, T.
    assert (handed (snd (let '(e1, t) := poll_transmit C e in (e1, match t with Some t => [OTx t] | None => [] end))) = match e_tx e with [] => [] | t :: _ => [t] end) as ->.
    { unfold poll_transmit. destruct (e_tx e); reflexivity. }
    destruct (e_tx e) as [|t l]; cbn [tl flat_map] in *; rewrite ?app_nil_r, ?cnt_app in *; change (cnt c []) with 0; lia.
  - rewrite (step_handed e o NE). destruct (step_chain C e o I) as (ls & cr & S & CR & _).
    pose proof (esteps_load _ _ _ _ c HE S I Q) as X. cbn [flat_map]. rewrite app_nil_r.
    assert (cnt c cr <= cnt c (credit o)) by (destruct CR as [->|(x0 & -> & ->)]; cbn; lia).
    change (cnt c []) with 0. lia.
Qed.

(** ** Farewells *)
Lemma farewell_carried now e fw cap : einv C e -> runs e = true -> farewell_capacity C e = Some cap ->
  elen C (MUserData fw) <= cap + 6 ->
  Forall (fun t => exists to r, t = TCompound to (MUserData fw :: r)) (e_tx (leave_with C now (Some fw) e)).
Proof.
  intros I R FC HL. rewrite (leave_eq C now (Some fw) e R). cbv zeta. set (live := live_addrs C _). set (dead := MDead _ _ _).
  unfold farewell_capacity in FC. cbv zeta in FC. set (D := MDead (k_inc (e_core e)) LID LID) in *.
  assert (dead = D) as ED.
  { unfold dead, D, leave_inc. destruct (ki_local _ _ (ei_core _ _ I)) as (m & G & (E & _)). unfold rec_at in G. rewrite G, E, N.max_id. reflexivity. }
  set (P := match live with [] => (_, _) | _ => _ end).
  enough (Forall (fun t => exists to r, t = TCompound to (MUserData fw :: r)) (map (fun to => match snd P with [] => TPacket to dead | _ => TCompound to (map MUserData (snd P) ++ [dead]) end) live)) as K by (destruct live; exact K).
  apply Forall_map, Forall_forall. intros to IN. assert (exists l, snd P = fw :: l) as (l & ->); [|cbn; eauto].
  unfold P. destruct live; [destruct IN|]. unfold farewell_payloads. rewrite ED.
  set (budget := c_mtu C - (TAG_LEN + COUNT_LEN) - (elen C D + PART_LEN)) in *.
  destruct (N.ltb_spec 0 (budget - USER_OVERHEAD)) as [P0|]; [|discriminate]. apply Some_inj in FC. subst cap.
  destruct (N.leb_spec (elen C (MUserData fw) + PART_LEN) budget) as [_|X]; [|unfold USER_OVERHEAD, PART_LEN in *; lia].
  destruct (drain_user C _ _) as [e2 us]. cbn. eauto.
Qed.
End Answers.
