(** The endpoint as a system of elementary steps: every operation is a chain of
    steps, each of which changes one thing. *)
From Coq Require Import Permutation.
From Verif Require Import EndpointModel MapFacts BaseFacts DeadlineFacts CoreFacts CoreInv CoreSteps.
Local Open Scope N_scope.
#[global] Arguments core_step : simpl never.
#[global] Arguments aset : simpl never.
#[global] Arguments push_pull_scale : simpl never.
#[global] Arguments scale_timeout : simpl never.
#[global] Arguments ack_remove : simpl never.
#[global] Arguments ack_handle : simpl never.
#[global] Arguments ack_register : simpl never.

Section Steps.
Variable C : cfg.
Notation LID := (c_id C).

(** ** Elementary steps *)
Definition ordinary (o : cop) : Prop :=
  match o with
  | KExpire _ | KHealthOk | KReset _ | KTake _ _ | KTakeOne _ | KDraws _ => True
  | KEmit EvLeftCluster => False
  | KEmit _ => True
  | _ => False
  end.
Definition not_leaving (o : cop) : Prop := match o with KLeave _ | KEmit EvLeftCluster => False | _ => True end.
Lemma ordinary_not_leaving o : ordinary o -> not_leaving o.
Proof. destruct o; cbn; auto; contradiction. Qed.
(** what was done to the core, and for which failed probe *)
Inductive lab := LOp (o : cop) | LFail (s : N) (p : probe) (now : N) (o : cop).
Definition unlab (l : lab) : cop := match l with LOp o => o | LFail _ _ _ o => o end.
Definition lab_ok (l : lab) : Prop := match l with LOp o => ordinary o | LFail _ _ _ _ => True end.
Definition not_answer (m : msg) : Prop := match m with MAck _ _ | MNack _ => False | _ => True end.
(** transmits other than answers to a request and gossip *)
Inductive just : transmit -> Prop :=
| j_fit to m : not_answer m -> elen C m <= c_mtu C -> just (TPacket to m)
| j_asm to ms : (2 <= length ms)%nat -> Forall not_answer ms -> assembled C ms <= c_mtu C -> just (TCompound to ms).
(** what they say about members: nothing, or what the local view says *)
Definition told (e : ep) (m : msg) : Prop :=
  match m with
  | MPing _ _ _ | MIndirectPing _ _ _ | MUserData _ => True
  | MSuspect inc id from => exists r, aget id (k_mem (e_core e)) = Some r /\ inc = m_inc r /\ from = LID
  | MPushPull _ st _ => st = local_states e
  | _ => False
  end.
Lemma told_not_answer e m : told e m -> not_answer m.
Proof. destruct m; cbn; auto. Qed.
Lemma told_ext e e' m : e_core e' = e_core e -> told e m -> told e' m.
Proof. intros E. destruct m; cbn; auto; unfold local_states; rewrite E; auto. Qed.
Definition tmsgs (t : transmit) : list msg := match t with TPacket _ m => [m] | TCompound _ ms => ms end.
(** when a probe may fail *)
Definition overdue (now : N) (p : probe) : Prop := p_fail p <= now \/ exists d, p_phase p = PhDirect d /\ d <= now.
(** what the failure of a probe does to the core *)
Definition fail_ops (now : N) (p : probe) (e : ep) : list cop :=
  match p_kind p with
  | PKDetection =>
    if p_disp p then KHealthFail (severity p) ::
      (if same_instance p e then [KSuspect (p_inc p) (ns_id (p_target p)) LID now] else [])
    else []
  | PKPing => []
  end.
Inductive answer (q : N) : msg -> Prop :=
| an_ack payload : answer q (MAck q payload)
| an_nack : answer q (MNack q).
(** how a probe begins; the core is the one it is created in *)
Definition born (k : core) (now seq : N) (p : probe) (a : ack_entry) : Prop :=
  match p_kind p with
  | PKDetection =>
    a_kind a = AKProbe /\
    exists m, aget (ns_id (m_server m)) (k_mem k) = Some m /\ probeable C (ns_id (m_server m), m) = true /\
      p = probe_new (m_server m) (m_inc m) (m_gen m) now PKDetection (c_probe_timeout C)
            (tadd now (scale_timeout (k_aw k) (c_probe_interval C)))
  | PKPing =>
    a_kind a = AKPing /\
    exists t i g, p = p_set_disp true (probe_new t i g now PKPing (c_probe_timeout C) (tadd now (c_probe_timeout C)))
  end.
(** what may happen to a live probe *)
Inductive pupd (p : probe) : probe -> Prop :=
| pu_disp b : p_kind p = PKDetection -> (exists d, p_phase p = PhDirect d) -> pupd p (p_set_disp b p)
| pu_fan d peers rid : p_phase p = PhDirect d -> p_kind p = PKDetection -> NoDup peers ->
    (peers <> [] \/ rid <> None) ->
    pupd p (p_set_phase (PhIndirect (blen peers) peers [] rid (p_fail p)) (p_set_disp true p))
| pu_nack x ps nb r d from : p_phase p = PhIndirect x ps nb r d -> In from ps -> ~ In from nb ->
    pupd p (p_set_phase (PhIndirect x ps (nb ++ [from]) r d) p)
| pu_retire x ps nb r d : p_phase p = PhIndirect x ps nb r d -> pupd p (p_set_phase (PhIndirect x ps nb None d) p).

(** which way the gossip drain goes *)
Definition gossip_op (e : ep) : cop :=
  match peek_first_sendable (k_bc (e_core e)) (c_mtu C) with
  | Some len => if c_mtu C - (TAG_LEN + COUNT_LEN) <? len + PART_LEN then KTakeOne (c_mtu C)
                else KTake PART_LEN (c_mtu C - (TAG_LEN + COUNT_LEN))
  | None => KTake PART_LEN (c_mtu C - (TAG_LEN + COUNT_LEN))
  end.
(** the operations on the core a call performs when leaving, resp. polling *)
Definition leave_ops (now : N) (e : ep) : list cop :=
  KLeave now :: match live_addrs C (act C (KLeave now) e) with [] => [KEmit EvLeftCluster] | _ => [] end.
Definition poll_ops (e : ep) : list cop :=
  match e_tx e, e_flush e with _ :: _, Some rem => if rem <=? 1 then [KEmit EvLeftCluster] else [] | _, _ => [] end.

(** nothing but the fields no property of the steps depends on *)
Definition same_rest (e e' : ep) : Prop :=
  e_core e' = e_core e /\ e_probes e' = e_probes e /\ e_acks e' = e_acks e /\ e_fwds e' = e_fwds e /\
  e_seq e' = e_seq e /\ e_tx e' = e_tx e /\ e_flush e' = e_flush e /\ e_sid e' = e_sid e /\ e_int e' = e_int e /\
  e_iidx e' = e_iidx e /\ e_np e' = e_np e /\ e_ng e' = e_ng e /\ e_npp e' = e_npp e.

(** a dial asked for has an id handed out before *)
Definition dial_known (e : ep) (o : cop) : Prop := match o with KEmit (EvDial a _ _) => a < e_sid e | _ => True end.
Definition no_dial (o : cop) : Prop := match o with KEmit (EvDial _ _ _) => False | _ => ordinary o end.
Inductive estep : ep -> list lab -> list (N * N) -> ep -> Prop :=
| es_core e o : not_leaving o -> dial_known e o -> estep e [LOp o] [] (act C o e)
| es_fail e s p now : aget s (e_probes e) = Some p -> overdue now p ->
    estep e (map (LFail s p now) (fail_ops now p e) ++
             match p_kind p with PKPing => [LOp (KEmit (EvPingFailed s (p_target p)))] | PKDetection => [] end)
          [] (probe_fail C s now e)
| es_misc e e' : same_rest e e' -> e_ub e' = e_ub e -> e_payload e' = e_payload e ->
    (e_cache e' = e_cache e \/ (e_cache e' = MPushPull false (local_states e) (e_snap e))) -> estep e [] [] e'
| es_payload e p : runs e = true -> elen C (MAck u32_max p) <= c_mtu C -> estep e [] [] (e_set_payload p e)
| es_user e rank d : runs e = true -> blen d <= user_limit C -> estep e [] [] (e_set_ub (queue_ranked bytes_broadcast rank d (e_ub e)) e)
| es_push e t : runs e = true -> just t -> Forall (told e) (tmsgs t) -> estep e [] [] (push t e)
| es_answer e a q m : runs e = true -> answer q m -> estep e [] [(a, q)] (push (TPacket a m) e)
| es_gossip e targets : runs e = true ->
    estep e [LOp (gossip_op e)] []
      (let '(e', ms) := gossip_batch C e in e_set_tx (e_tx e' ++ flat_map (gossip_tx ms) targets) e')
| es_seq e s : s <> 0 -> s < two32 -> seq_used e s = false -> estep e [] [] (e_set_seq s e)
| es_probe_new e s p a now : runs e = true -> s <> 0 -> s < two32 -> seq_used e s = false -> born (e_core e) now s p a ->
    estep e [] [] (e_set_acks (aset s a (e_acks e)) (e_set_probes (aset s p (e_probes e)) e))
| es_probe_upd e s p p' : aget s (e_probes e) = Some p -> pupd p p' ->
    (forall x ps nb rid d, p_phase p' = PhIndirect x ps nb (Some rid) d ->
       rid < e_sid e \/ exists x ps nb d, p_phase p = PhIndirect x ps nb (Some rid) d) ->
    estep e [] [] (e_set_probes (aset s p' (e_probes e)) e)
| es_probe_del e s p : aget s (e_probes e) = Some p ->
    estep e [] [] (e_set_acks (adel s (e_acks e)) (e_set_probes (adel s (e_probes e)) e))
| es_fwd_new e s a q t now : runs e = true -> s <> 0 -> s < two32 -> seq_used e s = false -> blen (e_fwds e) < c_max_forwards C ->
    estep e [] [(a, q)]
      (e_set_fwds (aset s (mkFwd a t q (tadd now (c_probe_timeout C))) (e_fwds e))
        (e_set_acks (aset s (mkAck now (tadd now (c_probe_timeout C)) (AKForward a)) (e_acks e)) e))
| es_fwd_done e s f m : runs e = true -> aget s (e_fwds e) = Some f -> answer (f_rseq f) m ->
    estep e [] [] (push (TPacket (f_reply f) m) (e_set_acks (adel s (e_acks e)) (e_set_fwds (adel s (e_fwds e)) e)))
| es_sid e : estep e [] [] (e_set_sid (e_sid e + 1) e)
| es_open e i : runs e = true -> told e (in_msg i) -> estep e [] [] (insert_intent (e_sid e) i (e_set_sid (e_sid e + 1) e))
| es_int_del e id : estep e [] [] (remove_intent id e)
| es_sched e np ng npp : runs e = true -> estep e [] [] (e_set_np np (e_set_ng ng (e_set_npp npp e)))
| es_reorder e f : estep e [] []
    (e_set_probes (shuffle f (e_probes e)) (e_set_fwds (shuffle f (e_fwds e)) (e_set_int (shuffle f (e_int e)) e)))
| es_leave e now fw : runs e = true -> estep e (map LOp (leave_ops now e)) [] (leave_with C now fw e)
| es_poll e : estep e (map LOp (poll_ops e)) [] (fst (poll_transmit C e)).
Inductive esteps : ep -> list lab -> list (N * N) -> ep -> Prop :=
| en_refl e : esteps e [] [] e
| en_step e1 e2 e3 k1 k2 c1 c2 : estep e1 k1 c1 e2 -> esteps e2 k2 c2 e3 -> esteps e1 (k1 ++ k2) (c1 ++ c2) e3.

Lemma esteps_trans e1 e2 e3 k1 k2 c1 c2 : esteps e1 k1 c1 e2 -> esteps e2 k2 c2 e3 -> esteps e1 (k1 ++ k2) (c1 ++ c2) e3.
Proof.
  induction 1 as [|? ? ? ? ? ? ? S _ IH]; intros T; [exact T|]. rewrite <- !app_assoc. econstructor; eauto.
Qed.
Lemma esteps_one e e' k c : estep e k c e' -> esteps e k c e'.
Proof. intros S. rewrite <- (app_nil_r k), <- (app_nil_r c). econstructor; [exact S|constructor]. Qed.
(** steps that give nothing away, whatever they do to the core *)
Definition eto (e e' : ep) : Prop := exists ks, esteps e ks [] e' /\ Forall lab_ok ks.
Lemma eto_refl e : eto e e.
Proof. exists []. split; constructor. Qed.
Lemma eto_trans e1 e2 e3 : eto e1 e2 -> eto e2 e3 -> eto e1 e3.
Proof.
  intros (k1 & S1 & O1) (k2 & S2 & O2). exists (k1 ++ k2). split; [|apply Forall_app; auto].
  change (@nil (N * N)) with (@nil (N * N) ++ []). eapply esteps_trans; eauto.
Qed.
Lemma eto_one e e' : estep e [] [] e' -> eto e e'.
Proof. intros S. exists []. split; [apply esteps_one, S|constructor]. Qed.
Lemma eto_known e o : ordinary o -> dial_known e o -> eto e (act C o e).
Proof. intros O D. exists [LOp o]. split; [apply esteps_one; constructor; [apply ordinary_not_leaving, O|exact D]|repeat constructor; exact O]. Qed.
Lemma eto_core e o : no_dial o -> eto e (act C o e).
Proof. intros O. apply eto_known; destruct o; try exact O; try exact Logic.I; destruct e0; try exact O; try exact Logic.I; destruct O. Qed.
Lemma eto_misc e e' : same_rest e e' -> e_ub e' = e_ub e -> e_payload e' = e_payload e -> e_cache e' = e_cache e -> eto e e'.
Proof. intros. apply eto_one, es_misc; auto. Qed.
Lemma eto_then e1 e2 e3 : estep e1 [] [] e2 -> eto e2 e3 -> eto e1 e3.
Proof. intros S T. eapply eto_trans; [apply eto_one, S|exact T]. Qed.
Lemma eto_fold {A} (f : ep -> A -> ep) (P : ep -> Prop) l :
  (forall e a, P e -> In a l -> eto e (f e a) /\ P (f e a)) -> forall e, P e -> eto e (fold_left f l e) /\ P (fold_left f l e).
Proof.
  induction l as [|a l IH]; cbn; intros H e Pe; [split; [apply eto_refl|exact Pe]|].
  destruct (H e a Pe (or_introl eq_refl)) as [T Pe'].
  destruct (IH (fun e a Pe I => H e a Pe (or_intror I)) _ Pe') as [T' Pe'']. split; [|exact Pe'']. eapply eto_trans; eauto.
Qed.

(** ** The functions as chains of steps *)
Lemma refute_runs a k : is_running (k_life (refute C a k)) = is_running (k_life k).
Proof.
  unfold refute. destruct (is_running (k_life k)) eqn:R; [|exact R].
  set (k1 := next_inc k).
  assert (k_life (if k_inc k1 <=? a then skip_past a k1 else k1) = k_life k) as E.
  { destruct (k_inc k1 <=? a); [|reflexivity]. unfold skip_past. destruct (_ <=? _); reflexivity. }
  revert E. generalize (if k_inc k1 <=? a then skip_past a k1 else k1). intros k2 E. cbv zeta.
  destruct (aget _ _); cbn; rewrite E; exact R.
Qed.
Lemma suspect_runs inc id from now k : is_running (k_life (process_suspect C inc id from now k)) = is_running (k_life k).
Proof.
  unfold process_suspect. destruct (is_running (k_life k)) eqn:R; cbn [negb]; [|exact R].
  destruct (aget id (k_mem k)) as [m|]; [|exact R]. destruct (_ <? _); [exact R|].
  destruct (m_susp m).
  - destruct (susp_confirm _ _ _ _) as [s' [d|]]; exact R.
  - destruct (pstate_eqb _ _); cbn [negb]; [|exact R]. destruct (_ =? _); [rewrite refute_runs; exact R|].
    destruct (c_sto C (k_n k)). unfold install_suspicion. destruct (aget _ _); exact R.
Qed.
Lemma dead_runs inc id from now k : is_running (k_life (process_dead C inc id from now k)) = is_running (k_life k).
Proof.
  unfold process_dead. destruct (aget id (k_mem k)) as [m|]; [|reflexivity]. destruct (_ <? _); [reflexivity|].
  destruct (dead_or_left _); [reflexivity|]. destruct (_ =? _).
  - destruct (k_life k) eqn:L; [rewrite refute_runs, L|reflexivity|rewrite refute_runs, L]; reflexivity.
  - destruct (is_running (k_life k)) eqn:R; cbn [negb]; [|exact R]. exact R.
Qed.
Lemma alive_runs al now k : is_running (k_life (process_alive C al now k)) = is_running (k_life k).
Proof.
  unfold process_alive. destruct (is_running (k_life k)) eqn:R; cbn [negb]; [|exact R].
  assert (forall ua nw k, is_running (k_life (alive_apply C al now ua nw k)) = is_running (k_life k)) as A.
  { clear. intros ua nw k. unfold alive_apply. destruct (aget _ _) as [m|]; [|reflexivity].
    destruct (_ && _ && _ && _); [reflexivity|]. destruct (_ && _); [reflexivity|].
    destruct (al_id al =? LID).
    - destruct (_ && _ && _ && _); [reflexivity|]. rewrite refute_runs. reflexivity.
    - destruct ua, (dead_or_left (m_state m)), (bytes_eqb (ns_meta (m_server m)) (al_meta al)); reflexivity. }
  destruct (k_adm k _); [|exact R]. unfold alive_decided. destruct (aget _ _) as [m|].
  - destruct (_ =? _); [rewrite A; exact R|]. destruct (match m_state m with PAlive => _ | _ => _ end); [rewrite A; exact R|exact R].
  - destruct (match c_max_members C with Some _ => _ | None => _ end); [exact R|].
    destruct (_ =? 0); cbn; rewrite A; exact R.
Qed.
Lemma core_runs o k : match o with KLeave _ => False | _ => True end ->
  is_running (k_life (fst (core_step C k o))) = is_running (k_life k).
Proof.
  intros O. destruct o; try contradiction; unfold core_step; cbn [fst]; try reflexivity.
  - apply alive_runs. - apply suspect_runs. - apply dead_runs.
  - unfold merge_state. revert k. induction l as [|p l IH]; intros k; [reflexivity|]. cbn [fold_left]. rewrite IH.
    unfold merge_one. destruct (pn_state p); rewrite ?alive_runs, ?suspect_runs, ?dead_runs; reflexivity.
  - unfold fire_expired_suspicions. generalize (expired_ids now (k_mem k)). intros l. revert k.
    induction l as [|p l IH]; intros k; [reflexivity|]. cbn [fold_left]. rewrite IH, dead_runs. reflexivity.
  - unfold update_meta. destruct (is_running (k_life k)) eqn:R; cbn [negb]; [|exact R]. destruct (_ <? _); exact R.
  - unfold reset_members. cbn.
    match goal with |- context [fold_left ?f _ _] => assert (forall l0 k0, k_life (fold_left f l0 k0) = k_life k0) as F end.
    { induction l0 as [|i l0 IH]; intros k1; [reflexivity|]. cbn [fold_left]. rewrite IH. reflexivity. }
    rewrite F. destruct (map fst _); reflexivity.
  - destruct (quiet e); reflexivity.
  - destruct (_ && _); reflexivity.
  - destruct (k_ev k); reflexivity.
Qed.
Lemma runs_nl o e : not_leaving o -> runs (act C o e) = runs e.
Proof. intros O. unfold runs, act. cbn. apply core_runs. destruct o; auto. Qed.
Lemma runs_act o e : ordinary o -> runs (act C o e) = runs e.
Proof. intros O. apply runs_nl, ordinary_not_leaving, O. Qed.
Lemma probe_fail_runs s now e : runs (probe_fail C s now e) = runs e.
Proof.
  unfold probe_fail. destruct (aget s (e_probes e)) as [p|]; [|reflexivity].
  set (e1 := e_set_acks _ _). set (e2 := match p_phase p with PhIndirect _ _ _ (Some rid) _ => remove_intent rid e1 | _ => e1 end).
  assert (runs e2 = runs e) as R by (unfold e2; destruct (p_phase p) as [|? ? ? [?|] ?]; reflexivity).
  destruct (p_kind p); [|rewrite runs_nl by exact Logic.I; exact R]. destruct (negb _); [exact R|].
  destruct (same_instance _ _); rewrite !runs_nl by exact Logic.I; exact R.
Qed.

Lemma gossip_batch_core e : e_core (fst (gossip_batch C e)) = e_core (act C (gossip_op e) e).
Proof.
  unfold gossip_batch, gossip_op. destruct (peek_first_sendable _ _) as [len|]; [destruct (_ <? _); [reflexivity|]|].
  all: destruct (take_broadcasts_measured _ _ _ _ _) as [[Q got] used]; unfold drain_user;
    destruct (ub_take _ _ _ _ _) as [[ub l] u]; reflexivity.
Qed.
Lemma gossip_op_ordinary e : ordinary (gossip_op e).
Proof. unfold gossip_op. destruct (peek_first_sendable _ _); [destruct (_ <? _)|]; exact Logic.I. Qed.
Lemma estep_runs e ks c e' : estep e ks c e' -> Forall lab_ok ks -> runs e' = runs e.
Proof.
  intros S O. destruct S; try reflexivity.
  - apply runs_nl. assumption.
  - apply probe_fail_runs.
  - unfold runs. destruct H as [-> _]. reflexivity.
  - unfold runs. destruct (gossip_batch C e) as [e' ms] eqn:G. cbn.
    pose proof (gossip_batch_core e) as E. rewrite G in E. cbn in E. rewrite E. apply runs_act, gossip_op_ordinary.
  - unfold leave_ops in O. inversion O; subst. contradiction.
  - unfold poll_transmit, poll_ops in *. destruct (e_tx e); [reflexivity|]. cbn. destruct (e_flush e) as [r|]; [|reflexivity].
    destruct (r <=? 1); [|reflexivity]. inversion O; subst. contradiction.
Qed.
Lemma eto_runs e e' : eto e e' -> runs e' = runs e.
Proof.
  intros (ks & S & O). revert O. remember (@nil (N * N)) as c eqn:Ec. revert Ec.
  induction S as [|? ? ? ? ? c1 c2 S _ IH]; intros E O; [reflexivity|].
  apply Forall_app in O as [O1 O2]. apply app_eq_nil in E as [-> ->].
  rewrite IH by auto. eapply estep_runs; eauto.
Qed.

(** *** intents and fallbacks *)
Lemma remove_intent_to id e : eto e (remove_intent id e).
Proof. apply eto_one, es_int_del. Qed.
Lemma retire_to s e : eto e (retire_reliable s e).
Proof.
  unfold retire_reliable. destruct (aget s (e_probes e)) as [p|] eqn:G; [|apply eto_refl].
  destruct (p_phase p) as [|x ps nb r d] eqn:P; [apply eto_refl|]. apply eto_one. eapply es_probe_upd; [exact G|eapply pu_retire, P|].
  cbn. intros; congruence.
Qed.
Lemma resolve_to id e : eto e (resolve_intent id e).
Proof.
  unfold resolve_intent. destruct (aget id (e_int e)) as [i|]; [|apply remove_intent_to].
  destruct (in_kind i); try apply remove_intent_to. eapply eto_trans; [apply remove_intent_to|apply retire_to].
Qed.
Lemma expire_intents_to now e : eto e (fire_expired_intents now e).
Proof.
  unfold fire_expired_intents. refine (proj1 (eto_fold _ (fun _ => True) _ _ _ Logic.I)). intros; split; [apply resolve_to|exact Logic.I].
Qed.
Lemma expire_forward_to e s : runs e = true -> eto e (expire_forward e s).
Proof.
  intros R. unfold expire_forward. destruct (aget s (e_fwds e)) as [f|] eqn:G; [|apply eto_refl].
  apply eto_one. exact (es_fwd_done e s f _ R G (an_nack _)).
Qed.
Lemma expire_forwards_to now e : runs e = true -> eto e (fire_expired_forwards now e).
Proof.
  intros R. unfold fire_expired_forwards. refine (proj1 (eto_fold _ (fun e => runs e = true) _ _ _ R)).
  intros e0 a R0 _. pose proof (expire_forward_to e0 a R0) as T. split; [exact T|]. rewrite (eto_runs _ _ T). exact R0.
Qed.

(** *** probes *)
Lemma probe_fail_to s now e : (forall p, aget s (e_probes e) = Some p -> overdue now p) -> eto e (probe_fail C s now e).
Proof.
  intros D. destruct (aget s (e_probes e)) as [p|] eqn:G.
  - eexists. split; [apply esteps_one; eapply es_fail; [exact G|apply D; reflexivity]|]. apply Forall_app. split.
    + apply Forall_map, Forall_forall. intros; exact Logic.I.
    + destruct (p_kind p); repeat constructor.
  - unfold probe_fail. rewrite G. apply eto_refl.
Qed.
Lemma probe_ok_to s direct payload now e : eto e (probe_ok C s direct payload now e).
Proof.
  unfold probe_ok. destruct (aget s (e_probes e)) as [p|] eqn:G; [|apply eto_refl].
  destruct (N.leb_spec (p_fail p) now) as [L|_]; [apply probe_fail_to; intros p' G'; left; congruence|].
  change (fst (ack_remove s (e_acks e))) with (adel s (e_acks e)).
  eapply eto_then; [eapply es_probe_del, G|]. match goal with |- eto ?x _ => generalize x end. clear. intros e.
  destruct (p_kind p); [|apply eto_core; exact Logic.I].
  eapply eto_trans; [apply (eto_core e KHealthOk); exact Logic.I|]. destruct direct; [|apply eto_refl]. apply eto_core. exact Logic.I.
Qed.
Lemma probe_fail_ack s now e : probe_fail C s now (e_set_acks (adel s (e_acks e)) e) = match aget s (e_probes e) with Some _ => probe_fail C s now e | None => e_set_acks (adel s (e_acks e)) e end.
Proof.
  unfold probe_fail. cbn. destruct (aget s (e_probes e)) as [p|]; [|reflexivity].
  change (fst (ack_remove s (adel s (e_acks e)))) with (adel s (adel s (e_acks e))). rewrite adel_adel. reflexivity.
Qed.
Lemma probe_ok_ack s d pl now e p : aget s (e_probes e) = Some p ->
  probe_ok C s d pl now (e_set_acks (adel s (e_acks e)) e) = probe_ok C s d pl now e.
Proof.
  intros G. unfold probe_ok. rewrite probe_fail_ack. cbn. rewrite G.
  change (fst (ack_remove s (adel s (e_acks e)))) with (adel s (adel s (e_acks e))). rewrite adel_adel. reflexivity.
Qed.
(** an ack for a forward leaves with the address it was registered under *)
Definition fwd_acks (e : ep) : Prop := forall s a r, aget s (e_acks e) = Some a -> a_kind a = AKForward r ->
  exists f, aget s (e_fwds e) = Some f /\ f_reply f = r.
Lemma handle_ack_to from s payload now e : runs e = true -> fwd_acks e -> eto e (handle_ack C from s payload now e).
Proof.
  intros R F. unfold handle_ack, ack_get. destruct (aget s (e_acks e)) as [a|] eqn:A; [|apply eto_refl].
  destruct (ack_source_valid _ _ _ _) eqn:V; cbn [negb]; [|apply eto_refl].
  change (fst (ack_handle s (e_acks e))) with (adel s (e_acks e)).
  destruct (a_kind a) as [|r|] eqn:K.
  - cbn in V. destruct (aget s (e_probes e)) as [p|] eqn:G; [|discriminate]. cbn [e_probes e_set_acks].
    rewrite (probe_ok_ack _ _ _ _ _ _ G). apply probe_ok_to.
  - destruct (F s a r A K) as (f & G & <-). rewrite G. destruct (f_deadline f <=? now); [apply eto_refl|].
    cbn [e_fwds e_set_acks]. rewrite G. apply eto_one. exact (es_fwd_done e s f _ R G (an_ack _ _)).
  - cbn in V. destruct (aget s (e_probes e)) as [p|] eqn:G; [|discriminate]. cbn [e_probes e_set_acks].
    rewrite (probe_ok_ack _ _ _ _ _ _ G). apply probe_ok_to.
Qed.
Lemma existsb_eqb_in x l : existsb (N.eqb x) l = true <-> In x l.
Proof.
  rewrite existsb_exists. split; [intros (y & I & E)|intros I; exists x]; [apply N.eqb_eq in E; congruence|].
  split; [exact I|apply N.eqb_refl].
Qed.
Lemma existsb_eqb_out x l : existsb (N.eqb x) l = false <-> ~ In x l.
Proof. rewrite <- existsb_eqb_in. destruct (existsb _ _); intuition congruence. Qed.
Lemma handle_nack_to from s now e : eto e (handle_nack from s now e).
Proof.
  unfold handle_nack. destruct (aget s (e_probes e)) as [p|] eqn:G; [|apply eto_refl]. destruct (_ <=? _); [apply eto_refl|].
  destruct (p_phase p) as [|x ps nb r d] eqn:P; [apply eto_refl|].
  destruct (existsb (N.eqb from) ps) eqn:E1; [|apply eto_refl]. destruct (existsb (N.eqb from) nb) eqn:E2; [apply eto_refl|].
  cbn [andb negb]. apply eto_one. eapply es_probe_upd; [exact G| |].
  - eapply pu_nack; [exact P|apply existsb_eqb_in, E1|apply existsb_eqb_out, E2].
  - cbn. intros ? ? ? ? ? [= -> -> <- -> ->]. right. rewrite P. eauto.
Qed.

Lemma push_fit_to to m e : runs e = true -> told e m -> eto e (fst (push_fit C to m e)).
Proof.
  intros R A. unfold push_fit. destruct (N.leb_spec (elen C m) (c_mtu C)); [|apply eto_refl]. apply eto_one, es_push; [exact R| |repeat constructor; exact A]. constructor; [eapply told_not_answer, A|assumption].
Qed.
Lemma push_fit_rest to m e : let e' := fst (push_fit C to m e) in
  e_core e' = e_core e /\ e_probes e' = e_probes e /\ e_sid e' = e_sid e /\ e_int e' = e_int e /\ e_acks e' = e_acks e /\ e_fwds e' = e_fwds e.
Proof. unfold push_fit. destruct (_ <=? _); repeat split. Qed.

(** *** sequence numbers *)
Lemma wadd32_lt a b : wadd32 a b < two32.
Proof. unfold wadd32. apply N.mod_lt. discriminate. Qed.
Lemma seq_loop_spec fuel s used r : seq_loop fuel s used = Some r -> r <> 0 /\ r < two32 /\ used r = false.
Proof.
  revert s. induction fuel as [|f IH]; cbn [seq_loop]; intros s H; [discriminate|]. cbv zeta in H.
  destruct (N.eqb_spec (wadd32 s 1) 0) as [E|E]; cbn [orb] in H; [eapply IH, H|].
  destruct (used (wadd32 s 1)) eqn:U; [eapply IH, H|]. injection H as <-. split; [exact E|]. split; [apply wadd32_lt|exact U].
Qed.
Lemma alloc_seq_spec e s e' : alloc_seq e = Some (s, e') -> e' = e_set_seq s e /\ s <> 0 /\ s < two32 /\ seq_used e s = false.
Proof.
  unfold alloc_seq. destruct (seq_loop _ _ _) as [r|] eqn:L; [|discriminate]. intros [= <- <-].
  apply seq_loop_spec in L. split; [reflexivity|exact L].
Qed.

(** *** probing *)
Lemma scan_spec fuel idx t id cur : scan C fuel idx t = Some (id, cur) ->
  exists m i, nth_error t i = Some (id, m) /\ probeable C (id, m) = true /\ cur = (N.of_nat i + 1) mod blen t.
Proof.
  revert idx. induction fuel as [|f IH]; cbn [scan]; intros idx H; [discriminate|]. cbv zeta in H.
  destruct (nth_error t (N.to_nat (idx mod blen t))) as [[j m]|] eqn:E; [|eapply IH, H].
  destruct (probeable C (j, m)) eqn:P; [|eapply IH, H]. cbn [fst] in H. injection H as <- <-.
  exists m, (N.to_nat (idx mod blen t)). rewrite N2Nat.id. auto.
Qed.
Lemma probe_send_to (b : bool) ping sus to e : runs e = true ->
  told e ping -> told e sus ->
  let r := if b then if assembled C [ping; sus] <=? c_mtu C then (push (TCompound to [ping; sus]) e, true)
                     else let '(e, d) := push_fit C to ping e in (fst (push_fit C to sus e), d)
           else push_fit C to ping e in
  eto e (fst r) /\ e_probes (fst r) = e_probes e /\ e_sid (fst r) = e_sid e.
Proof.
  intros R A1 A2. destruct b.
  - destruct (N.leb_spec (assembled C [ping; sus]) (c_mtu C)) as [L|_]; cbv zeta.
    + split; [|split; reflexivity]. apply eto_one, es_push; [exact R| |repeat constructor; assumption].
      apply j_asm; [cbn; lia|repeat constructor; eapply told_not_answer; eassumption|exact L].
    + pose proof (push_fit_to to ping e R A1) as T1. pose proof (push_fit_rest to ping e) as E1.
      destruct (push_fit C to ping e) as [e1 d]. cbn [fst] in *.
      assert (runs e1 = true) as R1 by (rewrite (eto_runs _ _ T1); exact R).
      cbv zeta in E1. pose proof (push_fit_to to sus e1 R1 (told_ext e e1 sus ltac:(apply E1) A2)) as T2. pose proof (push_fit_rest to sus e1) as E2. cbv zeta in E2.
      split; [eapply eto_trans; eauto|]. split; [destruct E2 as (_ & -> & _); apply E1|]. destruct E2 as (_ & _ & -> & _); apply E1.
  - cbv zeta. split; [apply push_fit_to; auto|]. split; apply push_fit_rest.
Qed.
Lemma start_probe_to now e : kinv C (e_core e) -> eto e (start_probe C now e).
Proof.
  intros K. unfold start_probe. destruct (runs e) eqn:R; cbn [negb]; [|apply eto_refl].
  unfold next_target. destruct (scan C _ _ _) as [[id cur]|] eqn:S; [|apply eto_refl].
  apply scan_spec in S as (m0 & i & I & PB & _). apply nth_error_In in I.
  apply (aget_of_in _ _ _ (ki_nodup _ _ K)) in I.
  apply eto_trans with (e_set_pidx cur e); [apply eto_misc; repeat split|].
  set (e0 := e_set_pidx cur e). assert (runs e0 = true) as R0 by exact R.
  assert (kinv C (e_core e0)) as K0 by exact K. assert (aget id (k_mem (e_core e0)) = Some m0) as I0 by exact I.
  clearbody e0. clear R K I e.
  rewrite I0. destruct (alloc_seq e0) as [[s e1]|] eqn:A; [|apply eto_refl].
  apply alloc_seq_spec in A as (-> & S0 & S1 & U).
  set (p := probe_new _ _ _ _ _ _ _). set (a := mkAck _ _ AKProbe).
  eapply eto_then; [apply (es_seq e0 s); assumption|]. cbv zeta.
  set (e1 := e_set_seq s e0).
  change (ack_register s a (e_acks e1)) with (aset s a (e_acks e1)).
  eapply eto_then.
  { apply (es_probe_new e1 s p a now); [exact R0|exact S0|exact S1|exact U|].
    unfold born. cbn. split; [reflexivity|]. exists m0.
    destruct (ki_rec _ _ K0 id m0 I0) as [NI _]. rewrite NI. auto. }
  set (e2 := e_set_acks _ _).
  pose proof (probe_send_to (pstate_eqb (m_state m0) PSuspect) (MPing s (lnode C) (mkNode id (ns_addr (m_server m0))))
    (MSuspect (m_inc m0) id LID) (ns_addr (m_server m0)) e2 R0 Logic.I ltac:(exists m0; auto)) as (T & P & SI). cbv zeta in T, P, SI.
  match goal with |- eto _ (let '(e, b) := ?x in _) => destruct x as [e3 sent] eqn:E3 end.
  cbn [fst] in T, P, SI. eapply eto_trans; [exact T|]. apply eto_one.
  eapply es_probe_upd with (p := p).
  - rewrite P. cbn. apply aget_aset_eq.
  - apply pu_disp; [reflexivity|]. cbn. eauto.
  - cbn. intros; discriminate.
Qed.
Lemma ping_to nd now e : eto e (fst (ping C nd now e)).
Proof.
  unfold ping. destruct (runs e) eqn:R; cbn [negb]; [|apply eto_refl]. cbv zeta.
  set (t := match aget (nd_id nd) _ with Some _ => _ | None => _ end). set (i := match aget (nd_id nd) _ with Some m => m_inc m | None => 0 end).
  set (g := match aget (nd_id nd) _ with Some m => m_gen m | None => 0 end). clearbody t i g.
  destruct (alloc_seq e) as [[s e1]|] eqn:A; [|apply eto_refl]. apply alloc_seq_spec in A as (-> & S0 & S1 & U).
  eapply eto_then; [apply (es_seq e s); assumption|]. set (e1 := e_set_seq s e).
  destruct (N.ltb_spec (c_mtu C) (elen C (MPing s (lnode C) nd))) as [_|L]; [apply eto_refl|]. cbn [fst].
  set (p := p_set_disp true _). set (a := mkAck _ _ AKPing).
  change (ack_register s a (e_acks e1)) with (aset s a (e_acks e1)).
  eapply eto_then; [apply (es_probe_new e1 s p a now); [exact R|exact S0|exact S1|exact U|]|].
  { unfold born. cbn. split; [reflexivity|]. exists t, i, g. reflexivity. }
  apply eto_one, es_push; [exact R| |repeat constructor]. constructor; [exact Logic.I|exact L].
Qed.
(** *** relaying *)
Definition gives (e : ep) (cr : N * N) (e' : ep) : Prop :=
  eto e e' \/ exists e1 e2, eto e e1 /\ estep e1 [] [cr] e2 /\ eto e2 e'.
Lemma gives_after e cr e1 e2 : eto e e1 -> gives e1 cr e2 -> gives e cr e2.
Proof.
  intros T [T'|(a & b & T1 & S & T2)]; [left; eapply eto_trans; eauto|right]. exists a, b. split; [eapply eto_trans; eauto|auto].
Qed.
Lemma gives_before e cr e1 e2 : gives e cr e1 -> eto e1 e2 -> gives e cr e2.
Proof.
  intros [T'|(a & b & T1 & S & T2)] T; [left; eapply eto_trans; eauto|right]. exists a, b. split; [exact T1|]. split; [exact S|]. eapply eto_trans; eauto.
Qed.
Lemma gives_one e cr e' : estep e [] [cr] e' -> gives e cr e'.
Proof. intros S. right. exists e, e'. repeat split; try apply eto_refl. exact S. Qed.
Lemma indirect_gives from q src tgt now e : runs e = true -> gives e (from, q) (handle_indirect_ping C from q src tgt now e).
Proof.
  intros R. unfold handle_indirect_ping. destruct (N.eqb_spec from (nd_addr src)) as [->|]; cbn [negb]; [|left; apply eto_refl].
  destruct (N.leb_spec (c_max_forwards C) (blen (e_fwds e))) as [|L]; [left; apply eto_refl|].
  destruct (existsb _ _); [left; apply eto_refl|].
  destruct (alloc_seq e) as [[s e1]|] eqn:A; [|left; apply eto_refl]. apply alloc_seq_spec in A as (-> & S0 & S1 & U).
  apply gives_after with (e_set_seq s e); [apply eto_one, es_seq; assumption|]. cbv zeta.
  destruct (N.leb_spec (elen C (MPing s (lnode C) tgt)) (c_mtu C)) as [F|_]; cbn [negb].
  - set (e1 := e_set_seq s e). change (ack_register s ?a (e_acks e1)) with (aset s a (e_acks e1)).
    eapply gives_before.
    + apply gives_one. apply (es_fwd_new e1 s (nd_addr src) q (nd_addr tgt) now); assumption.
    + apply eto_one. apply es_push; [exact R| |repeat constructor]. constructor; [exact Logic.I|exact F].
  - apply gives_one. apply es_answer; [exact R|constructor].
Qed.
Lemma ping_gives from q src tgt e : runs e = true -> gives e (from, q) (handle_ping C from q src tgt e).
Proof.
  intros R. unfold handle_ping. destruct (negb _); [left; apply eto_refl|]. apply gives_one, es_answer; [exact R|constructor].
Qed.

(** *** dials *)
Lemma open_intent_to peer k d m e : told e m -> eto e (snd (fst (open_intent peer k d m e))).
Proof.
  intros TD. unfold open_intent, alloc_sid. destruct (runs (e_set_sid (e_sid e + 1) e)) eqn:R; cbn [negb fst snd].
  - apply eto_one. apply es_open; [exact R|exact TD].
  - apply eto_one, es_sid.
Qed.
Lemma open_intent_eq peer k d m e : open_intent peer k d m e =
  if runs e then (e_sid e, insert_intent (e_sid e) (mkIntent peer k d m) (e_set_sid (e_sid e + 1) e), true)
  else (e_sid e, e_set_sid (e_sid e + 1) e, false).
Proof.
  unfold open_intent, alloc_sid. change (runs (e_set_sid (e_sid e + 1) e)) with (runs e). destruct (runs e); reflexivity.
Qed.
Lemma announce_to r : fst (fst r) < e_sid (snd (fst r)) -> eto (snd (fst r)) (snd (announce C r)).
Proof.
  intros L. destruct r as [[id e] ok]. unfold announce. cbn [fst snd]. destruct (aget id (e_int e)) as [i|]; [|apply eto_refl].
  destruct ok; [|apply eto_refl]. apply eto_known; [exact Logic.I|exact L].
Qed.
Lemma open_sid peer k d m e : fst (fst (open_intent peer k d m e)) < e_sid (snd (fst (open_intent peer k d m e))).
Proof. rewrite open_intent_eq. destruct (runs e); cbn; lia. Qed.
Lemma dialled_to r : fst (dialled r) = snd (fst r).
Proof. destruct r as [[id e] ok]. reflexivity. Qed.

(** *** fan-out *)
Lemma pick_to k pool e : eto e (snd (pick C k pool e)).
Proof. unfold pick. apply eto_core. exact Logic.I. Qed.
Lemma distinct_in seen l a : In a (distinct_addrs seen l) -> In a l /\ ~ In a seen.
Proof.
  revert seen. induction l as [|b l IH]; cbn [distinct_addrs]; intros seen H; [destruct H|].
  destruct (existsb (N.eqb b) seen) eqn:E.
  - apply IH in H as [H1 H2]. split; [right; exact H1|exact H2].
  - destruct H as [<-|H]; [split; [left; reflexivity|apply existsb_eqb_out, E]|].
    apply IH in H as [H1 H2]. split; [right; exact H1|]. intros X. apply H2. right. exact X.
Qed.
Lemma distinct_nodup seen l : NoDup (distinct_addrs seen l).
Proof.
  revert seen. induction l as [|b l IH]; cbn [distinct_addrs]; intros seen; [constructor|].
  destruct (existsb _ _); [apply IH|]. constructor; [|apply IH]. intros H. apply distinct_in in H as [_ H]. apply H. left. reflexivity.
Qed.
Lemma nodup_prefix {A} (l l' : list A) : NoDup (l ++ l') -> NoDup l.
Proof.
  induction l as [|a l IH]; cbn [app]; intros H; [constructor|]. inversion H as [|? ? NI ND]; subst. constructor; [|auto].
  intros X. apply NI, in_or_app. left. exact X.
Qed.
Lemma pick_nodup k pool e : NoDup pool -> NoDup (fst (pick C k pool e)).
Proof.
  intros ND. unfold pick. cbn [fst]. set (l := shuffle _ pool).
  assert (NoDup l) as NL by (eapply Permutation_NoDup; [apply shuffle_perm|exact ND]).
  rewrite <- (btake_bdrop k l) in NL. exact (nodup_prefix _ _ NL).
Qed.
Lemma pick_incl k pool e a : In a (fst (pick C k pool e)) -> In a pool.
Proof.
  unfold pick. cbn [fst]. intros H. eapply Permutation_in; [apply Permutation_sym, shuffle_perm|].
  rewrite <- (btake_bdrop k). apply in_or_app. left. exact H.
Qed.
Lemma send_indirect_to m l : match m with MIndirectPing _ _ _ => True | _ => False end -> forall e sent, runs e = true -> NoDup (sent ++ l) ->
  let r := fold_left (send_indirect C m) l (e, sent) in
  eto e (fst r) /\ e_probes (fst r) = e_probes e /\ e_sid (fst r) = e_sid e /\ NoDup (snd r) /\
  incl (snd r) (sent ++ l).
Proof.
  intros A. induction l as [|to l IH]; cbn [fold_left]; intros e sent R ND; cbv zeta.
  - rewrite app_nil_r in *. repeat split; try apply eto_refl; auto. apply incl_refl.
  - assert (send_indirect C m (e, sent) to = if elen C m <=? c_mtu C then (push (TPacket to m) e, sent ++ [to]) else (e, sent)) as ->
      by (unfold send_indirect, push_fit; cbn [fst snd]; destruct (elen C m <=? c_mtu C); reflexivity).
    destruct (N.leb_spec (elen C m) (c_mtu C)) as [L|L].
    + destruct (IH (push (TPacket to m) e) (sent ++ [to]) R) as (T & P & S & N & I); [rewrite <- app_assoc; exact ND|].
      cbv zeta in *. split; [|split; [exact P|split; [exact S|split; [exact N|]]]].
      * eapply eto_then; [apply es_push; [exact R|constructor; [|exact L]|repeat constructor]; destruct m; try contradiction; exact Logic.I|exact T].
      * rewrite <- app_assoc in I. exact I.
    + destruct (IH e sent R) as (T & P & S & N & I).
      { apply NoDup_remove_1 in ND. exact ND. }
      cbv zeta in *. repeat split; auto. intros x Hx. apply I in Hx. apply in_app_iff in Hx as [|]; apply in_app_iff; [left|right; right]; assumption.
Qed.
Lemma fan_out_to now e s p d : runs e = true -> aget s (e_probes e) = Some p -> p_phase p = PhDirect d -> d <= now -> p_kind p = PKDetection ->
  eto e (fan_out C now e s).
Proof.
  intros R G P DN K. unfold fan_out. rewrite G. cbv zeta.
  pose proof (pick_to (c_indirect C) (fan_helpers C (ns_addr (p_target p)) e) e) as T0.
  pose proof (pick_nodup (c_indirect C) (fan_helpers C (ns_addr (p_target p)) e) e (distinct_nodup _ _)) as ND.
  assert (e_probes (snd (pick C (c_indirect C) (fan_helpers C (ns_addr (p_target p)) e) e)) = e_probes e) as P0 by reflexivity.
  destruct (pick C _ _ e) as [chosen e0]. cbn [fst snd] in *. eapply eto_trans; [exact T0|].
  assert (runs e0 = true) as R0 by (rewrite (eto_runs _ _ T0); exact R).
  rewrite <- P0 in G. clear P0 T0 R e.
  assert (overdue now p) as OD by (right; eauto).
  destruct (p_fail p <=? now); [apply probe_fail_to; intros; congruence|].
  assert (exists rid e1, (if existsb (N.eqb (ns_id (p_target p))) (e_norel e0) then (None, e0)
     else let '(rid, e) := announce C (reliable_ping_direct C (ns_id (p_target p)) (ns_addr (p_target p)) s (p_fail p) e0) in (Some rid, e)) = (rid, e1) /\
     eto e0 e1 /\ e_probes e1 = e_probes e0 /\ (forall r, rid = Some r -> r < e_sid e1)) as (rid & e1 & -> & T1 & P1 & SI).
  { destruct (existsb _ _).
    - exists None, e0. repeat split; [apply eto_refl|discriminate].
    - unfold reliable_ping_direct. set (X := open_intent _ _ _ _ e0).
      pose proof (open_intent_to (ns_addr (p_target p)) (OKReliablePing s) (p_fail p) (MPing s (lnode C) (mkNode (ns_id (p_target p)) (ns_addr (p_target p)))) e0 Logic.I) as T.
      fold X in T. pose proof (announce_to X (open_sid _ _ _ _ _)) as T'.
      assert (X = (e_sid e0, insert_intent (e_sid e0) (mkIntent (ns_addr (p_target p)) (OKReliablePing s) (p_fail p) (MPing s (lnode C) (mkNode (ns_id (p_target p)) (ns_addr (p_target p))))) (e_set_sid (e_sid e0 + 1) e0), true)) as E.
      { unfold X. rewrite open_intent_eq, R0. reflexivity. }
      clearbody X. subst X. cbn [fst snd announce] in *. cbn [insert_intent e_int e_set_int] in *. rewrite aget_aset_eq in *. cbn [fst snd] in *.
      eexists _, _. split; [reflexivity|]. split; [eapply eto_trans; eauto|]. split; [reflexivity|]. intros r [= <-]. cbn. lia. }
  assert (runs e1 = true) as R1 by (rewrite (eto_runs _ _ T1); exact R0).
  eapply eto_trans; [exact T1|]. rewrite <- P1 in G. clear T1 P1 R0 e0.
  pose proof (send_indirect_to (MIndirectPing s (lnode C) (mkNode (ns_id (p_target p)) (ns_addr (p_target p)))) chosen Logic.I e1 [] R1 ND) as H.
  cbv zeta in H. destruct (fold_left _ chosen (e1, [])) as [e2 peers]. cbn [fst snd] in H. destruct H as (T2 & P2 & S2 & N2 & _).
  eapply eto_trans; [exact T2|]. rewrite <- P2 in G.
  destruct ((blen peers =? 0) && match rid with None => true | Some _ => false end) eqn:E; [apply probe_fail_to; intros; congruence|].
  apply eto_one. eapply es_probe_upd; [exact G|eapply pu_fan; [exact P|exact K|exact N2|]|].
  - destruct rid; [right; discriminate|left]. rewrite andb_true_r in E. intros ->. discriminate.
  - cbn. intros ? ? ? r ? H. left. rewrite S2. apply SI. injection H. congruence.
Qed.
Lemma probe_fail_probes s now e j : aget j (e_probes (probe_fail C s now e)) = if j =? s then None else aget j (e_probes e).
Proof.
  unfold probe_fail. destruct (aget s (e_probes e)) as [p|] eqn:G; [|destruct (N.eqb_spec j s) as [->|]; [exact G|reflexivity]].
  set (e1 := e_set_acks _ _). assert (aget j (e_probes e1) = if j =? s then None else aget j (e_probes e)) as E by apply aget_adel.
  set (e2 := match p_phase p with PhIndirect _ _ _ (Some rid) _ => remove_intent rid e1 | _ => e1 end).
  assert (e_probes e2 = e_probes e1) as E2 by (unfold e2; destruct (p_phase p) as [|? ? ? [?|] ?]; reflexivity).
  destruct (p_kind p); [|cbn; rewrite E2; exact E]. destruct (negb _); [rewrite E2; exact E|].
  destruct (same_instance _ _); cbn; rewrite E2; exact E.
Qed.
Lemma fan_out_probes now e s j : runs e = true -> j <> s -> aget j (e_probes (fan_out C now e s)) = aget j (e_probes e).
Proof.
  intros R NE. apply N.eqb_neq in NE as NE'. unfold fan_out. destruct (aget s (e_probes e)) as [p|] eqn:G; [|reflexivity]. cbv zeta.
  assert (e_probes (snd (pick C (c_indirect C) (fan_helpers C (ns_addr (p_target p)) e) e)) = e_probes e) as P0 by reflexivity.
  pose proof (pick_to (c_indirect C) (fan_helpers C (ns_addr (p_target p)) e) e) as T0.
  pose proof (pick_nodup (c_indirect C) (fan_helpers C (ns_addr (p_target p)) e) e (distinct_nodup _ _)) as ND.
  destruct (pick C _ _ e) as [chosen e0]. cbn [fst snd] in *. rewrite <- P0.
  assert (runs e0 = true) as R0 by (rewrite (eto_runs _ _ T0); exact R).
  destruct (p_fail p <=? now); [rewrite probe_fail_probes, NE'; reflexivity|].
  set (Y := if existsb (N.eqb (ns_id (p_target p))) (e_norel e0) then (None, e0) else _).
  assert (e_probes (snd Y) = e_probes e0 /\ runs (snd Y) = true) as [PY RY].
  { unfold Y. destruct (existsb _ _); [split; [reflexivity|exact R0]|]. unfold reliable_ping_direct. rewrite open_intent_eq, R0.
    unfold announce. destruct (aget (e_sid e0) _); (split; [reflexivity|exact R0]). }
  destruct Y as [rid e1]. cbn [snd] in *. rewrite <- PY.
  pose proof (send_indirect_to (MIndirectPing s (lnode C) (mkNode (ns_id (p_target p)) (ns_addr (p_target p)))) chosen Logic.I e1 [] RY ND) as H.
  cbv zeta in H. destruct (fold_left _ chosen (e1, [])) as [e2 peers]. cbn [fst snd] in H. destruct H as (T2 & P2 & S2 & N2 & _).
  rewrite <- P2. destruct (_ && _); [rewrite probe_fail_probes, NE'; reflexivity|]. cbn. rewrite aget_aset, NE'. reflexivity.
Qed.
Lemma fan_outs_to now : forall l e, NoDup l -> runs e = true ->
  (forall s, In s l -> exists p d, aget s (e_probes e) = Some p /\ p_phase p = PhDirect d /\ d <= now /\ p_kind p = PKDetection) ->
  eto e (fold_left (fan_out C now) l e) /\ forall j, ~ In j l -> aget j (e_probes (fold_left (fan_out C now) l e)) = aget j (e_probes e).
Proof.
  induction l as [|s l IH]; intros e ND R H; [split; [apply eto_refl|reflexivity]|]. cbn [fold_left].
  destruct (H s (or_introl eq_refl)) as (p & d & G & P & DN & K). pose proof (fan_out_to now e s p d R G P DN K) as T.
  inversion ND as [|? ? NI ND']; subst. destruct (IH (fan_out C now e s) ND') as [T' E].
  - rewrite (eto_runs _ _ T). exact R.
  - intros s' I. rewrite fan_out_probes; [apply H; right; exact I|exact R|congruence].
  - split; [eapply eto_trans; eauto|]. intros j NJ. rewrite E by (intros X; apply NJ; right; exact X).
    apply fan_out_probes; [exact R|]. intros ->. apply NJ. left. reflexivity.
Qed.
Definition direct_shape (e : ep) : Prop := forall s p d, aget s (e_probes e) = Some p -> p_phase p = PhDirect d -> d = tadd (p_sent p) (c_probe_timeout C).
Lemma advance_fsm_to now e : runs e = true -> NoDup (akeys (e_probes e)) -> direct_shape e -> eto e (advance_fsm C now e).
Proof.
  intros R ND SH. unfold advance_fsm.
  set (fan := map fst (filter (fun p => match fsm_due C now (snd p) with FsmFan => true | _ => false end) _)).
  set (fl := map fst (filter _ (e_probes e))). cbv zeta.
  assert (forall s, In s fan -> exists p, aget s (e_probes e) = Some p /\ fsm_due C now p = FsmFan) as F1.
  { intros s I. unfold fan in I. apply in_map_iff in I as ([s' p] & <- & I). apply filter_In in I as [I D]. cbn [fst snd] in *.
    exists p. split; [exact (aget_of_in _ _ _ ND I)|]. destruct (fsm_due C now p); congruence. }
  assert (forall s, In s fl -> exists p, aget s (e_probes e) = Some p /\ fsm_due C now p = FsmFail) as F2.
  { intros s I. unfold fl in I. apply in_map_iff in I as ([s' p] & <- & I). apply filter_In in I as [I D]. cbn [fst snd] in *.
    exists p. split; [exact (aget_of_in _ _ _ ND I)|]. destruct (fsm_due C now p); congruence. }
  assert (NoDup fl) as NF by exact (nodup_filter _ _ ND).
  destruct (fan_outs_to now fan e) as [T E]; [exact (nodup_filter _ _ ND)|exact R| |].
  { intros s I. destruct (F1 s I) as (p & G & D). exists p. unfold fsm_due in D.
    destruct (p_fail p <=? now); [discriminate|]. destruct (p_phase p) as [d|] eqn:P; [|discriminate].
    unfold p_direct_deadline in D. destruct (N.leb_spec (tadd (p_sent p) (c_probe_timeout C)) now) as [L|]; [|discriminate].
    destruct (p_kind p); [|discriminate]. exists d. split; [exact G|]. split; [reflexivity|]. split; [|reflexivity].
    rewrite (SH _ _ _ G P). exact L. }
  eapply eto_trans; [exact T|]. clearbody fl fan.
  assert (forall s, In s fl -> exists p, aget s (e_probes (fold_left (fan_out C now) fan e)) = Some p /\ overdue now p) as F3.
  { intros s I. destruct (F2 s I) as (p & G & D). exists p. rewrite E.
    - split; [exact G|]. unfold fsm_due in D. destruct (N.leb_spec (p_fail p) now) as [L|L]; [left; exact L|right].
      destruct (p_phase p) as [d|] eqn:P; [|discriminate]. exists d. split; [reflexivity|]. rewrite (SH _ _ _ G P).
      unfold p_direct_deadline in D. destruct (N.leb_spec (tadd (p_sent p) (c_probe_timeout C)) now) as [L'|]; [exact L'|discriminate].
    - intros X. destruct (F1 s X) as (p' & G' & D'). congruence. }
  revert NF F3. generalize (fold_left (fan_out C now) fan e). clear. induction fl as [|s fl IH]; intros e ND F; [apply eto_refl|].
  cbn [fold_left]. inversion ND as [|? ? NI ND']; subst. eapply eto_trans.
  - apply (probe_fail_to s now e). intros p G. destruct (F s (or_introl eq_refl)) as (p' & G' & O). congruence.
  - apply IH; [exact ND'|]. intros j I. rewrite probe_fail_probes. destruct (N.eqb_spec j s) as [->|]; [contradiction|]. apply F. right. exact I.
Qed.

(** *** the core along a chain *)
Lemma core_run_app k os1 os2 : core_run C k (os1 ++ os2) =
  let '(k1, x) := core_run C k os1 in let '(k2, y) := core_run C k1 os2 in (k2, x ++ y).
Proof.
  revert k. induction os1 as [|o os1 IH]; intros k; cbn [core_run app].
  - destruct (core_run C k os2); reflexivity.
  - destruct (core_step C k o) as [k1 x]. rewrite IH. destruct (core_run C k1 os1) as [k2 y].
    destruct (core_run C k2 os2) as [k3 z]. rewrite app_assoc. reflexivity.
Qed.
Lemma leave_with_core now fw e : runs e = true -> e_core (leave_with C now fw e) = fst (core_run C (e_core e) (leave_ops now e)).
Proof.
  intros R. unfold leave_with, leave_ops. rewrite R. cbn [negb]. cbv zeta.
  set (e1 := act C (KLeave now) _). assert (e_core e1 = fst (core_step C (e_core e) (KLeave now))) as E by reflexivity.
  assert (live_addrs C e1 = live_addrs C (act C (KLeave now) e)) as <- by reflexivity.
  cbn [core_run]. destruct (core_step C (e_core e) (KLeave now)) as [k1 x]. cbn [fst] in E.
  change (live_addrs C (e_set_tx [] e1)) with (live_addrs C e1).
  destruct (live_addrs C e1) as [|a l].
  - change (fst (core_step C (e_core e1) (KEmit EvLeftCluster)) = fst (let '(k2, e2) := core_run C k1 [KEmit EvLeftCluster] in (k2, x ++ e2))).
    rewrite E. cbn [core_run]. destruct (core_step C k1 (KEmit EvLeftCluster)); reflexivity.
  - set (D := farewell_payloads _ _ _ _). assert (e_core (fst D) = k1) as ED.
    { unfold D, farewell_payloads. destruct (match fw with Some _ => _ | None => _ end) as [b r]. destruct r.
      - destruct (b =? 0); [exact E|]. unfold drain_user. destruct (ub_take _ _ _ _ _) as [[? ?] ?]. exact E.
      - unfold drain_user. destruct (ub_take _ _ _ _ _) as [[? ?] ?]. exact E. }
    destruct D as [e2 pl]. exact ED.
Qed.
Lemma poll_transmit_core e : e_core (fst (poll_transmit C e)) = fst (core_run C (e_core e) (poll_ops e)).
Proof.
  unfold poll_transmit, poll_ops. destruct (e_tx e) as [|t l]; [reflexivity|]. cbv zeta.
  change (e_flush (e_set_tx l e)) with (e_flush e). destruct (e_flush e) as [r|]; [|reflexivity].
  destruct (r <=? 1); [|reflexivity]. cbn. destruct (core_step C (e_core e) (KEmit EvLeftCluster)); reflexivity.
Qed.
Lemma map_unlab l : map unlab (map LOp l) = l.
Proof. rewrite map_map. apply map_id. Qed.
Lemma probe_fail_core s now e p : aget s (e_probes e) = Some p -> e_core (probe_fail C s now e) = fst (core_run C (e_core e)
  (map unlab (map (LFail s p now) (fail_ops now p e) ++ match p_kind p with PKPing => [LOp (KEmit (EvPingFailed s (p_target p)))] | PKDetection => [] end))).
Proof.
  intros G. unfold probe_fail. rewrite G. set (e1 := e_set_acks _ _).
  set (e2 := match p_phase p with PhIndirect _ _ _ (Some rid) _ => remove_intent rid e1 | _ => e1 end).
  assert (e_core e2 = e_core e) as E by (unfold e2; destruct (p_phase p) as [|? ? ? [?|] ?]; reflexivity).
  unfold fail_ops. destruct (p_kind p); cbn [map app].
  - rewrite app_nil_r. destruct (p_disp p); cbn [negb map]; [|exact E].
    assert (same_instance p (act C (KHealthFail (severity p)) e2) = same_instance p e) as -> by (unfold same_instance, act; rewrite E; reflexivity).
    destruct (same_instance p e); cbn [map unlab core_run]; unfold act; cbn [e_core e_set_core]; rewrite E;
      destruct (core_step C (e_core e) (KHealthFail (severity p))) as [k1 x]; cbn [fst]; [|reflexivity].
    destruct (core_step C k1 _); reflexivity.
  - cbn [unlab core_run]. unfold act; cbn [e_core e_set_core]; rewrite E. destruct (core_step C (e_core e) _); reflexivity.
Qed.
Lemma estep_core e ks cr e' : estep e ks cr e' -> e_core e' = fst (core_run C (e_core e) (map unlab ks)).
Proof.
  intros S. destruct S; try reflexivity.
  - cbn. destruct (core_step C (e_core e) o); reflexivity.
  - apply probe_fail_core. assumption.
  - apply H.
  - pose proof (gossip_batch_core e) as E. destruct (gossip_batch C e). cbn in *. rewrite E.
    destruct (core_step C (e_core e) (gossip_op e)); reflexivity.
  - rewrite map_unlab. apply leave_with_core, H.
  - rewrite map_unlab. apply poll_transmit_core.
Qed.
Lemma esteps_core e ks cr e' : esteps e ks cr e' -> e_core e' = fst (core_run C (e_core e) (map unlab ks)).
Proof.
  induction 1 as [|? ? ? ? ? ? ? S _ IH]; [reflexivity|]. rewrite IH, (estep_core _ _ _ _ S), map_app, core_run_app.
  destruct (core_run C (e_core e1) (map unlab k1)) as [k x]. cbn [fst]. destruct (core_run C k (map unlab k2)); reflexivity.
Qed.
Lemma eto_kinv e e' : eto e e' -> kinv C (e_core e) -> kinv C (e_core e').
Proof. intros (ks & S & _) K. rewrite (esteps_core _ _ _ _ S). apply kinv_run, K. Qed.

(** *** the schedulers *)
Lemma sched_to e np ng npp : runs e = true -> e_np e = np \/ e_ng e = ng \/ e_npp e = npp -> eto e (e_set_np np (e_set_ng ng (e_set_npp npp e))).
Proof. intros R _. apply eto_one, es_sched, R. Qed.
Lemma np_to e np : runs e = true -> eto e (e_set_np np e).
Proof. intros R. destruct e. exact (eto_one _ _ (es_sched _ np _ _ R)). Qed.
Lemma ng_to e ng : runs e = true -> eto e (e_set_ng ng e).
Proof. intros R. destruct e. exact (eto_one _ _ (es_sched _ _ ng _ R)). Qed.
Lemma npp_to e npp : runs e = true -> eto e (e_set_npp npp e).
Proof. intros R. destruct e. exact (eto_one _ _ (es_sched _ _ _ npp R)). Qed.
Lemma reset_to now e : eto e (reset_nodes C now e).
Proof.
  unfold reset_nodes. eapply eto_trans; [apply (eto_core e (KReset now)); exact Logic.I|]. apply eto_misc; repeat split.
Qed.
Lemma runs_eto e e' : eto e e' -> runs e = true -> runs e' = true.
Proof. intros T R. rewrite (eto_runs _ _ T). exact R. Qed.
Lemma fire_probe_to now e : runs e = true -> kinv C (e_core e) -> eto e (fire_probe C now e).
Proof.
  intros R K. unfold fire_probe. destruct (e_np e) as [d|]; [|apply eto_refl]. destruct (now <? d); [apply eto_refl|]. cbv zeta.
  assert (eto e (e_set_psr (e_psr e + 1) e)) as T0 by (apply eto_misc; repeat split).
  set (e1 := e_set_psr (e_psr e + 1) e) in *. clearbody e1.
  set (e2 := if _ && _ then _ else _).
  assert (eto e1 e2) as T1.
  { unfold e2. destruct (_ && _); [|apply eto_refl]. eapply eto_trans; [apply (reset_to now)|apply eto_misc; repeat split]. }
  clearbody e2. pose proof (eto_trans _ _ _ T0 T1) as T. eapply eto_trans; [exact T|].
  pose proof (start_probe_to now e2 (eto_kinv _ _ T K)) as T2. eapply eto_trans; [exact T2|]. apply np_to.
  eapply runs_eto; [|exact R]. eapply eto_trans; eauto.
Qed.
Lemma fire_gossip_to now e : runs e = true -> eto e (fire_gossip C now e).
Proof.
  intros R. unfold fire_gossip. destruct (e_ng e) as [d|]; [|apply eto_refl]. destruct (now <? d); [apply eto_refl|].
  set (pool := map _ _). pose proof (pick_to (c_gossip_nodes C) pool e) as T. destruct (pick C _ _ e) as [targets e1]. cbn [snd] in T.
  pose proof (runs_eto _ _ T R) as R1. eapply eto_trans; [exact T|]. destruct targets as [|a l]; [apply ng_to, R1|].
  pose proof (es_gossip e1 (a :: l) R1) as S. destruct (gossip_batch C e1) as [e2 ms].
  assert (eto e1 (e_set_tx (e_tx e2 ++ flat_map (gossip_tx ms) (a :: l)) e2)) as T1.
  { eexists. split; [apply esteps_one, S|]. repeat constructor. apply gossip_op_ordinary. }
  eapply eto_trans; [exact T1|]. apply ng_to. exact (runs_eto _ _ T1 R1).
Qed.
Lemma announced_to peer k d m e : told e m -> eto e (snd (announce C (open_intent peer k d m e))).
Proof. intros TD. eapply eto_trans; [apply open_intent_to, TD|apply announce_to, open_sid]. Qed.
Lemma fire_pushpull_to now e : runs e = true -> eto e (fire_pushpull C now e).
Proof.
  intros R. unfold fire_pushpull. destruct (e_npp e) as [d|]; [|apply eto_refl]. destruct (now <? d); [apply eto_refl|]. cbv zeta.
  assert (eto e (match live_addrs C e with
     | [] => e
     | _ => let '(chosen, e) := pick C 1 (live_addrs C e) e in
            match chosen with peer :: _ => snd (announce C (push_pull_direct C peer false now e)) | [] => e end end)) as T.
  { destruct (live_addrs C e) as [|a l]; [apply eto_refl|]. pose proof (pick_to 1 (a :: l) e) as T. destruct (pick C _ _ e) as [ch e1].
    eapply eto_trans; [exact T|]. destruct ch as [|peer ch]; [apply eto_refl|]. apply announced_to. reflexivity. }
  eapply eto_trans; [exact T|]. apply npp_to. exact (runs_eto _ _ T R).
Qed.
Lemma refresh_to e : eto e (refresh_cache e).
Proof.
  unfold refresh_cache. destruct (_ && _); [apply eto_refl|]. apply eto_one, es_misc; try (repeat split; fail). right. reflexivity.
Qed.
Lemma timeout_to now e : kinv C (e_core e) -> NoDup (akeys (e_probes e)) -> direct_shape e -> eto e (handle_timeout C now e).
Proof.
  intros K ND SH. unfold handle_timeout. destruct (runs e) eqn:R; cbn [negb]; [|apply eto_refl].
  set (e1 := act C (KExpire now) e). assert (eto e e1) as T by (apply eto_core; exact Logic.I).
  set (e2 := advance_fsm C now e1).
  assert (eto e e2) as T2. { eapply eto_trans; [exact T|]. apply advance_fsm_to; [exact (runs_eto _ _ T R)|exact ND|exact SH]. }
  clearbody e2. clear T. set (e3 := fire_expired_forwards now e2).
  assert (eto e e3) as T. { eapply eto_trans; [exact T2|]. apply expire_forwards_to. exact (runs_eto _ _ T2 R). }
  clearbody e3. clear T2. set (e4 := fire_expired_intents now e3).
  assert (eto e e4) as T2. { eapply eto_trans; [exact T|]. apply expire_intents_to. }
  clearbody e4. clear T. set (e5 := fire_probe C now e4).
  assert (eto e e5) as T. { eapply eto_trans; [exact T2|]. apply fire_probe_to; [exact (runs_eto _ _ T2 R)|exact (eto_kinv _ _ T2 K)]. }
  clearbody e5. clear T2. set (e6 := fire_gossip C now e5).
  assert (eto e e6) as T2. { eapply eto_trans; [exact T|]. apply fire_gossip_to; exact (runs_eto _ _ T R). }
  clearbody e6. clear T. set (e7 := fire_pushpull C now e6).
  assert (eto e e7) as T. { eapply eto_trans; [exact T2|]. apply fire_pushpull_to; exact (runs_eto _ _ T2 R). }
  clearbody e7. eapply eto_trans; [exact T|apply refresh_to].
Qed.
(** *** what a call hands to the core as it is *)
Definition direct (o : eop) : list cop :=
  match o with
  | EPacket _ (MSuspect i id f) now => [KSuspect i id f now]
  | EPacket _ (MAlive al) now => [KAlive al now]
  | EPacket _ (MDead i id f) now => [KDead i id f now]
  | EStreamEv (SEReply _ st _ _ _) now | EStreamEv (SERequest _ st _ _ _) now => [KMerge st now]
  | EMerge l now => [KMerge l now]
  | EPollEvent => [KPoll]
  | ERequeue ev => [KRequeue ev]
  | EMeta m => [KMeta m]
  | EAge id d => [KAge id d]
  | EHealthFail s => [KHealthFail s]
  | EAliveDelegate f => [KAdmit f]
  | ELeave now _ => [KLeave now; KEmit EvLeftCluster]
  | EPollTx => [KEmit EvLeftCluster]
  | _ => []
  end.
Definition lab_of (o : eop) (l : lab) : Prop := lab_ok l \/ exists k, l = LOp k /\ In k (direct o).
Definition dto (o : eop) (e e' : ep) : Prop := exists ls, esteps e ls [] e' /\ Forall (lab_of o) ls.
Lemma dto_eto o e e' : eto e e' -> dto o e e'.
Proof. intros (ls & S & F). exists ls. split; [exact S|]. eapply Forall_impl; [|exact F]. intros l H. left. exact H. Qed.
Lemma dto_refl o e : dto o e e.
Proof. apply dto_eto, eto_refl. Qed.
Lemma dto_trans o e1 e2 e3 : dto o e1 e2 -> dto o e2 e3 -> dto o e1 e3.
Proof.
  intros (k1 & S1 & O1) (k2 & S2 & O2). exists (k1 ++ k2). split; [|apply Forall_app; auto].
  change (@nil (N * N)) with (@nil (N * N) ++ []). eapply esteps_trans; eauto.
Qed.
Lemma direct_known o k e : In k (direct o) -> dial_known e k.
Proof. destruct o; cbn [direct]; try (intros []; fail); repeat (match goal with |- context [match ?x with _ => _ end] => destruct x end); cbn; intros J; repeat (destruct J as [<-|J]; [exact Logic.I|]); try (destruct J as [<-|[]]; exact Logic.I); destruct J. Qed.
Lemma dto_core o k e : not_leaving k -> In k (direct o) -> dto o e (act C k e).
Proof. intros NL I. exists [LOp k]. split; [apply esteps_one, es_core; [exact NL|eapply direct_known, I]|]. constructor; [|constructor]. right. eauto. Qed.
Lemma merge_in_to o peer st u j sid now e : In (KMerge st now) (direct o) -> dto o e (merge_in C peer st u j sid now e).
Proof.
  intros I. unfold merge_in. cbv zeta. assert (dto o e (act C (KMerge st now) e)) as T by (apply dto_core; [exact Logic.I|exact I]).
  destruct u; [exact T|]. eapply dto_trans; [exact T|apply dto_eto, eto_core; exact Logic.I].
Qed.
Lemma stream_event_to ev now e : dto (EStreamEv ev now) e (fst (handle_stream_event C ev now e)).
Proof.
  unfold handle_stream_event. destruct ev; try apply dto_refl; destruct (runs e) eqn:R; cbn [negb fst]; try apply dto_refl.
  - destruct (e_merge e _); [apply merge_in_to; left; reflexivity|apply dto_refl].
  - destruct (e_merge e _); [apply merge_in_to; left; reflexivity|apply dto_refl].
  - apply dto_eto, probe_ok_to.
  - apply dto_eto, retire_to.
  - apply dto_eto, eto_core. exact Logic.I.
Qed.
Lemma stagger_to i e : eto e (snd (stagger C i e)).
Proof. unfold stagger. cbv zeta. destruct (_ =? 0); [apply eto_refl|]. apply eto_core. exact Logic.I. Qed.
Lemma schedule_to now e : eto e (start_scheduling C now e).
Proof.
  unfold start_scheduling. destruct (runs e) eqn:R; cbn [negb]; [|apply eto_refl]. cbv zeta.
  set (e1 := if 0 <? c_probe_interval C then _ else e).
  assert (eto e e1) as T1.
  { unfold e1. destruct (_ <? _); [|apply eto_refl]. pose proof (stagger_to (c_probe_interval C) e) as T. destruct (stagger C _ e) as [x e'].
    eapply eto_trans; [exact T|apply np_to, (runs_eto _ _ T R)]. }
  clearbody e1. pose proof (runs_eto _ _ T1 R) as R1. eapply eto_trans; [exact T1|]. clear T1 R e.
  set (e2 := if _ && _ then _ else e1).
  assert (eto e1 e2) as T1.
  { unfold e2. destruct (_ && _); [|apply eto_refl]. pose proof (stagger_to (c_gossip_interval C) e1) as T. destruct (stagger C _ e1) as [x e'].
    eapply eto_trans; [exact T|apply ng_to, (runs_eto _ _ T R1)]. }
  clearbody e2. pose proof (runs_eto _ _ T1 R1) as R. eapply eto_trans; [exact T1|]. clear T1 R1 e1.
  destruct (_ <? _); [|apply eto_refl]. pose proof (stagger_to (c_pp_interval C) e2) as T. destruct (stagger C _ e2) as [x e'].
  eapply eto_trans; [exact T|apply npp_to, (runs_eto _ _ T R)].
Qed.

(** *** the whole interface *)
Definition credit (o : eop) : list (N * N) :=
  match o with
  | EPacket from (MPing q _ _) _ => [(from, q)]
  | EPacket from (MIndirectPing q _ _) _ => [(from, q)]
  | _ => []
  end.
Lemma leave_step_to now fw e : dto (ELeave now fw) e (leave_with C now fw e).
Proof.
  destruct (runs e) eqn:R; [|unfold leave_with; rewrite R; apply dto_refl].
  eexists. split; [apply esteps_one, (es_leave e now fw R)|]. apply Forall_map, Forall_forall. intros k I. right. exists k. split; [reflexivity|].
  unfold leave_ops in I. destruct I as [<-|I]; [left; reflexivity|]. destruct (live_addrs C _); [|destruct I]. right. exact I.
Qed.
Lemma poll_step_to e : dto EPollTx e (fst (poll_transmit C e)).
Proof.
  eexists. split; [apply esteps_one, (es_poll e)|]. apply Forall_map, Forall_forall. intros k I. right. exists k. split; [reflexivity|].
  unfold poll_ops in I. destruct (e_tx e); [destruct I|]. destruct (e_flush e); [|destruct I]. destruct (_ <=? _); [exact I|destruct I].
Qed.
Lemma op_to e o : kinv C (e_core e) -> NoDup (akeys (e_probes e)) -> fwd_acks e -> direct_shape e ->
  match credit o with
  | [c] => gives e c (fst (ep_step C e o))
  | _ => dto o e (fst (ep_step C e o))
  end.
Proof.
  intros K ND FA SH. destruct o; cbn [credit ep_step fst]; try (apply dto_core; [exact Logic.I|left; reflexivity]).
  - destruct m; cbn [handle_packet]; unfold handle_packet; destruct (runs e) eqn:R; cbn [negb]; try apply dto_refl;
      try (left; apply eto_refl); try (apply dto_core; [exact Logic.I|left; reflexivity]).
    + apply ping_gives, R.
    + apply indirect_gives, R.
    + apply dto_eto, handle_ack_to; assumption.
    + apply dto_eto, handle_nack_to.
    + apply dto_eto, eto_core. exact Logic.I.
  - apply dto_eto. apply timeout_to; assumption.
  - apply stream_event_to.
  - apply dto_eto. pose proof (ping_to nd now e) as T. destruct (ping C nd now e). exact T.
  - apply dto_eto. apply start_probe_to, K.
  - apply dto_eto. apply reset_to.
  - apply dto_eto. pose proof (announced_to peer (OKPushPull join) (tadd now (c_stream_timeout C)) (MPushPull join (local_states e) (e_snap e)) e eq_refl) as T.
    fold (push_pull_direct C peer join now e) in T. destruct (announce C _). exact T.
  - apply dto_eto. rewrite dialled_to. apply open_intent_to. reflexivity.
  - apply dto_eto. unfold reliable_ping_direct. set (X := open_intent _ _ _ _ _). pose proof (announce_to X (open_sid _ _ _ _ _)) as T. 
    assert (eto e (snd (fst X))) as T0 by (apply open_intent_to; exact Logic.I). destruct (announce C X). exact (eto_trans _ _ _ T0 T).
  - apply dto_eto. rewrite dialled_to. apply open_intent_to. exact Logic.I.
  - apply dto_eto. destruct (runs e) eqn:R; [|apply eto_refl]. unfold user_message_direct. rewrite R. cbn [negb]. set (X := open_intent _ _ _ _ _).
    pose proof (announce_to X (open_sid _ _ _ _ _)) as T.
    assert (eto e (snd (fst X))) as T0 by (apply open_intent_to; exact Logic.I). destruct (announce C X). exact (eto_trans _ _ _ T0 T).
  - apply dto_eto. destruct (runs e) eqn:R; [|apply eto_refl]. rewrite dialled_to. unfold user_message_direct. rewrite R. apply open_intent_to. exact Logic.I.
  - apply dto_eto. unfold dial_succeeded. destruct (aget id (e_int e)); [|apply remove_intent_to]. destruct (_ || _); [apply resolve_to|apply remove_intent_to].
  - apply dto_eto. apply resolve_to.
  - apply dto_eto. unfold accept_stream, alloc_sid. destruct (runs e); cbn [negb fst]; [apply eto_one, es_sid|apply eto_refl].
  - apply leave_step_to.
  - pose proof (poll_step_to e) as T. destruct (poll_transmit C e). exact T.
  - apply dto_eto, eto_core. exact Logic.I.
  - apply dto_eto. unfold set_ack_payload. destruct (runs e) eqn:R; cbn [negb res fst]; [|apply eto_refl].
    destruct (N.ltb_spec (c_mtu C) (elen C (MAck u32_max payload))); [apply eto_refl|]. apply eto_one, es_payload; assumption.
  - apply dto_eto. unfold set_snapshot. destruct (negb (runs e)); [apply eto_refl|]. destruct (snapshot_fits C s); [|apply eto_refl]. apply eto_misc; repeat split.
  - apply dto_eto. unfold queue_user. destruct (runs e) eqn:R; cbn [negb]; [|apply eto_refl].
    destruct (N.ltb_spec (user_limit C) (blen data)); [apply eto_refl|]. apply eto_one, es_user; assumption.
  - apply dto_eto. unfold send_user. destruct (runs e) eqn:R; cbn [negb]; [|apply eto_refl].
    destruct (N.ltb_spec (c_mtu C) (elen C (MUserData data))); [apply eto_refl|]. apply eto_one, es_push; [exact R| |repeat constructor]. constructor; [exact Logic.I|assumption].
  - apply dto_eto. unfold send_users. destruct (runs e) eqn:R; cbn [negb]; [|apply eto_refl]. destruct l as [|d [|d2 l]]; [apply eto_refl| |].
    + unfold send_user. rewrite R. cbn [negb].
      destruct (N.ltb_spec (c_mtu C) (elen C (MUserData d))); [apply eto_refl|]. apply eto_one, es_push; [exact R| |repeat constructor]. constructor; [exact Logic.I|assumption].
    + cbv zeta. destruct (N.ltb_spec (c_mtu C) (assembled C (map MUserData (d :: d2 :: l)))); [apply eto_refl|].
      apply eto_one, es_push; [exact R| |apply Forall_map, Forall_forall; intros; exact Logic.I].
      apply j_asm; [cbn; lia| |assumption]. apply Forall_map, Forall_forall. intros; exact Logic.I.
  - apply dto_eto, eto_core. exact Logic.I.
  - apply dto_eto. apply eto_misc; repeat split.
  - apply dto_eto. apply eto_misc; repeat split.
  - apply dto_eto. apply eto_misc; repeat split.
  - apply dto_eto. apply schedule_to.
  - apply dto_eto. apply eto_one, es_reorder.
Qed.
End Steps.
