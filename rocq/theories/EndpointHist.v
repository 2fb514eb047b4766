(** Histories of the endpoint: leaving, dials, probes, answers. *)
From Coq Require Import Permutation.
From Verif Require Import CodecModel EndpointModel MapFacts BaseFacts DeadlineFacts CoreFacts CoreInv CoreSteps CoreTrans CoreHist EndpointSteps EndpointInv EndpointFacts.
Local Open Scope N_scope.

Section Hist.
Variable C : cfg.
Notation LID := (c_id C).

(** induction over a history, with what was called and handed back so far *)
Lemma ep_run_snoc e os o : ep_run C e (os ++ [o]) =
  (fst (ep_step C (fst (ep_run C e os)) o), snd (ep_run C e os) ++ snd (ep_step C (fst (ep_run C e os)) o)).
Proof.
  revert e. induction os as [|a os IH]; intros e; cbn [ep_run app fst snd].
  - destruct (ep_step C e o) as [e1 x]. cbn [fst snd]. rewrite app_nil_r. reflexivity.
  - destruct (ep_step C e a) as [e1 x]. rewrite IH. destruct (ep_run C e1 os) as [e2 y]. cbn [fst snd]. rewrite app_assoc. reflexivity.
Qed.
Lemma run_acc (P : list eop -> list out -> ep -> Prop) e0 : einv C e0 -> P [] [] e0 ->
  (forall h x e o, einv C e -> P h x e -> P (h ++ [o]) (x ++ snd (ep_step C e o)) (fst (ep_step C e o))) ->
  forall os, P os (snd (ep_run C e0 os)) (fst (ep_run C e0 os)).
Proof.
  intros I0 P0 S os. induction os as [|o os IH] using rev_ind; [exact P0|].
  rewrite ep_run_snoc. cbn [fst snd]. apply S; [apply einv_run, I0|exact IH].
Qed.

(** ** After leaving *)
Definition upkeep (o : eop) : Prop := match o with EReset _ | EAge _ _ => True | _ => False end.
Definition starts (x : out) : Prop := match x with OStream _ _ _ _ | ODial _ _ _ _ => True | _ => False end.
Lemma dead_frozen inc id from now k : kinv C k -> is_running (k_life k) = false -> process_dead C inc id from now k = k.
Proof.
  intros K R. unfold process_dead. destruct (aget id (k_mem k)) as [m|] eqn:G; [|reflexivity]. destruct (inc <? m_inc m); [reflexivity|].
  destruct (dead_or_left (m_state m)) eqn:D; [reflexivity|]. destruct (N.eqb_spec id LID) as [->|].
  - destruct (ki_local _ _ K) as (m' & G' & _ & _ & _ & _ & [[L _]|[L S]]); [rewrite L in R; discriminate|].
    unfold rec_at in G'. rewrite G in G'. injection G' as <-. rewrite S in D. discriminate.
  - rewrite R. reflexivity.
Qed.
Lemma merge_frozen l now : forall k, kinv C k -> is_running (k_life k) = false -> merge_state C l now k = k.
Proof.
  unfold merge_state. induction l as [|p l IH]; intros k K R; [reflexivity|]. cbn [fold_left].
  assert (merge_one C now k p = k) as ->; [|apply IH; assumption].
  unfold merge_one. destruct (pn_state p); try reflexivity; try (apply dead_frozen; assumption);
    unfold process_alive, process_suspect; rewrite R; reflexivity.
Qed.
Lemma act_mem_same o e : kinv C (e_core e) -> runs e = false ->
  match o with KReset _ | KAge _ _ => False | _ => True end -> k_mem (e_core (act C o e)) = k_mem (e_core e).
Proof.
  intros K R NO. unfold runs in R. unfold act. cbn [e_core e_set_core]. unfold core_step. destruct o; try contradiction; cbn [fst]; try reflexivity.
  - unfold process_alive. rewrite R. reflexivity.
  - unfold process_suspect. rewrite R. reflexivity.
  - rewrite dead_frozen by assumption. reflexivity.
  - rewrite merge_frozen by assumption. reflexivity.
  - unfold fire_expired_suspicions. generalize (expired_ids now (k_mem (e_core e))). intros l. induction l as [|i l IH]; [reflexivity|].
    cbn [fold_left]. rewrite dead_frozen by assumption. exact IH.
  - unfold update_meta. rewrite R. reflexivity.
  - unfold core_leave. rewrite R. reflexivity.
  - destruct (quiet e0); reflexivity.
  - destruct (_ && _); reflexivity.
  - destruct (k_ev (e_core e)); reflexivity.
Qed.
Record inert (e e' : ep) (x : list out) : Prop := mkInert {
  in_runs : runs e' = false;
  in_mem : k_mem (e_core e') = k_mem (e_core e);
  in_probes : forall s p, aget s (e_probes e') = Some p -> exists p0, aget s (e_probes e) = Some p0;
  in_fwds : forall s f, aget s (e_fwds e') = Some f -> aget s (e_fwds e) = Some f;
  in_int : e_int e' = [];
  in_tx : e_tx e' = e_tx e \/ e_tx e' = tl (e_tx e);
  in_out : Forall (fun o => ~ starts o) x }.
Lemma inert_same e x : einv C e -> runs e = false -> Forall (fun o => ~ starts o) x -> inert e e x.
Proof. intros I R X. constructor; auto; [eauto|]. apply (ei_rest _ _ I R). Qed.
Lemma inert_act e o x : einv C e -> runs e = false -> not_leaving o -> match o with KReset _ | KAge _ _ => False | _ => True end ->
  Forall (fun o => ~ starts o) x -> inert e (act C o e) x.
Proof.
  intros I R NL NO X. constructor; auto; cbn [e_int e_probes act e_set_core e_tx]; eauto.
  - rewrite runs_nl by exact NL. exact R.
  - apply act_mem_same; auto. apply (ei_core _ _ I).
  - apply (ei_rest _ _ I R).
Qed.
Lemma resolve_none id e : aget id (e_int e) = None -> resolve_intent id e = remove_intent id e.
Proof. intros H. unfold resolve_intent. rewrite H. reflexivity. Qed.
Lemma stopped_step e o : einv C e -> runs e = false -> ~ upkeep o -> inert e (fst (ep_step C e o)) (snd (ep_step C e o)).
Proof.
  intros I R U. destruct (ei_rest _ _ I R) as (IN & _).
  assert (forall x, ~ starts x -> Forall (fun o => ~ starts o) [x]) as F1 by (intros x X; constructor; [exact X|constructor]).
  assert (forall id, inert e (remove_intent id e) []) as RI.
  { intros id. constructor; cbn; rewrite ?IN; eauto. }
  assert (forall id, inert e (resolve_intent id e) []) as RS.
  { intros id. rewrite resolve_none; [apply RI|]. rewrite IN. reflexivity. }
  assert (forall peer k d m, open_intent peer k d m e = (e_sid e, e_set_sid (e_sid e + 1) e, false)) as OI by (intros; rewrite open_intent_eq, R; reflexivity).
  assert (forall x, Forall (fun o => ~ starts o) x -> inert e (e_set_sid (e_sid e + 1) e) x) as SI by (intros x X; constructor; cbn; eauto).
  destruct o; cbn [ep_step fst snd]; try (exfalso; apply U; exact Logic.I).
  all: try (apply inert_act; try assumption; try exact Logic.I; constructor; fail).
  - unfold handle_packet. rewrite R. apply inert_same; auto.
  - unfold handle_timeout. rewrite R. apply inert_same; auto.
  - unfold handle_stream_event. rewrite R. destruct ev; cbn [negb fst snd]; apply inert_same; auto; apply F1; exact (fun h => h).
  - unfold ping. rewrite R. apply inert_same; auto. apply F1; exact (fun h => h).
  - unfold start_probe. rewrite R. apply inert_same; auto.
  - unfold push_pull_direct. rewrite OI. unfold announce. change (e_int (e_set_sid (e_sid e + 1) e)) with (e_int e). rewrite IN. cbn [aget fst snd].
    apply SI, F1; exact (fun h => h).
  - unfold push_pull_direct. rewrite OI. cbn [dialled fst snd]. apply SI. constructor.
  - unfold reliable_ping_direct. rewrite OI. unfold announce. change (e_int (e_set_sid (e_sid e + 1) e)) with (e_int e). rewrite IN. cbn [aget fst snd].
    apply SI, F1; exact (fun h => h).
  - unfold reliable_ping_direct. rewrite OI. cbn [dialled fst snd]. apply SI. constructor.
  - rewrite R. apply inert_same; auto. apply F1; exact (fun h => h).
  - rewrite R. apply inert_same; auto. apply F1; exact (fun h => h).
  - unfold dial_succeeded. rewrite IN. cbn [aget fst snd]. apply RI.
  - apply RS.
  - unfold accept_stream. rewrite R. cbn [negb fst snd]. apply inert_same; auto.
  - unfold leave_with. rewrite R. apply inert_same; auto.
  - apply inert_act; auto; try exact Logic.I. destruct (k_ev (e_core e)); [constructor|apply F1; exact (fun h => h)].
  - pose proof (poll_rest C e) as X. cbv zeta in X. destruct X as (E1 & _ & E3 & _ & E5 & _ & _ & _ & _ & _ & _ & E12 & _ & RR).
    pose proof (poll_transmit_core C e) as PC. assert (snd (poll_transmit C e) = hd_error (e_tx e)) as PS by (unfold poll_transmit; destruct (e_tx e); reflexivity).
    destruct (poll_transmit C e) as [e' t]. cbn [fst snd] in *. constructor; rewrite ?E1, ?E3, ?E5, ?RR; eauto.
    + rewrite PC. unfold poll_ops. destruct (e_tx e); [reflexivity|]. destruct (e_flush e) as [r|]; [|reflexivity]. destruct (r <=? 1); reflexivity.
    + destruct t; [apply F1; exact (fun h => h)|constructor].
  - apply inert_act; auto; try exact Logic.I. apply F1; exact (fun h => h).
  - unfold set_ack_payload. rewrite R. apply inert_same; auto. apply F1; exact (fun h => h).
  - unfold set_snapshot. rewrite R. apply inert_same; auto. apply F1; exact (fun h => h).
  - unfold queue_user. rewrite R. apply inert_same; auto. apply F1; exact (fun h => h).
  - unfold send_user. rewrite R. apply inert_same; auto. apply F1; exact (fun h => h).
  - unfold send_users. rewrite R. apply inert_same; auto. apply F1; exact (fun h => h).
  - apply inert_act; auto; try exact Logic.I. unfold update_meta. unfold runs in R. rewrite R. apply F1; exact (fun h => h).
  - constructor; cbn; eauto.
  - constructor; cbn; eauto.
  - constructor; cbn; eauto.
  - unfold start_scheduling. rewrite R. apply inert_same; auto.
  - pose proof (shuffle_perm f (e_probes e)) as P1. pose proof (shuffle_perm f (e_fwds e)) as P2. destruct I. rewrite IN.
    constructor; cbn; auto.
    + intros s p. rewrite (perm_aget _ _ s P1) by assumption. eauto.
    + intros s p. rewrite (perm_aget _ _ s P2) by assumption. eauto.
Qed.

(** ** The end of leaving *)
Definition is_lc (e : event) : bool := match e with EvLeftCluster => true | _ => false end.
Definition lc (l : list event) : N := blen (filter is_lc l).
Lemma lc_app a b : lc (a ++ b) = lc a + lc b.
Proof. unfold lc. rewrite filter_app, blen_app. reflexivity. Qed.
Lemma lc_dials l : lc (filter (fun e => negb (is_dial e)) l) = lc l.
Proof.
  induction l as [|e l IH]; [reflexivity|]. cbn [filter]. unfold lc in *. destruct e; cbn [is_dial negb filter is_lc]; try exact IH.
  unfold blen in *. cbn [length]. lia.
Qed.
Definition adds (o : cop) : N := match o with KEmit e | KRequeue e => if is_lc e then 1 else 0 | _ => 0 end.
Lemma reset_ev now k : k_ev (reset_members C now k) = k_ev k.
Proof.
  unfold reset_members. cbn.
  match goal with |- context [fold_left ?f _ _] => assert (forall l0 k0, k_ev (fold_left f l0 k0) = k_ev k0) as F end.
  { induction l0 as [|i l0 IH]; intros k1; [reflexivity|]. cbn [fold_left]. rewrite IH. reflexivity. }
  rewrite F. destruct (map fst _); reflexivity.
Qed.
Lemma kstep_lc o now k k' : kstep C o now k k' -> lc (k_ev k') <= lc (k_ev k) + adds o.
Proof.
  assert (forall l e, is_lc e = false -> lc (l ++ [e]) = lc l) as A by (intros l e E; rewrite lc_app; unfold lc; cbn [filter]; rewrite E; unfold blen; cbn; lia).
  assert (forall e k, k_ev (emit e k) = k_ev k ++ [e]) as EV by (intros e0 k0; unfold emit; destruct e0; reflexivity).
  destruct 1; cbv zeta; rewrite ?EV; cbn [k_ev bcast k_set_bc k_set_ev upd k_set_mem k_set_sidx k_set_draws next_gen k_set_gen bumpv k_set_ver k_set_inc k_set_life health_fail k_set_aw];
    rewrite ?A by reflexivity; try lia.
  - destruct (dead_or_left _); [|destruct (negb _)]; rewrite ?EV, ?A by reflexivity; destruct takeover; cbn; lia.
  - change (k_ev (age_member id delta k)) with (k_ev k). lia.
  - rewrite reset_ev. lia.
  - change (k_ev (k_set_life LeftLife ?x)) with (k_ev x). rewrite EV, A by reflexivity. cbn. rewrite lc_dials. lia.
  - subst o. rewrite lc_app. cbn [adds]. unfold lc at 2. cbn [filter]. destruct (is_lc e); unfold blen; cbn; lia.
  - subst o. rewrite lc_app. cbn [adds]. unfold lc at 2. cbn [filter]. destruct (is_lc e); unfold blen; cbn; lia.
  - rewrite H0. change (e :: r) with ([e] ++ r). rewrite lc_app. lia.
  - change (k_ev (k_set_adm f k)) with (k_ev k). lia.
Qed.
Lemma ksteps_lc o now k k' : ksteps C o now k k' -> adds o = 0 -> lc (k_ev k') <= lc (k_ev k).
Proof. intros S A. induction S as [|? ? ? S _ IH]; [lia|]. apply kstep_lc in S. lia. Qed.
Lemma op_lc o k : kinv C k -> lc (k_ev (fst (core_step C k o))) <= lc (k_ev k) + adds o.
Proof.
  intros K. pose proof (core_step_steps C k o K) as S.
  assert (match o with KMerge _ _ | KExpire _ => False | _ => True end -> lc (k_ev (fst (core_step C k o))) <= lc (k_ev k) + adds o) as X.
  { intros N. destruct (core_step_opt C k o K N) as [E|T]; [rewrite E; lia|exact (kstep_lc _ _ _ _ T)]. }
  destruct o; try (apply X; exact Logic.I); apply ksteps_lc in S; try reflexivity; lia.
Qed.

(** how often the notice can still be produced *)
Definition remaining (e : ep) : N := if runs e then 1 else match e_flush e with Some _ => 1 | None => 0 end.
Definition pot (e : ep) : N := lc (k_ev (e_core e)) + remaining e.
Definition all_adds (ls : list lab) : N := fold_right (fun l a => match l with LOp (KRequeue ev) => adds (KRequeue ev) + a | _ => a end) 0 ls.
Lemma all_adds_app a b : all_adds (a ++ b) = all_adds a + all_adds b.
Proof. induction a as [|l a IH]; [reflexivity|]. cbn [app all_adds fold_right] in *. fold (all_adds (a ++ b)). fold (all_adds a). rewrite IH. destruct l as [[]|]; lia. Qed.
Lemma all_adds_fail s p now l : all_adds (map (LFail s p now) l) = 0.
Proof. induction l as [|o l IH]; [reflexivity|]. exact IH. Qed.
Lemma run_lc os : forall k, kinv C k -> lc (k_ev (fst (core_run C k os))) <= lc (k_ev k) + fold_right (fun o a => adds o + a) 0 os.
Proof.
  intros k K. rewrite core_run_fst. revert k K. induction os as [|o os IH]; intros k K; cbn [fold_left fold_right]; [lia|].
  pose proof (IH _ (kinv_core_step C k o K)). pose proof (op_lc o k K). lia.
Qed.
Lemma estep_pot e ls cr e' : einv C e -> estep C e ls cr e' -> pot e' <= pot e + all_adds ls.
Proof.
  intros I S. pose proof (estep_core C _ _ _ _ S) as EC. pose proof (run_lc (map unlab ls) (e_core e) (ei_core _ _ I)) as L. rewrite <- EC in L.
  assert (forall e', runs e' = runs e -> e_flush e' = e_flush e -> remaining e' = remaining e) as RM by (intros e0 A B; unfold remaining; rewrite A, B; reflexivity).
  unfold pot. destruct S.
  - rewrite (RM (act C o e)); [|apply runs_nl; assumption|reflexivity]. cbn in L |- *. destruct o; cbn [adds not_leaving] in *; try lia.
    destruct e0; try contradiction; cbn [is_lc] in L; lia.
  - assert (e_flush (probe_fail C s now e) = e_flush e) as F.
    { unfold probe_fail. rewrite H. destruct (p_phase p) as [|? ? ? [?|] ?], (p_kind p); try reflexivity; destruct (negb _); try reflexivity; destruct (same_instance _ _); reflexivity. }
    rewrite (RM (probe_fail C s now e)) by (try exact F; apply probe_fail_runs). rewrite all_adds_app, all_adds_fail.
    assert (fold_right (fun o a => adds o + a) 0 (map unlab (map (LFail s p now) (fail_ops C now p e) ++
      match p_kind p with PKPing => [LOp (KEmit (EvPingFailed s (p_target p)))] | PKDetection => [] end)) = 0) as Z.
    { unfold fail_ops. destruct (p_kind p); [|reflexivity]. destruct (p_disp p); [destruct (same_instance p e)|]; reflexivity. }
    destruct (p_kind p); rewrite Z in L; lia.
  - destruct H as (E1 & _ & _ & _ & _ & _ & E2 & _). rewrite (RM e'); [|unfold runs; rewrite E1; reflexivity|exact E2]. cbn in L |- *. lia.
  - cbn in L. change (remaining (e_set_payload p e)) with (remaining e). cbn. lia.
  - cbn in L. rewrite RM by reflexivity. cbn. lia.
  - cbn in L. rewrite RM by reflexivity. cbn. lia.
  - cbn in L. rewrite RM by reflexivity. cbn. lia.
  - rewrite RM.
    + cbn in L. destruct (gossip_op C e) eqn:G; cbn in L |- *; try lia. all: pose proof (gossip_op_ordinary C e) as O; rewrite G in O; cbn in O; try contradiction; destruct e0; try contradiction; cbn in L; lia.
    + pose proof (gossip_batch_core C e) as E. destruct (gossip_batch C e) as [g ms]. unfold runs. cbn in *. rewrite E. apply (runs_act C _ e (gossip_op_ordinary C e)).
    + unfold gossip_batch. destruct (peek_first_sendable _ _); [destruct (_ <? _); [reflexivity|]|];
        destruct (take_broadcasts_measured _ _ _ _ _) as [[Q got] used]; unfold drain_user; destruct (ub_take _ _ _ _ _) as [[? ?] ?]; reflexivity.
  - cbn in L. rewrite RM by reflexivity. cbn. lia.
  - cbn in L. rewrite RM by reflexivity. cbn. lia.
  - cbn in L. rewrite RM by reflexivity. cbn. lia.
  - cbn in L. rewrite RM by reflexivity. cbn. lia.
  - cbn in L. rewrite RM by reflexivity. cbn. lia.
  - cbn in L. rewrite RM by reflexivity. cbn. lia.
  - cbn in L. rewrite RM by reflexivity. cbn. lia.
  - cbn in L. rewrite RM by reflexivity. cbn. lia.
  - cbn in L. rewrite RM by reflexivity. cbn. lia.
  - cbn in L. rewrite RM by reflexivity. cbn. lia.
  - cbn in L. rewrite RM by reflexivity. cbn. lia.
  - rewrite map_unlab in L. pose proof (leave_runs C now fw e I H) as R. pose proof (leave_rest C now fw e H) as X. cbv zeta in X.
    assert (remaining e = 1) as -> by (unfold remaining; rewrite H; reflexivity). unfold remaining. rewrite R.
    destruct X as (_ & _ & _ & _ & _ & _ & _ & _ & _ & _ & _ & _ & ->). unfold leave_ops in L.
    destruct (live_addrs C _); cbn in L; lia.
  - rewrite map_unlab in L. pose proof (poll_rest C e) as X. cbv zeta in X.
    destruct X as (_ & _ & _ & _ & _ & _ & _ & _ & _ & _ & _ & _ & F & R). unfold remaining. rewrite F, R.
    assert (all_adds (map LOp (poll_ops e)) = 0) as -> by (unfold poll_ops; destruct (e_tx e); [reflexivity|]; destruct (e_flush e); [|reflexivity]; destruct (_ <=? _); reflexivity).
    unfold poll_ops in L. pose proof (ei_flush _ _ I) as FI. destruct (e_tx e) as [|t l]; [cbn in L; lia|]. destruct (e_flush e) as [r|]; [|cbn in L; lia].
    destruct FI as (-> & _). destruct (r <=? 1); cbn in L; lia.
Qed.
Lemma esteps_pot e ls cr e' : esteps C e ls cr e' -> einv C e -> pot e' <= pot e + all_adds ls.
Proof.
  induction 1 as [|? ? ? ? ? ? ? S _ IH]; intros I; [cbn; lia|]. rewrite all_adds_app.
  pose proof (estep_pot _ _ _ _ I S). pose proof (IH (einv_step C _ _ _ _ I S)). lia.
Qed.
Definition left_out (x : list out) : N := lc (flat_map (fun o => match o with OEvent ev => [ev] | _ => [] end) x).
Lemma left_out_app a b : left_out (a ++ b) = left_out a + left_out b.
Proof. unfold left_out. rewrite flat_map_app, lc_app. reflexivity. Qed.
Definition left_back (os : list eop) : N := lc (flat_map (fun o => match o with ERequeue ev => [ev] | _ => [] end) os).
Lemma left_back_app a b : left_back (a ++ b) = left_back a + left_back b.
Proof. unfold left_back. rewrite flat_map_app, lc_app. reflexivity. Qed.
Definition no_event (x : out) : bool := match x with OEvent _ => false | _ => true end.
Lemma step_no_event e o : o <> EPollEvent -> forallb no_event (snd (ep_step C e o)) = true.
Proof.
  intros NE. destruct o; try congruence; cbn [ep_step snd]; try reflexivity.
  - unfold handle_stream_event. destruct ev; try reflexivity; destruct (runs e); cbn [negb]; try reflexivity; destruct (e_merge e _); reflexivity.
  - destruct (ping C nd now e) as [? [?|]]; reflexivity.
  - destruct (announce C _); reflexivity.
  - unfold dialled. destruct (push_pull_direct _ _ _ _ _) as [[i e1] [|]]; [|reflexivity]. destruct (aget i (e_int e1)); reflexivity.
  - destruct (announce C _); reflexivity.
  - unfold dialled. destruct (reliable_ping_direct _ _ _ _ _ _) as [[i e1] [|]]; [|reflexivity]. destruct (aget i (e_int e1)); reflexivity.
  - destruct (runs e); [|reflexivity]. destruct (announce C _); reflexivity.
  - destruct (runs e); [|reflexivity]. unfold dialled. destruct (user_message_direct _ _ _ _ _) as [[i e1] [|]]; [|reflexivity]. destruct (aget i (e_int e1)); reflexivity.
  - unfold dial_succeeded. destruct (aget id (e_int e)); [destruct (_ || _)|]; reflexivity.
  - unfold accept_stream. destruct (negb _); reflexivity.
  - destruct (poll_transmit C e) as [? [?|]]; reflexivity.
  - match goal with |- context [res ?r] => destruct r as [? []]; reflexivity end.
  - match goal with |- context [res ?r] => destruct r as [? []]; reflexivity end.
  - match goal with |- context [res ?r] => destruct r as [? []]; reflexivity end.
  - match goal with |- context [res ?r] => destruct r as [? []]; reflexivity end.
  - match goal with |- context [res ?r] => destruct r as [? []]; reflexivity end.
  - destruct (fst _); reflexivity.
Qed.
Lemma no_event_out x : forallb no_event x = true -> left_out x = 0.
Proof.
  unfold left_out. induction x as [|a x IH]; [reflexivity|]. cbn [forallb flat_map]. intros H. apply andb_prop in H as [A B].
  destruct a; try discriminate; exact (IH B).
Qed.
Lemma lab_adds o ls : Forall (lab_of o) ls -> direct o = [] \/ (exists k, direct o = [k] /\ adds k = 0 ) \/ (match o with ELeave _ _ => True | EPollTx => True | _ => False end) -> all_adds ls = 0.
Proof.
  intros F D. induction F as [|l ls L _ IH]; [reflexivity|]. cbn [all_adds fold_right]. fold (all_adds ls). rewrite IH.
  destruct l as [k|]; [|reflexivity]. destruct L as [L|(k' & [= <-] & I)]; [destruct k; cbn in L; try contradiction; reflexivity|].
  destruct D as [D|[(k' & D & A)|D]].
  - rewrite D in I. destruct I.
  - rewrite D in I. destruct I as [<-|[]]. destruct k'; try reflexivity. rewrite A. reflexivity.
  - destruct o; try contradiction; cbn in I; [destruct I as [<-|[<-|[]]]|destruct I as [<-|[]]]; reflexivity.
Qed.
Lemma step_pot e o : einv C e -> left_out (snd (ep_step C e o)) + pot (fst (ep_step C e o)) <= pot e + left_back [o].
Proof.
  intros I. destruct (match o with EPollEvent => true | ERequeue _ => false | _ => false end) eqn:K.
  - destruct o; try discriminate. cbn [ep_step fst snd]. unfold pot. change (remaining (act C KPoll e)) with (remaining (act C KPoll e)).
    assert (remaining (act C KPoll e) = remaining e) as ->.
    { unfold remaining. rewrite runs_nl by exact Logic.I. reflexivity. }
    unfold act. cbn [e_core e_set_core]. unfold core_step. destruct (k_ev (e_core e)) as [|ev r] eqn:E; cbn [fst].
    + rewrite E. cbn. lia.
    + cbn [k_ev k_set_ev]. unfold left_out. cbn [flat_map app]. change (ev :: r) with ([ev] ++ r). rewrite lc_app. lia.
  - assert (o <> EPollEvent) as NE by (intros ->; discriminate). rewrite (no_event_out _ (step_no_event e o NE)).
    destruct (step_chain C e o I) as (ls & cr & S & _ & F). pose proof (esteps_pot _ _ _ _ S I) as P.
    assert (all_adds ls = 0 -> 0 + pot (fst (ep_step C e o)) <= pot e + left_back [o]) as FIN by (intros Z; lia). clear P S K NE.
    destruct o; try (apply FIN, (lab_adds _ _ F); first [left; reflexivity | right; left; eexists; split; reflexivity | right; right; exact Logic.I]; fail).
    + apply FIN, (lab_adds _ _ F). destruct m; first [left; reflexivity | right; left; eexists; split; reflexivity].
    + apply FIN, (lab_adds _ _ F). destruct ev; first [left; reflexivity | right; left; eexists; split; reflexivity].
    + (* requeue: exactly one *)
      unfold pot. change (e_core (fst (ep_step C e (ERequeue ev)))) with (fst (core_step C (e_core e) (KRequeue ev))).
      assert (remaining (fst (ep_step C e (ERequeue ev))) = remaining e) as ->.
      { unfold remaining. cbn [ep_step fst]. rewrite runs_nl by exact Logic.I. reflexivity. }
      pose proof (op_lc (KRequeue ev) (e_core e) (ei_core _ _ I)) as L. cbn [adds] in L.
      assert (left_back [ERequeue ev] = if is_lc ev then 1 else 0) as -> by (unfold left_back, lc; cbn [flat_map app filter]; destruct (is_lc ev); reflexivity).
      lia.
Qed.
Lemma left_once e0 os : einv C e0 -> runs e0 = true -> lc (k_ev (e_core e0)) = 0 ->
  let e := fst (ep_run C e0 os) in
  left_out (snd (ep_run C e0 os)) + lc (k_ev (e_core e)) + remaining e <= 1 + left_back os.
Proof.
  intros I R Z. cbv zeta.
  apply (run_acc (fun os x e => left_out x + lc (k_ev (e_core e)) + remaining e <= 1 + left_back os) e0 I).
  - rewrite Z. unfold remaining. rewrite R. cbn. lia.
  - intros h x e o IE H. rewrite left_out_app, left_back_app. pose proof (step_pot e o IE) as P. unfold pot in P. lia.
Qed.
Lemma runs_step e o : einv C e -> runs e = true -> (forall now fw, o <> ELeave now fw) -> runs (fst (ep_step C e o)) = true.
Proof.
  intros I R NL. destruct (match o with EPollTx => true | _ => false end) eqn:K.
  - destruct o; try discriminate. cbn [ep_step]. pose proof (poll_rest C e) as X. cbv zeta in X. destruct (poll_transmit C e). cbn [fst] in *.
    destruct X as (_ & _ & _ & _ & _ & _ & _ & _ & _ & _ & _ & _ & _ & ->). exact R.
  - destruct (step_chain C e o I) as (ls & cr & S & _ & F).
    assert (Forall (fun l => match l with LOp k => not_leaving k | _ => True end) ls) as NLs.
    { eapply Forall_impl; [|exact F]. intros [k|]; [|auto]. intros [L|(k' & [= <-] & D)]; [apply ordinary_not_leaving, L|].
      destruct o; cbn in D; try contradiction; try (exfalso; eapply NL; reflexivity); try discriminate;
        try (destruct m; cbn in D; try contradiction); try (destruct ev; cbn in D; try contradiction); destruct D as [<-|[]]; exact Logic.I. }
    clear F NL K. revert R NLs. induction S as [|? ? ? ? ? ? ? S1 _ IH]; intros R NLs; [exact R|]. apply Forall_app in NLs as [N1 N2].
    apply IH; [eapply einv_step; eauto| |exact N2]. destruct S1; try exact R.
    + rewrite runs_nl by assumption. exact R.
    + rewrite probe_fail_runs. exact R.
    + unfold runs in *. destruct H as [-> _]. exact R.
    + pose proof (gossip_batch_core C e) as E. destruct (gossip_batch C e) as [g ms]. unfold runs. cbn in *. rewrite E.
      change (runs (act C (gossip_op C e) e) = true). rewrite (runs_act C _ e (gossip_op_ordinary C e)). exact R.
    + exfalso. inversion N1 as [|? ? N3 _]. exact N3.
    + pose proof (poll_rest C e) as X. cbv zeta in X. destruct X as (_ & _ & _ & _ & _ & _ & _ & _ & _ & _ & _ & _ & _ & ->). exact R.
Qed.
Lemma runs_until os : forall e, einv C e -> runs e = true -> (forall now fw, ~ In (ELeave now fw) os) -> runs (fst (ep_run C e os)) = true.
Proof.
  intros e I R NL. rewrite ep_run_fst. revert e I R NL. induction os as [|o os IH]; intros e I R NL; [exact R|]. cbn [fold_left].
  apply IH; [apply einv_op, I| |intros now fw H; apply (NL now fw); right; exact H].
  apply runs_step; auto. intros now fw ->. apply (NL now fw). left. reflexivity.
Qed.
End Hist.
