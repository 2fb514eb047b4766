(** The dials an endpoint asks for have ids it handed out before, and an intent
    stays until its own dial is answered. *)
From Coq Require Import Permutation.
From Verif Require Import CodecModel EndpointModel MapFacts BaseFacts DeadlineFacts CoreFacts CoreInv CoreSteps CoreTrans CoreHist
  EndpointSteps EndpointInv EndpointFacts EndpointHist.
Local Open Scope N_scope.

Section Dials.
Variable C : cfg.

(** ** Events under a predicate that says nothing but of dials *)
Section Pred.
Variable P : event -> Prop.
Hypothesis HP : forall ev, is_dial ev = false -> P ev.
Definition fine (o : cop) : Prop := match o with KEmit ev | KRequeue ev => P ev | _ => True end.
Lemma evs_step o now k k' : kstep C o now k k' -> fine o -> Forall P (k_ev k) -> Forall P (k_ev k').
Proof.
  assert (A : forall l e, is_dial e = false -> Forall P l -> Forall P (l ++ [e])) by (intros l e E F; apply Forall_app; split; [exact F|constructor; [apply HP, E|constructor]]).
  assert (EV : forall e k, k_ev (emit e k) = k_ev k ++ [e]) by (intros e0 k0; unfold emit; destruct e0; reflexivity).
  intros S FO F. destruct S; cbv zeta; rewrite ?EV; cbn [k_ev bcast k_set_bc k_set_ev upd k_set_mem k_set_sidx k_set_draws next_gen k_set_gen bumpv k_set_ver k_set_inc k_set_life health_fail k_set_aw];
    try exact F; try (apply A; [reflexivity|exact F]).
  - destruct (dead_or_left _); [|destruct (negb _)]; rewrite ?EV; try (apply A; [reflexivity|]); destruct takeover; cbn; exact F.
  - rewrite reset_ev. exact F.
  - change (k_ev (k_set_life LeftLife ?x)) with (k_ev x). rewrite EV. apply A; [reflexivity|]. cbn. apply Forall_forall. intros ev J. apply filter_In in J as (J & _). rewrite Forall_forall in F. now apply F.
  - subst o. cbn in FO. apply Forall_app; auto.
  - subst o. cbn in FO. apply Forall_app; auto.
  - rewrite H0 in F. now inversion F.
Qed.
Lemma evs_op o k : kinv C k -> fine o -> Forall P (k_ev k) -> Forall P (k_ev (fst (core_step C k o))).
Proof.
  intros K FO F. pose proof (core_step_steps C k o K) as S. clear K. induction S as [k|k1 k2 k3 S _ IH]; [exact F|]. apply IH. eapply evs_step; eauto.
Qed.
Lemma evs_run os : forall k, kinv C k -> Forall fine os -> Forall P (k_ev k) -> Forall P (k_ev (fst (core_run C k os))).
Proof.
  intros k K. rewrite core_run_fst. revert k K. induction os as [|o os IH]; intros k K FO F; cbn [fold_left]; [exact F|]. inversion FO; subst.
  apply IH; auto. - apply kinv_core_step, K. - apply evs_op; auto.
Qed.
End Pred.

Definition below (n : N) (ev : event) : Prop := match ev with EvDial a _ _ => a < n | _ => True end.
Definition known (e : ep) : Prop := Forall (below (e_sid e)) (k_ev (e_core e)).
Lemma below_nd n ev : is_dial ev = false -> below n ev.
Proof. destruct ev; cbn; auto. discriminate. Qed.
Lemma below_le n n' ev : n <= n' -> below n ev -> below n' ev.
Proof. destruct ev; cbn; auto. lia. Qed.
(** no dial is put back *)
Definition fresh_lab (l : lab) : Prop := match l with LOp (KRequeue ev) => is_dial ev = false | _ => True end.
Lemma estep_sid e ls cr e' : einv C e -> estep C e ls cr e' -> e_sid e <= e_sid e'.
Proof.
  intros I S. destruct S; try (cbn; lia).
  - assert (e_sid (probe_fail C s now e) = e_sid e) as ->; [|lia].
    unfold probe_fail. rewrite H. destruct (p_phase p) as [|? ? ? [?|] ?], (p_kind p); try reflexivity; destruct (negb _); try reflexivity; destruct (same_instance _ _); reflexivity.
  - destruct H as (_ & _ & _ & _ & _ & _ & _ & -> & _). lia.
  - assert (e_sid (fst (gossip_batch C e)) = e_sid e) as G; [|destruct (gossip_batch C e); cbn in *; lia].
    unfold gossip_batch. destruct (peek_first_sendable _ _); [destruct (_ <? _); [reflexivity|]|];
        destruct (take_broadcasts_measured _ _ _ _ _) as [[Q got] used]; unfold drain_user; destruct (ub_take _ _ _ _ _) as [[? ?] ?]; reflexivity.
  - destruct (leave_rest C now fw e H) as (_ & _ & _ & -> & _). lia.
  - destruct (poll_rest C e) as (_ & _ & _ & -> & _). lia.
Qed.
Lemma estep_known e ls cr e' : einv C e -> estep C e ls cr e' -> Forall fresh_lab ls -> known e -> known e'.
Proof.
  intros I S F K. pose proof (estep_core C _ _ _ _ S) as EC. pose proof (estep_sid _ _ _ _ I S) as LS. unfold known. rewrite EC.
  apply (Forall_impl _ (fun ev => below_le _ _ ev LS)) in K.
  apply (evs_run _ (below_nd _)); [apply (ei_core _ _ I)| |exact K]. clear EC K.
  assert (NI : forall o, not_leaving o -> dial_known e o -> match o with KRequeue _ => False | _ => True end -> fine (below (e_sid e')) o).
  { intros o _ D N. destruct o; try exact Logic.I; [|contradiction]. destruct e0; try exact Logic.I. cbn in *. lia. }
  destruct S; try (constructor; fail).
  - repeat constructor. inversion F as [|? ? F1 _]; subst. destruct o; cbn in *; try exact Logic.I; [|apply below_nd, F1]. destruct e0; try exact Logic.I. cbn. lia.
  - unfold fail_ops. destruct (p_kind p); [|repeat constructor]. destruct (p_disp p); [destruct (same_instance p e)|]; repeat constructor.
  - repeat constructor. pose proof (gossip_op_ordinary C e) as O. destruct (gossip_op C e) eqn:G; try exact Logic.I; [|destruct O]. revert G. unfold gossip_op. 
    repeat match goal with |- context [match ?x with _ => _ end] => destruct x end; discriminate.
  - rewrite map_unlab. unfold leave_ops. destruct (live_addrs C _); repeat constructor.
  - rewrite map_unlab. unfold poll_ops. destruct (e_tx e); [constructor|]. destruct (e_flush e); [|constructor]. destruct (_ <=? _); repeat constructor.
Qed.
Lemma esteps_known e ls cr e' : esteps C e ls cr e' -> einv C e -> Forall fresh_lab ls -> known e -> known e' /\ e_sid e <= e_sid e'.
Proof.
  induction 1 as [|? ? ? ? ? ? ? S _ IH]; intros I F K; [split; [exact K|lia]|]. apply Forall_app in F as (F1 & F2).
  pose proof (estep_sid _ _ _ _ I S). destruct (IH (einv_step C _ _ _ _ I S) F2 (estep_known _ _ _ _ I S F1 K)). split; [assumption|lia].
Qed.
Theorem known_step e o : einv C e -> match o with ERequeue ev => is_dial ev = false | _ => True end -> known e -> known (fst (ep_step C e o)) /\ e_sid e <= e_sid (fst (ep_step C e o)).
Proof.
  intros I N K. destruct (step_chain C e o I) as (ls & cr & S & _ & F). apply (esteps_known _ _ _ _ S I); [|exact K].
  eapply Forall_impl; [|exact F]. intros l [L|(k & -> & J)].
  - destruct l as [k|]; [|exact Logic.I]. destruct k; try exact Logic.I. destruct L.
  - destruct k; try exact Logic.I. cbn. destruct o; cbn [direct] in J; try (destruct J; fail); try (destruct J as [J|[]]; discriminate); try (destruct J as [J|[J|[]]]; discriminate).
    + destruct m; try (destruct J; fail); destruct J as [J|[]]; discriminate.
    + destruct ev; try (destruct J; fail); destruct J as [J|[]]; discriminate.
    + destruct J as [J|[]]. injection J as <-. exact N.
Qed.

Theorem known_run os : forall e, einv C e -> Forall (fun o => match o with ERequeue ev => is_dial ev = false | _ => True end) os -> known e -> known (fst (ep_run C e os)) /\ e_sid e <= e_sid (fst (ep_run C e os)).
Proof.
  intros e. rewrite ep_run_fst. revert e. induction os as [|o os IH]; intros e I F K; cbn [fold_left]; [split; [exact K|lia]|]. inversion F; subst.
  destruct (known_step e o I H1 K) as (K1 & L1). destruct (IH _ (einv_op C e o I) H2 K1) as (K2 & L2). split; [exact K2|lia].
Qed.

(** ** An intent stays until its dial is answered *)
Definition leaves (id : N) (o : eop) : Prop :=
  match o with EStreamEv _ _ | ERequeue _ | EAccept _ _ | EPollEvent => True | EDialOk s _ | EDialFail s => s <> id | _ => False end.
(** no probe has the exchange [id] as its fallback *)
Definition norid (id : N) (e : ep) : Prop := Forall (fun p => match p_phase (snd p) with PhIndirect _ _ _ (Some r) _ => r <> id | _ => True end) (e_probes e).
Definition held (id : N) (oi : option intent) (e : ep) : Prop := aget id (e_int e) = oi /\ norid id e.
Lemma held_same id oi e e' : e_int e' = e_int e -> e_probes e' = e_probes e -> held id oi e -> held id oi e'.
Proof. intros E1 E2 (H & N). unfold held, norid. now rewrite E1, E2. Qed.
Lemma Forall_adel1 {A} (P : N * A -> Prop) k (m : amap A) : Forall P m -> Forall P (adel k m).
Proof. induction m as [|[k' a] m IH]; intros H; [constructor|]. inversion H; subst. cbn. destruct (_ =? _); [auto|constructor; auto]. Qed.
Lemma held_retire id oi s e : held id oi e -> held id oi (retire_reliable s e).
Proof.
  intros (H & N). unfold retire_reliable. destruct (aget s (e_probes e)) as [p|]; [destruct (p_phase p)|]; split; auto. unfold norid. cbn. constructor; [exact Logic.I|now apply Forall_adel1].
Qed.
Lemma held_remove id oi s e : s <> id -> held id oi e -> held id oi (remove_intent s e).
Proof. intros N (H & R). split; [|exact R]. cbn. rewrite aget_adel_ne by congruence. exact H. Qed.
Lemma held_resolve id oi s e : s <> id -> held id oi e -> held id oi (resolve_intent s e).
Proof. intros N H. unfold resolve_intent. apply (held_remove id oi s) in H; [|exact N]. destruct (aget s (e_int e)) as [i|]; [destruct (in_kind i); try apply held_retire|]; exact H. Qed.
Lemma held_fail id oi s now e : held id oi e -> held id oi (probe_fail C s now e).
Proof.
  intros (H & R). unfold probe_fail. destruct (aget s (e_probes e)) as [p|] eqn:G; [|now split]. set (e1 := e_set_acks _ _).
  assert (H1 : held id oi e1) by (split; [exact H|unfold norid, e1; cbn; now apply Forall_adel1]). clearbody e1.
  assert (P : match p_phase p with PhIndirect _ _ _ (Some r) _ => r <> id | _ => True end) by (unfold norid in R; rewrite Forall_forall in R; apply aget_in in G; exact (R _ G)).
  cbv zeta. set (e2 := match p_phase p with PhIndirect _ _ _ (Some rid) _ => remove_intent rid e1 | _ => e1 end).
  assert (H2 : held id oi e2) by (unfold e2; destruct (p_phase p) as [|? ? ? [?|] ?]; auto; now apply held_remove). clearbody e2.
  destruct (p_kind p); [|exact H2]. destruct (negb _); [exact H2|]. destruct (same_instance _ _); exact H2.
Qed.
Lemma held_ok id oi s d pl now e : held id oi e -> held id oi (probe_ok C s d pl now e).
Proof.
  intros H. unfold probe_ok. destruct (aget s (e_probes e)) as [p|]; [|exact H]. match goal with |- context [if ?b then _ else _] => destruct b end; [now apply held_fail|]. cbv zeta.
  destruct H as (H & R). destruct (p_kind p); [destruct d|]; (split; [exact H|unfold norid; cbn; now apply Forall_adel1]).
Qed.
Lemma held_step id oi e o : leaves id o -> held id oi e -> held id oi (fst (ep_step C e o)).
Proof.
  intros L H. destruct o; cbn [leaves] in L; try contradiction; cbn [ep_step fst].
  - unfold handle_stream_event. destruct ev; destruct (runs e); cbn [negb fst]; try exact H.
    + destruct (e_merge e _); [|exact H]. cbn [fst]. unfold merge_in. destruct user; exact H.
    + destruct (e_merge e _); [|exact H]. cbn [fst]. unfold merge_in. destruct user; exact H.
    + now apply held_ok.
    + now apply held_retire.
  - unfold dial_succeeded. destruct (aget id0 (e_int e)) as [i|]; [match goal with |- context [if ?b then _ else _] => destruct b end|]; cbn [fst]; auto using held_remove, held_resolve.
  - now apply held_resolve.
  - unfold accept_stream. destruct (runs e); exact H.
  - destruct (k_ev (e_core e)); exact H.
  - exact H.
Qed.
(** a new endpoint has asked for nothing *)
Lemma new_known t0 e : ep_new C t0 = Some e -> known e.
Proof.
  unfold ep_new. destruct (cfg_ok C); [|discriminate]. intros N. apply Some_inj in N. rewrite <- N. unfold known, refresh_cache. match goal with |- context [if ?b then _ else _] => destruct b end; cbn; repeat constructor.
Qed.
End Dials.
