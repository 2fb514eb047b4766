(** Property C97: what an application that follows the events knows of every
    live member. *)
From Verif Require Import CoreModel MapFacts BaseFacts CoreFacts CoreInv CoreSteps CoreTrans CoreHist CoreSpec CoreShown PropsCore.
Local Open Scope N_scope.

(** a membership event about [id] *)
Definition about (id : N) (e : event) : bool :=
  match e with EvJoined s | EvUpdated s | EvLeft s => ns_id s =? id | _ => false end.
(** the last membership event about [id] *)
Definition last_about (id : N) (l : list event) : option event := find (about id) (rev l).
Lemma last_about_snoc id l e : last_about id (l ++ [e]) = if about id e then Some e else last_about id l.
Proof. unfold last_about. rewrite rev_app_distr. reflexivity. Qed.
Lemma last_tell id l :
  tell id l = match last_about id l with Some (EvJoined s) | Some (EvUpdated s) => Some (ns_addr s, ns_meta s) | _ => None end.
Proof.
  induction l as [|e l IH] using rev_ind; [reflexivity|]. rewrite last_about_snoc, tell_app. cbn [fold_left]. rewrite IH.
  destruct e; cbn [tell1 about]; try reflexivity; destruct (ns_id s =? id); reflexivity.
Qed.

(** * C97: for a member held Alive or Suspect, the last membership event about
    it is a join or an update and carries the address and the metadata held in
    the table; for any other id there is no such event or the last one says it
    left. *)
Theorem C97_events_tell_data : forall C t0 os id,
  Forall (fun o => match o with KRequeue e => quiet e = true | _ => True end) os ->
  let '(k, out) := core_run C (core_new C t0) os in
  match rec_at k id with
  | Some m =>
    m_state m = PDead \/ m_state m = PLeft \/
    exists s, (last_about id (out ++ k_ev k) = Some (EvJoined s) \/ last_about id (out ++ k_ev k) = Some (EvUpdated s)) /\
      ns_addr s = ns_addr (m_server m) /\ ns_meta s = ns_meta (m_server m)
  | None => True
  end /\
  (match rec_at k id with Some m => m_state m = PDead \/ m_state m = PLeft | None => True end ->
   last_about id (out ++ k_ev k) = None \/ exists s, last_about id (out ++ k_ev k) = Some (EvLeft s)).
Proof.
  intros C t0 os id F. pose proof (shown_run C os (core_new C t0) [] F (kinv_new C t0) (shown_new C t0)) as H.
  destruct (core_run C (core_new C t0) os) as [k out]. cbn [app] in H. specialize (H id). rewrite last_tell in H.
  assert (forall e, last_about id (out ++ k_ev k) = Some e -> about id e = true) as A
    by (intros e E; apply find_some in E; exact (proj2 E)).
  split.
  - destruct (rec_at k id) as [m|]; [|exact Logic.I]. cbn [face] in H.
    destruct (m_state m) eqn:E; cbn [dead_or_left] in H; auto; right; right;
      destruct (last_about id (out ++ k_ev k)) as [[]|]; try discriminate H; injection H as H1 H2; eauto 6.
  - intros D. assert (face (rec_at k id) = None) as N by (destruct (rec_at k id) as [m|]; [|reflexivity]; cbn [face]; destruct D as [-> | ->]; reflexivity).
    rewrite N in H. destruct (last_about id (out ++ k_ev k)) as [[]|]; try discriminate H; try discriminate (A _ eq_refl); eauto.
Qed.
Print Assumptions C97_events_tell_data.
(** member 2 joins, changes its metadata, leaves and returns at another
    address with a third metadata; member 3 stays; member 4 leaves *)
Definition ex_all inc id addr meta := mkAlive inc id addr meta 1 1.
Definition ex_moves := [KAlive (ex_all 3 2 102 [4]) 10; KAlive (ex_all 1 3 103 [8]) 11; KAlive (ex_all 4 2 102 [5; 6]) 12; KPoll; KPoll; KPoll;
  KDead 4 2 2 20; KMeta [1; 1]; KAlive (ex_all 1 2 202 [7]) 30; KSuspect 1 2 3 40; KDead 1 3 3 50; KPoll].
Example C97_events_tell_data_ex :
  let '(k, out) := core_run ex_cfg (core_new ex_cfg 0) ex_moves in
  let e i := match last_about i (out ++ k_ev k) with Some (EvJoined s) => Some (1, ns_addr s, ns_meta s)
              | Some (EvUpdated s) => Some (2, ns_addr s, ns_meta s) | Some (EvLeft s) => Some (3, ns_addr s, ns_meta s) | _ => None end in
  length out = 4%nat /\ view (rec_at k 2) = Some (PSuspect, 1, 202) /\
  e 1 = Some (2, 101, [1; 1]) /\ e 2 = Some (1, 202, [7]) /\ e 3 = Some (3, 103, [8]) /\ e 9 = None.
Proof. vm_compute. repeat split. Qed.

(** A departed name taken over from another address is announced as a join:
    event/mod.rs:741-743 says this path emits [NodeUpdated]. *)
Theorem C97_takeover_is_a_join : forall C t0 os al m now,
  let k := core_at C t0 os in
  k_life k = Running -> rec_at k (al_id al) = Some m -> ns_addr (m_server m) <> al_addr al ->
  m_state m = PLeft \/ (m_state m = PDead /\ 0 < c_reclaim C /\ c_reclaim C < tsub now (m_change m)) ->
  k_adm k (alive_ns al PAlive) = true -> al_id al <> c_id C ->
  k_ev (fst (core_step C k (KAlive al now))) = k_ev k ++ [EvJoined (alive_ns al PAlive)].
Proof.
  intros C t0 os al m now k R G NA D A NL. cbn [core_step fst]. unfold process_alive. rewrite R, A. cbn [is_running negb]. unfold alive_decided.
  unfold rec_at in G. rewrite G. apply N.eqb_neq in NA. rewrite NA. apply N.eqb_neq in NL.
  assert (match m_state m with PLeft => true | PDead => (0 <? c_reclaim C) && (c_reclaim C <? tsub now (m_change m)) | _ => false end = true /\
          dead_or_left (m_state m) = true) as [-> DL].
  { destruct D as [->|(-> & D1 & D2)]; [split; reflexivity|]. apply N.ltb_lt in D1, D2. rewrite D1, D2. split; reflexivity. }
  unfold alive_apply. rewrite G, NL, DL. cbn [negb andb]. unfold clear_suspicion, bcast. cbn. destruct (m_susp m); reflexivity.
Qed.
Print Assumptions C97_takeover_is_a_join.
Example C97_takeover_is_a_join_ex :
  let k := ex_at ex_left in
  view (rec_at k 2) = Some (PLeft, 3, 102) /\
  k_ev (fst (core_step ex_cfg k (KAlive (ex_al 1 2 999) 21))) = k_ev k ++ [EvJoined (alive_ns (ex_al 1 2 999) PAlive)].
Proof. vm_compute. repeat split. Qed.

(** Not everything held about a member is told: the claim of event/mod.rs:739
    that a change of version is announced is false. *)
Theorem C97_version_change_is_told_refuted :
  exists os al now m,
    let k := ex_at os in let k' := fst (core_step ex_cfg k (KAlive al now)) in
    rec_at k' 2 = Some m /\ ns_pv (m_server m) = 9 /\ ns_dv (m_server m) = 9 /\
    (exists m0, rec_at k 2 = Some m0 /\ ns_pv (m_server m0) = 1 /\ ns_dv (m_server m0) = 1) /\
    k_ev k' = k_ev k /\
    (forall s, In (EvJoined s) (k_ev k') \/ In (EvUpdated s) (k_ev k') -> ns_id s = 2 -> ns_pv s = 1 /\ ns_dv s = 1).
Proof.
  exists ex_joined, (mkAlive 4 2 102 [4] 9 9), 20. eexists. split; [vm_compute; reflexivity|]. repeat split.
  - eexists. split; [vm_compute; reflexivity|split; reflexivity].
  - destruct H as [H|H]; revert H; vm_compute; intros H; repeat (destruct H as [H|H]); try discriminate H; try contradiction H; injection H as <-; try discriminate H0; reflexivity.
  - destruct H as [H|H]; revert H; vm_compute; intros H; repeat (destruct H as [H|H]); try discriminate H; try contradiction H; injection H as <-; try discriminate H0; reflexivity.
Qed.
Print Assumptions C97_version_change_is_told_refuted.

(** * Forgetting: a member recorded dead at incarnation 9 is pruned after the
    gossip-to-the-dead time, and an alive message of incarnation 3, which the
    record would have refused, brings it back. *)
Theorem C28_pruning_forgets :
  exists os al t,
    view (rec_at (ex_at os) 2) = Some (PDead, 9, 102) /\
    view (rec_at (ex_at (os ++ [KAlive al t])) 2) = Some (PDead, 9, 102) /\
    view (rec_at (ex_at (os ++ [KReset t; KAlive al t])) 2) = Some (PAlive, 3, 102).
Proof.
  exists [KAlive (ex_al 9 2 102) 10; KSuspect 9 2 9 20; KExpire 7000], (ex_al 3 2 102), 900000. vm_compute. repeat split.
Qed.
Print Assumptions C28_pruning_forgets.
