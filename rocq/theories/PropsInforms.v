(** Properties C101-C103: after a push/pull the other node knows the members the
    first one had as alive, suspects those it had as suspect or dead, and has as
    dead those that left; the same list again changes nothing. *)
From Verif Require Import CodecModel.
From Verif Require Import Base BaseFacts MapFacts CodecSpec CodecFacts LabelSpec LabelFacts MsgModel WireSpec WireFacts StreamModel TransformModel TransformSpec TransformFacts
  CoreModel CoreFacts CoreInv CoreSpec CoreInforms EndpointModel EndpointInv EndpointHist PropsCore PropsEndpoint PropsWire TransformToy PropsTransform CoordModel CoordFacts CoordRuns CoordSteps CoordFrame CoordClaims CoordReports PropsCoord CoordFresh CoordSend PropsDeliver PropsSend.
Local Open Scope N_scope.

(** what is known of a member once an entry of a list has been merged: the
    entry, unless something at least as new was known *)
Definition learned (p : pns) (before after : option member) : Prop :=
  exists m', after = Some m' /\ ns_addr (m_server m') = pn_addr p /\ pn_inc p <= m_inc m' /\
    ((exists m, before = Some m /\ pn_inc p <= m_inc m /\ m' = m) \/
     (m_state m' = PAlive /\ m_inc m' = pn_inc p /\ m_susp m' = None /\ m_server m' = mkNS (pn_id p) (pn_addr p) PAlive (pn_meta p) (pn_pv p) (pn_dv p))).
(** the node takes word of the entry [p] of a list of [n] members: it is running,
    the application admits the member, the table has room, and the member is
    not known at another address *)
Definition takes (C : cfg) (k : core) (n : N) (p : pns) : Prop :=
  k_life k = Running /\ k_adm k (mkNS (pn_id p) (pn_addr p) PAlive (pn_meta p) (pn_pv p) (pn_dv p)) = true /\
  match c_max_members C with Some mx => blen (k_mem k) + n <= mx | None => True end /\
  (forall m, rec_at k (pn_id p) = Some m -> ns_addr (m_server m) = pn_addr p).

Lemma told_learned C l now k p : kinv C k -> NoDup (map pn_id l) -> In p l -> pn_state p = PAlive -> pn_id p <> c_id C -> takes C k (blen l) p ->
  learned p (rec_at k (pn_id p)) (rec_at (merge_state C l now k) (pn_id p)).
Proof.
  intros V ND IN S N (R & AD & CAP & HA). destruct (merge_told C l now k p V R ND IN S N AD CAP HA) as (m' & G & T). exists m'. split; [exact G|].
  assert (K : as_told (pns_alive p) m' -> ns_addr (m_server m') = pn_addr p /\ pn_inc p <= m_inc m' /\
    ((exists m, rec_at k (pn_id p) = Some m /\ pn_inc p <= m_inc m /\ m' = m) \/ (m_state m' = PAlive /\ m_inc m' = pn_inc p /\ m_susp m' = None /\ m_server m' = mkNS (pn_id p) (pn_addr p) PAlive (pn_meta p) (pn_pv p) (pn_dv p)))).
  { intros (T1 & T2 & T3 & T4). rewrite T2, T3. split; [reflexivity|]. split; [apply N.le_refl|]. right. auto. }
  destruct (rec_at k (pn_id p)) as [m|]; [|exact (K T)]. destruct (N.leb_spec (pn_inc p) (m_inc m)) as [L|L]; [|exact (K T)].
  subst m'. split; [exact (HA m eq_refl)|]. split; [exact L|]. left. eauto.
Qed.
(** ** C101: in the table of one node *)
Theorem C101_merge_informs : forall C t0 os l now p, let k := core_at C t0 os in
  NoDup (map pn_id l) -> In p l -> pn_state p = PAlive -> pn_id p <> c_id C -> takes C k (blen l) p ->
  learned p (rec_at k (pn_id p)) (rec_at (fst (core_step C k (KMerge l now))) (pn_id p)).
Proof. intros C t0 os l now p k. exact (told_learned C l now k p (kinv_at C t0 os)). Qed.
Print Assumptions C101_merge_informs.
(** node 1 knows 2 at incarnation 3; it is told that it is itself under
    suspicion, of 2 at incarnation 4 and of 3, who is new to it *)
Example C101_merge_informs_ex :
  let C := uncapped ex_cfg in let k := core_at C 0 ex_joined in
  let p := mkPNS 4 2 102 PAlive [6] 1 1 in let r := mkPNS 1 3 103 PAlive [] 1 1 in let l := [mkPNS 9 1 101 PSuspect [7] 1 1; p; r] in
  NoDup (map pn_id l) /\ In p l /\ In r l /\ pn_id p <> c_id C /\ pn_id r <> c_id C /\ takes C k (blen l) p /\ takes C k (blen l) r /\
  view (rec_at k 2) = Some (PAlive, 3, 102) /\ rec_at k 3 = None /\
  let k' := fst (core_step C k (KMerge l 30)) in view (rec_at k' 2) = Some (PAlive, 4, 102) /\ view (rec_at k' 3) = Some (PAlive, 1, 103).
Proof.
  cbv zeta. split; [repeat constructor; cbn; intuition discriminate|]. split; [cbn; tauto|]. split; [cbn; tauto|]. split; [discriminate|]. split; [discriminate|].
  split. { split; [reflexivity|]. split; [reflexivity|]. split; [exact Logic.I|]. intros m. vm_compute. intros [= <-]. reflexivity. }
  split. { split; [reflexivity|]. split; [reflexivity|]. split; [exact Logic.I|]. intros m. vm_compute. discriminate. }
  vm_compute. repeat split.
Qed.

(** ** C101: at the endpoint, for both sides of an exchange *)
Theorem C101_exchange_informs : forall C e ev peer states user join sid now p, reach C e ->
  (ev = SEReply peer states user join sid \/ ev = SERequest peer states user join sid) ->
  e_merge e (map (fun p => mkNS (pn_id p) (pn_addr p) (pn_state p) (pn_meta p) (pn_pv p) (pn_dv p)) states) = true ->
  NoDup (map pn_id states) -> In p states -> pn_state p = PAlive -> pn_id p <> c_id C -> takes C (e_core e) (blen states) p ->
  learned p (aget (pn_id p) (k_mem (e_core e))) (aget (pn_id p) (k_mem (e_core (fst (ep_step C e (EStreamEv ev now)))))).
Proof.
  intros C e ev peer states user join sid now p RE HE M ND IN S N T. pose proof (told_learned C states now (e_core e) p (ei_core _ _ (reach_inv C e RE)) ND IN S N T) as L.
  destruct T as (RU & _). change (e_merge e (map pns_ns states) = true) in M.
  assert (K : k_mem (e_core (fst (ep_step C e (EStreamEv ev now)))) = k_mem (merge_state C states now (e_core e))).
  { cbn [ep_step]. destruct HE as [-> | ->]; cbn [handle_stream_event]; unfold runs; rewrite RU, M; cbn [is_running negb fst]; unfold merge_in; destruct user; reflexivity. }
  rewrite K. exact L.
Qed.
Print Assumptions C101_exchange_informs.
(* [C101_table_crosses_ex] below is a case of this: what node 2 takes in is a [SERequest] *)

(** the list a node sends has every member once *)
Lemma states_nodup C e : einv C e -> NoDup (map pn_id (local_states e)).
Proof.
  intros V. assert (map pn_id (local_states e) = akeys (k_mem (e_core e))) as ->; [|exact (ki_nodup _ _ (ei_core _ _ V))].
  unfold local_states, akeys. rewrite map_map. apply map_ext_in. intros [n m] H. cbn.
  assert (G : rec_at (e_core e) n = Some m) by (apply aget_of_in; [exact (ki_nodup _ _ (ei_core _ _ V))|exact H]).
  exact (proj1 (ki_rec _ _ (ei_core _ _ V) n m G)).
Qed.
(** ** C101: from the table of one node to that of the other *)
Theorem C101_table_crosses : forall W B, wf_codec W -> wf_backends B -> lossless B -> aead_correct B ->
  (* the sender *)
  forall C1 Q1 rnd1 t1 e1 kr1, ep_new C1 t1 = Some e1 -> (forall l, effective_label (qc_label Q1) = Some l -> valid_label l) ->
  forall os1 peer join now1 q' id frame u, Forall (fun o => match o with QRequeue (EvDial _ _ _) _ => False | _ => True end) os1 ->
  let q1 := fst (q_run C1 Q1 W B rnd1 (coord_new e1 kr1) os1) in
  runs (q_ep q1) = true -> q_step C1 Q1 W B rnd1 q1 (QPushPull peer join now1) = (q', [YId id]) -> now1 < tadd now1 (c_stream_timeout C1) ->
  wf_msg (MPushPull join (local_states (q_ep q1)) (e_snap (q_ep q1))) -> encode_message W (MPushPull join (local_states (q_ep q1)) (e_snap (q_ep q1))) = Some frame -> match rnd1 id now1 with Some n => wf_bytes n | None => True end ->
  encode_reliable_unit B (qc_comp Q1) (q_kr q1) (rnd1 id now1) frame = Ok u ->
  exists bs, sends C1 Q1 W B rnd1 q' id peer bs /\
  (* the receiver *)
  forall C2 Q2 rnd2 t2 e2 kr2, ep_new C2 t2 = Some e2 -> effective_label (qc_label Q2) = effective_label (qc_label Q1) -> c_frame_max C2 + 30 <= u32_max -> blen frame <= c_frame_max C2 ->
  forall os2 from ta x, let q2 := fst (q_run C2 Q2 W B rnd2 (coord_new e2 kr2) os2) in
  snd (q_step C2 Q2 W B rnd2 q2 (QAccept from ta)) = [YId x] -> ring_compatible B (q_kr q1) (q_kr q2) (rnd1 id now1) (compress_payload B (qc_comp Q1) frame) ->
  forall T os last now, T <= tadd ta (qc_accept Q2) -> Forall (calm C2 T x) os -> now < T -> T <= tadd now (c_stream_timeout C2) ->
  flat_map (brought x) os ++ last = bs ->
  let q2' := fst (q_run C2 Q2 W B rnd2 (coord_new e2 kr2) (os2 ++ [QAccept from ta] ++ os ++ [QData x last true now])) in
  (* the receiver's endpoint before and after it takes the members in *)
  exists pre post em em', em = fst (ep_run C2 e2 pre) /\ (exists o, em' = fst (ep_step C2 em o)) /\ q_ep q2' = fst (ep_run C2 em' post) /\
  (e_merge em (map (fun p => mkNS (pn_id p) (pn_addr p) (pn_state p) (pn_meta p) (pn_pv p) (pn_dv p)) (local_states (q_ep q1))) = true ->
   forall n m, aget n (k_mem (e_core (q_ep q1))) = Some m -> m_state m = PAlive -> n <> c_id C2 ->
   let s := m_server m in let p := mkPNS (m_inc m) n (ns_addr s) PAlive (ns_meta s) (ns_pv s) (ns_dv s) in
   takes C2 (e_core em) (blen (k_mem (e_core (q_ep q1)))) p ->
   learned p (aget n (k_mem (e_core em))) (aget n (k_mem (e_core em')))).
Proof.
  intros W B HW HB LL AE C1 Q1 rnd1 t1 e1 kr1 N1 HL os1 peer join now1 q' id frame u KD q1 R ST HD WD EM WN EU.
  destruct (C100_push_pull_is_taken_in W B HW HB LL AE C1 Q1 rnd1 t1 e1 kr1 N1 HL os1 peer join now1 q' id frame u KD R ST HD WD EM WN EU) as (bs & S & A). exists bs. split; [exact S|].
  intros C2 Q2 rnd2 t2 e2 kr2 N2 EL HM LF os2 from ta x q2 AC RC T os last now LT F LN TN EW.
  destruct (A C2 Q2 rnd2 t2 e2 kr2 N2 EL HM LF os2 from ta x AC RC T os last now LT F LN TN EW) as (sid & t & l1 & l2 & _ & EP). clear A. cbv zeta. fold q1 in EP.
  set (o := EStreamEv (SERequest from (local_states (q_ep q1)) (e_snap (q_ep q1)) join sid) t) in *.
  exists (map snd l1), (map snd l2), (fst (ep_run C2 e2 (map snd l1))), (fst (ep_step C2 (fst (ep_run C2 e2 (map snd l1))) o)). split; [reflexivity|]. split; [now exists o|].
  split. { rewrite EP, !ep_run_fst, fold_left_app. reflexivity. }
  set (em := fst (ep_run C2 e2 (map snd l1))). intros M n m G PA NL TK.
  assert (I1 : einv C1 (q_ep q1)).
  { unfold q1. rewrite (proj1 (C93_endpoint_inside C1 Q1 W B rnd1 t1 e1 kr1 N1 os1)). apply (reach_inv C1). exists t1, e1. eexists. split; [exact N1|reflexivity]. }
  assert (EI : ns_id (m_server m) = n) by exact (proj1 (ki_rec _ _ (ei_core _ _ I1) n m G)).
  assert (IN : In (mkPNS (m_inc m) n (ns_addr (m_server m)) PAlive (ns_meta (m_server m)) (ns_pv (m_server m)) (ns_dv (m_server m))) (local_states (q_ep q1))).
  { unfold local_states. apply in_map_iff. exists (n, m). cbn. rewrite EI, PA. split; [reflexivity|]. apply aget_in. exact G. }
  apply (C101_exchange_informs C2 em (SERequest from (local_states (q_ep q1)) (e_snap (q_ep q1)) join sid) from (local_states (q_ep q1)) (e_snap (q_ep q1)) join sid t _ ltac:(exists t2, e2; eexists; split; [exact N2|reflexivity]) (or_intror eq_refl) M (states_nodup C1 _ I1) IN eq_refl NL).
  assert (blen (local_states (q_ep q1)) = blen (k_mem (e_core (q_ep q1)))) as -> by (unfold blen, local_states; now rewrite map_length). exact TK.
Qed.
Print Assumptions C101_table_crosses.
(** the case of [C100_push_pull_is_taken_in_ex], whose hypotheses are those of
    [C101_table_crosses]: node 1 has itself as alive, at incarnation 5; node 2, which does not
    know it, takes word of it and has it as alive at the end *)
Example C101_table_crosses_ex :
  let q1 := fst (qe 1 (Some tr_s) [QAccept 109 3]) in let q2 := fst (qe 2 (Some tr_r) [QAccept 103 5]) in
  let q2' := fst (qe 2 (Some tr_r) [QAccept 103 5; QAccept 101 11; QData 1 (btake 7 se_sent) false 12; QTimeout 13; QPollEvent; QData 1 (bdrop 7 se_sent) true 18]) in
  let em := q_ep q2 in let p := mkPNS 5 1 101 PAlive [7] 1 1 in
  view (aget 1 (k_mem (e_core (q_ep q1)))) = Some (PAlive, 5, 101) /\ 1 <> c_id (qe_cfg 2) /\ local_states (q_ep q1) = [p] /\ e_merge em [mkNS 1 101 PAlive [7] 1 1] = true /\
  takes (qe_cfg 2) (e_core em) 1 p /\ aget 1 (k_mem (e_core em)) = None /\ view (aget 1 (k_mem (e_core (q_ep q2')))) = Some (PAlive, 5, 101).
Proof.
  cbv zeta. split; [vm_compute; reflexivity|]. split; [discriminate|]. split; [vm_compute; reflexivity|]. split; [vm_compute; reflexivity|]. split.
  { split; [vm_compute; reflexivity|]. split; [vm_compute; reflexivity|]. split; [vm_compute; try exact Logic.I; discriminate|]. intros m H. exfalso. revert H. vm_compute. discriminate. }
  split; vm_compute; reflexivity.
Qed.

(** ** C102: what a list says of members that are not alive *)
Theorem C102_suspicion_spreads : forall C t0 os l now p m, let k := core_at C t0 os in
  k_life k = Running -> NoDup (map pn_id l) -> In p l -> pn_state p = PSuspect \/ pn_state p = PDead -> pn_id p <> c_id C ->
  rec_at k (pn_id p) = Some m -> m_state m = PAlive -> m_inc m <= pn_inc p ->
  exists m', rec_at (fst (core_step C k (KMerge l now))) (pn_id p) = Some m' /\
    m_state m' = PSuspect /\ m_inc m' = pn_inc p /\ m_susp m' <> None /\ m_server m' = m_server m.
Proof. intros C t0 os l now p m k. exact (merge_suspects C l now k p m (kinv_at C t0 os)). Qed.
Print Assumptions C102_suspicion_spreads.
Theorem C102_departure_spreads : forall C t0 os l now p m, let k := core_at C t0 os in
  k_life k = Running -> NoDup (map pn_id l) -> In p l -> pn_state p = PLeft -> pn_id p <> c_id C ->
  rec_at k (pn_id p) = Some m -> m_state m <> PDead -> m_state m <> PLeft -> m_inc m <= pn_inc p ->
  exists m', rec_at (fst (core_step C k (KMerge l now))) (pn_id p) = Some m' /\
    m_state m' = PDead /\ m_inc m' = pn_inc p /\ m_susp m' = None /\ m_server m' = m_server m.
Proof.
  intros C t0 os l now p m k R ND IN S N G S1 S2. apply (merge_departs C l now k p m (kinv_at C t0 os) R ND IN S N G). destruct (m_state m); try reflexivity; congruence.
Qed.
Print Assumptions C102_departure_spreads.
(** A list says nothing about the members that are not in it. *)
Theorem C102_unlisted_untouched : forall C t0 os l now id, let k := core_at C t0 os in
  k_life k = Running -> id <> c_id C -> ~ In id (map pn_id l) ->
  rec_at (fst (core_step C k (KMerge l now))) id = rec_at k id.
Proof.
  intros C t0 os l now id k R N NI. refine (proj1 (proj2 (list_aside C id now l k (kinv_at C t0 os) R N _))). intros p P E. apply NI. rewrite <- E. now apply in_map.
Qed.
Print Assumptions C102_unlisted_untouched.
(** node 1 knows 2, 3, 4 and 5 as alive; it is told that 2 is dead, that 3 left
    and that it is itself suspect; of 4 nothing, of 5 something old *)
Example C102_ex :
  let C := uncapped ex_cfg in let k := core_at C 0 (ex_joined ++ [KAlive (ex_al 1 3 103) 11; KAlive (ex_al 2 4 104) 12; KAlive (ex_al 6 5 105) 13]) in
  let l := [mkPNS 4 2 102 PDead [6] 1 1; mkPNS 9 1 101 PSuspect [7] 1 1; mkPNS 1 3 103 PLeft [] 1 1; mkPNS 5 5 105 PDead [] 1 1] in
  k_life k = Running /\ NoDup (map pn_id l) /\ map (fun i => view (rec_at k i)) [2; 3; 4; 5] = [Some (PAlive, 3, 102); Some (PAlive, 1, 103); Some (PAlive, 2, 104); Some (PAlive, 6, 105)] /\
  let k' := fst (core_step C k (KMerge l 30)) in
  map (fun i => view (rec_at k' i)) [2; 3; 4; 5] = [Some (PSuspect, 4, 102); Some (PDead, 1, 103); Some (PAlive, 2, 104); Some (PAlive, 6, 105)].
Proof. cbv zeta. split; [reflexivity|]. split; [repeat constructor; cbn; intuition discriminate|]. split; vm_compute; reflexivity. Qed.

(** ** C103: the same list again, at any later time unless names of the dead can
    be taken over after a while, changes no record but the node's own *)
Theorem C103_merge_again : forall C t0 os l now now2 id, let k := core_at C t0 os in
  k_life k = Running -> NoDup (map pn_id l) -> id <> c_id C -> c_reclaim C = 0 \/ now2 = now ->
  let k1 := fst (core_step C k (KMerge l now)) in rec_at (fst (core_step C k1 (KMerge l now2))) id = rec_at k1 id.
Proof. intros C t0 os l now now2 id k R ND N RC. exact (merge_again C l now now2 k id (kinv_at C t0 os) R ND N RC). Qed.
Print Assumptions C103_merge_again.
(** the list of [C102_ex] with a new member, one that fails the address check
    and a member under suspicion by another: the first merge changes the
    records, the second does not *)
Example C103_ex :
  let C := uncapped ex_cfg in let k := core_at C 0 (ex_joined ++ [KAlive (ex_al 1 3 103) 11; KAlive (ex_al 2 4 104) 12; KAlive (ex_al 6 5 105) 13; KSuspect 6 5 4 14]) in
  let l := [mkPNS 4 2 102 PDead [6] 1 1; mkPNS 9 1 101 PSuspect [7] 1 1; mkPNS 1 3 103 PLeft [] 1 1; mkPNS 7 5 105 PSuspect [] 1 1; mkPNS 3 4 109 PAlive [] 1 1; mkPNS 1 8 108 PAlive [] 1 1] in
  k_life k = Running /\ NoDup (map pn_id l) /\
  let k1 := fst (core_step C k (KMerge l 30)) in let k2 := fst (core_step C k1 (KMerge l 30)) in
  map (fun i => view (rec_at k i)) [2; 3; 4; 5; 8] = [Some (PAlive, 3, 102); Some (PAlive, 1, 103); Some (PAlive, 2, 104); Some (PSuspect, 6, 105); None] /\
  map (fun i => view (rec_at k1 i)) [2; 3; 4; 5; 8] = [Some (PSuspect, 4, 102); Some (PDead, 1, 103); Some (PAlive, 2, 104); Some (PSuspect, 6, 105); Some (PAlive, 1, 108)] /\
  map (fun i => option_map (fun m => length (s_confirmed (match m_susp m with Some s => s | None => susp_new 0 0 0 0 0 end))) (rec_at k1 i)) [5] = [Some 2%nat] /\
  map (rec_at k2) [2; 3; 4; 5; 8] = map (rec_at k1) [2; 3; 4; 5; 8].
Proof. cbv zeta. split; [reflexivity|]. split; [repeat constructor; cbn; intuition discriminate|]. split; [vm_compute; reflexivity|]. split; [vm_compute; reflexivity|]. split; vm_compute; reflexivity. Qed.
