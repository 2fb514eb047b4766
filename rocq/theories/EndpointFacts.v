(** Facts about single operations of the endpoint. *)
From Coq Require Import Permutation.
From Verif Require Import EndpointModel MapFacts BaseFacts DeadlineFacts CoreFacts CoreInv CoreSteps EndpointSteps EndpointInv.
Local Open Scope N_scope.

(** ** Earliest of several instants *)
Lemma omin_fold l : match fold_right omin None l with
  | Some x => In (Some x) l /\ forall y, In (Some y) l -> x <= y
  | None => forall y, ~ In (Some y) l
  end.
Proof.
  induction l as [|a l IH]; cbn [fold_right]; [intros y []|].
  destruct a as [x|], (fold_right omin None l) as [z|]; cbn [omin].
  - destruct IH as [I L]. split.
    + destruct (N.le_ge_cases x z); [rewrite N.min_l by assumption; left; reflexivity|rewrite N.min_r by assumption; right; exact I].
    + intros y [E|Y]; [injection E as <-; lia|]. specialize (L y Y). lia.
  - split; [left; reflexivity|]. intros y [E|Y]; [injection E as <-; lia|]. destruct (IH y Y).
  - destruct IH as [I L]. split; [right; exact I|]. intros y [E|Y]; [discriminate|auto].
  - intros y [E|Y]; [discriminate|]. exact (IH y Y).
Qed.
Lemma omin_map {A} (f : A -> N) l : fold_right (fun p => omin (Some (f p))) None l = fold_right omin None (map (fun p => Some (f p)) l).
Proof. induction l as [|a l IH]; [reflexivity|]. cbn [fold_right map]. rewrite IH. reflexivity. Qed.
Lemma omin_list {A} (f : A -> N) l : match fold_right (fun p => omin (Some (f p))) None l with
  | Some x => (exists a, In a l /\ f a = x) /\ forall a, In a l -> x <= f a
  | None => l = []
  end.
Proof.
  rewrite omin_map. pose proof (omin_fold (map (fun p => Some (f p)) l)) as H. destruct (fold_right _ _ _) as [x|].
  - destruct H as [I L]. apply in_map_iff in I as (a & [= E] & I). split; [exists a; auto|]. intros b B. apply L, in_map_iff. eauto.
  - destruct l as [|a l]; [reflexivity|]. exfalso. apply (H (f a)). left. reflexivity.
Qed.

Lemma nodup_map_in {A B} (f : A -> B) l : (forall x y, In x l -> In y l -> f x = f y -> x = y) -> NoDup l -> NoDup (map f l).
Proof.
  intros F N. induction N as [|x l X N IH]; [constructor|]. cbn [map]. constructor.
  - intros I. apply in_map_iff in I as (y & E & Y). apply X. rewrite <- (F y x); [exact Y|right; exact Y|left; reflexivity|exact E].
  - apply IH. intros a b Ha Hb. apply F; right; assumption.
Qed.

Section Facts.
Variable C : cfg.
Notation LID := (c_id C).

(** ** Waking up *)
(** the instants at which the endpoint has something to do *)
Inductive due_at (e : ep) : N -> Prop :=
| du_susp id m s : aget id (k_mem (e_core e)) = Some m -> m_susp m = Some s -> due_at e (s_deadline s)
| du_direct s p d : aget s (e_probes e) = Some p -> p_phase p = PhDirect d ->
    due_at e (N.min (tadd (p_sent p) (c_probe_timeout C)) (p_fail p))
| du_indirect s p x ps nb r d : aget s (e_probes e) = Some p -> p_phase p = PhIndirect x ps nb r d -> due_at e (p_fail p)
| du_fwd s f : aget s (e_fwds e) = Some f -> due_at e (f_deadline f)
| du_dial id i : aget id (e_int e) = Some i -> due_at e (in_deadline i)
| du_probe t : e_np e = Some t -> due_at e t
| du_gossip t : e_ng e = Some t -> due_at e t
| du_pp t : e_npp e = Some t -> due_at e t.
Lemma timeout_spec e : einv C e ->
  if runs e then match poll_timeout e with
                 | Some w => due_at e w /\ forall t, due_at e t -> w <= t
                 | None => forall t, ~ due_at e t
                 end
  else poll_timeout e = None.
Proof.
  intros I. unfold poll_timeout. destruct (runs e); [|reflexivity]. cbn [negb].
  match goal with |- context [fold_right omin None ?l] => pose proof (omin_fold l) as H; set (L := l) in * end.
  assert (forall w, In (Some w) L -> due_at e w) as D.
  { intros w W. unfold L in W. destruct W as [W|[W|[W|[W|[W|[W|[W|[]]]]]]]].
    - pose proof (earliest_min _ (ki_didx _ _ (ei_core _ _ I))) as M. rewrite W in M. destruct M as [(id & s0 & A) _].
      pose proof (ki_idx _ _ (ei_core _ _ I) id) as X. rewrite A in X. unfold rec_at, susp_dl in X. destruct (aget id (k_mem (e_core e))) as [m|] eqn:G; [|discriminate].
      destruct (m_susp m) as [s|] eqn:S; [|discriminate]. apply Some_inj in X. cbn in X. subst w. eapply du_susp; eauto.
    - pose proof (omin_list (fun p => p_deadline (snd p)) (e_probes e)) as X. cbn beta in X. rewrite W in X. destruct X as [([s p] & A & E) _]. cbn [snd] in E.
      apply (aget_of_in _ _ _ (ei_pnd _ _ I)) in A. pose proof (ei_shape _ _ I _ _ A) as SH. unfold p_deadline, pshape in *.
      destruct (p_phase p) as [d|x ps nb r d] eqn:P; subst.
      + eapply du_direct; eauto.
      + destruct SH as (_ & _ & _ & _ & _ & _ & ->). eapply du_indirect; eauto.
    - pose proof (omin_list (fun p => f_deadline (snd p)) (e_fwds e)) as X. cbn beta in X. rewrite W in X. destruct X as [([s f] & A & E) _]. cbn [snd] in E. subst.
      eapply du_fwd, (aget_of_in _ _ _ (ei_fnd _ _ I)), A.
    - pose proof (earliest_min _ (ei_iidx _ _ I)) as M. rewrite W in M. destruct M as [(id & s0 & A) _].
      pose proof (ei_lock _ _ I id) as X. rewrite A in X. cbn in X. destruct (aget id (e_int e)) as [i|] eqn:G; [|discriminate].
      apply Some_inj in X. cbn in X. subst w. eapply du_dial; eauto.
    - apply du_probe, W. - apply du_gossip, W. - apply du_pp, W. }
  assert (forall t, due_at e t -> exists w, In (Some w) L /\ w <= t) as B.
  { intros t T. destruct T as [id m s G S|s p d G P|s p x ps nb r d G P|s f G|id i G|t E|t E|t E].
    - pose proof (ki_idx _ _ (ei_core _ _ I) id) as X. unfold rec_at, susp_dl in X. rewrite G, S in X.
      destruct (aget id (di_cur (k_sidx (e_core e)))) as [[d0 s0]|] eqn:A; [|discriminate]. apply Some_inj in X. cbn in X. subst d0.
      pose proof (earliest_min _ (ki_didx _ _ (ei_core _ _ I))) as M. unfold L. destruct (di_earliest (k_sidx (e_core e))) as [w|]; [|rewrite M in A; discriminate].
      exists w. split; [left; reflexivity|]. destruct M as [_ M]. exact (M _ _ _ A).
    - pose proof (omin_list (fun p => p_deadline (snd p)) (e_probes e)) as X. cbn beta in X. unfold L.
      destruct (fold_right (fun p0 => omin (Some (p_deadline (snd p0)))) None (e_probes e)) as [w|]; [|rewrite X in G; discriminate].
      exists w. split; [right; left; reflexivity|]. destruct X as [_ X]. specialize (X (s, p) (aget_in _ _ _ G)). cbn [snd] in X.
      pose proof (ei_shape _ _ I _ _ G) as SH. unfold p_deadline, pshape in *. rewrite P in *. subst d. exact X.
    - pose proof (omin_list (fun p => p_deadline (snd p)) (e_probes e)) as X. cbn beta in X. unfold L.
      destruct (fold_right (fun p0 => omin (Some (p_deadline (snd p0)))) None (e_probes e)) as [w|]; [|rewrite X in G; discriminate].
      exists w. split; [right; left; reflexivity|]. destruct X as [_ X]. specialize (X (s, p) (aget_in _ _ _ G)). cbn [snd] in X.
      pose proof (ei_shape _ _ I _ _ G) as SH. unfold p_deadline, pshape in *. rewrite P in *. destruct SH as (_ & _ & _ & _ & _ & _ & ->). exact X.
    - pose proof (omin_list (fun p => f_deadline (snd p)) (e_fwds e)) as X. cbn beta in X. unfold L.
      destruct (fold_right (fun p0 => omin (Some (f_deadline (snd p0)))) None (e_fwds e)) as [w|]; [|rewrite X in G; discriminate].
      exists w. split; [right; right; left; reflexivity|]. destruct X as [_ X]. exact (X (s, f) (aget_in _ _ _ G)).
    - pose proof (ei_lock _ _ I id) as X. rewrite G in X. cbn in X. destruct (aget id (di_cur (e_iidx e))) as [[d0 s0]|] eqn:A; [|discriminate].
      apply Some_inj in X. cbn in X. subst d0.
      pose proof (earliest_min _ (ei_iidx _ _ I)) as M. unfold L. destruct (di_earliest (e_iidx e)) as [w|]; [|rewrite M in A; discriminate].
      exists w. split; [do 3 right; left; reflexivity|]. destruct M as [_ M]. exact (M _ _ _ A).
    - exists t. split; [do 4 right; left; exact E|lia].
    - exists t. split; [do 5 right; left; exact E|lia].
    - exists t. split; [do 6 right; left; exact E|lia]. }
  destruct (fold_right omin None L) as [w|].
  - destruct H as [W M]. split; [apply D, W|]. intros t T. destruct (B t T) as (w' & W' & LE). specialize (M w' W'). lia.
  - intros t T. destruct (B t T) as (w' & W' & _). exact (H w' W').
Qed.

(** ** Acks *)
(** who may answer for a probe *)
Definition may_answer (p : probe) (from : N) : Prop :=
  from = ns_addr (p_target p) \/ exists x ps nb r d, p_phase p = PhIndirect x ps nb r d /\ In from ps.
Lemma source_valid s k from e : (match k with AKForward _ => False | _ => True end) ->
  ack_source_valid s k from e = true <-> exists p, aget s (e_probes e) = Some p /\ may_answer p from.
Proof.
  intros K. assert (ack_source_valid s k from e = match aget s (e_probes e) with
    | None => false
    | Some p => (ns_addr (p_target p) =? from) || match p_phase p with PhIndirect _ ps _ _ _ => existsb (N.eqb from) ps | _ => false end end) as ->
    by (destruct k; [reflexivity|contradiction|reflexivity]).
  destruct (aget s (e_probes e)) as [p|]; [|split; [discriminate|intros (p & ? & _); discriminate]].
  rewrite orb_true_iff, N.eqb_eq. unfold may_answer. split.
  - intros [<-|E]; exists p; (split; [reflexivity|]); [left; reflexivity|right].
    destruct (p_phase p) as [|x ps nb r d]; [discriminate|]. apply existsb_eqb_in in E. eauto 10.
  - intros (p' & [= <-] & [->|(x & ps & nb & r & d & -> & I)]); [left; reflexivity|right; apply existsb_eqb_in, I].
Qed.
Lemma ack_ignored e from q payload now : einv C e ->
  (forall p, aget q (e_probes e) = Some p -> ~ may_answer p from) ->
  (forall f, aget q (e_fwds e) = Some f -> from <> f_target f \/ f_deadline f <= now) ->
  handle_ack C from q payload now e = e.
Proof.
  intros I NP NF. pose proof (ei_reg _ _ I q) as R. unfold registered, handle_ack, ack_get in *.
  destruct (aget q (e_acks e)) as [a|]; [|reflexivity]. destruct R as (_ & _ & R).
  destruct (ack_source_valid q (a_kind a) from e) eqn:V; [|reflexivity]. cbn [negb].
  destruct (a_kind a) as [|r|] eqn:K.
  - apply source_valid in V; [|exact Logic.I]. destruct V as (p & G & M). destruct (NP p G M).
  - destruct R as ((f & G & _) & _). rewrite G. unfold ack_source_valid in V. rewrite G in V. apply N.eqb_eq in V.
    destruct (NF f G) as [X|L]; [congruence|]. apply N.leb_le in L. rewrite L. reflexivity.
  - apply source_valid in V; [|exact Logic.I]. destruct V as (p & G & M). destruct (NP p G M).
Qed.
Lemma ack_accepted e from q payload now p : einv C e -> aget q (e_probes e) = Some p -> may_answer p from ->
  handle_ack C from q payload now e = probe_ok C q (ns_addr (p_target p) =? from) payload now e.
Proof.
  intros I G M. pose proof (ei_reg _ _ I q) as R. unfold registered, handle_ack, ack_get in *.
  destruct (aget q (e_acks e)) as [a|]; [|destruct R; congruence]. destruct R as (_ & _ & R).
  assert (match a_kind a with AKForward _ => False | _ => True end) as K by (destruct (a_kind a); auto; destruct R; congruence).
  assert (ack_source_valid q (a_kind a) from e = true) as -> by (apply source_valid; eauto).
  cbn [negb]. destruct (a_kind a); [|contradiction|];
    change (fst (ack_handle q (e_acks e))) with (adel q (e_acks e)); cbn [e_probes e_set_acks]; rewrite G; eapply probe_ok_ack; eauto.
Qed.
Lemma probe_ok_probes s d payload now e j : aget j (e_probes (probe_ok C s d payload now e)) = if j =? s then None else aget j (e_probes e).
Proof.
  unfold probe_ok. destruct (aget s (e_probes e)) as [p|] eqn:G; [|destruct (N.eqb_spec j s) as [->|]; [exact G|reflexivity]].
  destruct (_ <=? _); [apply probe_fail_probes|].
  destruct (p_kind p); [destruct d|]; cbn; apply aget_adel.
Qed.
Lemma ack_others e from q payload now j : j <> q -> aget j (e_probes (handle_ack C from q payload now e)) = aget j (e_probes e).
Proof.
  intros NE. apply N.eqb_neq in NE. unfold handle_ack, ack_get. destruct (aget q (e_acks e)) as [a|]; [|reflexivity].
  destruct (negb _); [reflexivity|]. destruct (match a_kind a with AKForward _ => _ | _ => _ end); [reflexivity|].
  destruct (a_kind a); [|cbn; destruct (aget q (e_fwds e)); reflexivity|]; rewrite probe_ok_probes, NE; reflexivity.
Qed.
(** an answer in time *)
Lemma probe_ok_exact s d payload now e p : aget s (e_probes e) = Some p -> now < p_fail p ->
  let e' := probe_ok C s d payload now e in
  e_core e' = fst (core_run C (e_core e)
    (match p_kind p with PKDetection => [KHealthOk] | PKPing => [] end ++
     (if match p_kind p with PKDetection => d | PKPing => true end then [KEmit (EvPingCompleted s (p_target p) (tsub now (p_sent p)) payload)] else []))) /\
  e_probes e' = adel s (e_probes e) /\ e_acks e' = adel s (e_acks e) /\ e_tx e' = e_tx e /\ e_fwds e' = e_fwds e /\ e_int e' = e_int e.
Proof.
  intros G L. cbv zeta. unfold probe_ok. rewrite G. apply N.leb_gt in L. rewrite L. destruct (p_kind p); [destruct d|]; repeat split.
Qed.

(** ** Nacks *)
Lemma nack_exact e from q now : handle_nack from q now e =
  match aget q (e_probes e) with
  | Some p => match p_phase p with
              | PhIndirect x ps nb r d =>
                if (now <? p_fail p) && existsb (N.eqb from) ps && negb (existsb (N.eqb from) nb)
                then e_set_probes (aset q (p_set_phase (PhIndirect x ps (nb ++ [from]) r d) p) (e_probes e)) e else e
              | PhDirect _ => e
              end
  | None => e
  end.
Proof.
  unfold handle_nack. destruct (aget q (e_probes e)) as [p|]; [|reflexivity].
  rewrite (N.leb_antisym now (p_fail p)). destruct (now <? p_fail p); cbn [negb andb]; destruct (p_phase p); reflexivity.
Qed.
Lemma incl_len {A} (l l' : list A) : NoDup l -> incl l l' -> blen l <= blen l'.
Proof. intros N I. pose proof (NoDup_incl_length N I). unfold blen. lia. Qed.
Lemma probe_counts e s p : einv C e -> aget s (e_probes e) = Some p ->
  match p_phase p with
  | PhDirect _ => severity p = 1
  | PhIndirect x ps nb r d =>
    x = blen ps /\ NoDup ps /\ NoDup nb /\ incl nb ps /\ blen nb <= blen ps /\ p_kind p = PKDetection /\
    (blen ps < two32 -> severity p = if blen ps =? 0 then 1 else blen ps - blen nb) /\ severity p <= N.max 1 (blen ps)
  end.
Proof.
  intros I G. pose proof (ei_shape _ _ I _ _ G) as SH. unfold pshape, severity in *. destruct (p_phase p) as [|x ps nb r d]; [reflexivity|].
  destruct SH as (K & _ & -> & N1 & N2 & IN & _). pose proof (incl_len _ _ N2 IN).
  repeat (split; [assumption || reflexivity|]). split.
  - intros L. destruct (N.ltb_spec 0 (blen ps)), (N.eqb_spec (blen ps) 0); try lia. apply N.mod_small. lia.
  - destruct (N.ltb_spec 0 (blen ps)); [|lia]. pose proof (N.mod_le (blen ps - blen nb) two32 ltac:(discriminate)). lia.
Qed.

(** ** Sequence numbers *)
Lemma wadd32_step i b : wadd32 (wadd32 b i) 1 = wadd32 b (i + 1).
Proof. unfold wadd32. rewrite N.add_mod_idemp_l by discriminate. f_equal. lia. Qed.
Lemma seq_loop_none fuel s used : seq_loop fuel s used = None ->
  forall i, (i < fuel)%nat -> wadd32 s (N.of_nat i + 1) = 0 \/ used (wadd32 s (N.of_nat i + 1)) = true.
Proof.
  revert s. induction fuel as [|f IH]; cbn [seq_loop]; intros s H i Hi; [lia|]. cbv zeta in H.
  destruct (N.eqb_spec (wadd32 s 1) 0) as [E|E]; cbn [orb] in H.
  - destruct i as [|i]; [left; exact E|]. destruct (IH _ H i ltac:(lia)) as [X|X]; rewrite <- (N.add_comm 1) in X;
      replace (wadd32 (wadd32 s 1) (1 + N.of_nat i)) with (wadd32 s (N.of_nat (S i) + 1)) in X
        by (unfold wadd32; rewrite N.add_mod_idemp_l by discriminate; f_equal; lia); auto.
  - destruct (used (wadd32 s 1)) eqn:U; [|discriminate].
    destruct i as [|i]; [right; exact U|]. destruct (IH _ H i ltac:(lia)) as [X|X]; rewrite <- (N.add_comm 1) in X;
      replace (wadd32 (wadd32 s 1) (1 + N.of_nat i)) with (wadd32 s (N.of_nat (S i) + 1)) in X
        by (unfold wadd32; rewrite N.add_mod_idemp_l by discriminate; f_equal; lia); auto.
Qed.
(** pigeonhole: a window of distinct numbers cannot all be taken *)
Lemma seq_loop_some fuel s (taken : list N) used : (forall x, used x = true -> In x taken) ->
  (length taken + 1 < fuel)%nat -> N.of_nat (length taken) + 1 < two32 -> seq_loop fuel s used <> None.
Proof.
  intros U L B H. set (n := (length taken + 2)%nat).
  set (w := map (fun i => wadd32 s (N.of_nat i + 1)) (seq 0 n)).
  assert (NoDup w) as ND.
  { unfold w. apply nodup_map_in; [|apply seq_NoDup].
    intros i j Hi Hj E. apply in_seq in Hi, Hj. unfold wadd32 in E. unfold two32, n in *.
    pose proof (N.div_mod (s + (N.of_nat i + 1)) 4294967296 ltac:(discriminate)).
    pose proof (N.div_mod (s + (N.of_nat j + 1)) 4294967296 ltac:(discriminate)).
    rewrite E in *. 
    set (a := (s + (N.of_nat i + 1)) / 4294967296) in *. set (b := (s + (N.of_nat j + 1)) / 4294967296) in *. clearbody a b.
    assert (a = b) by lia. subst. lia. }
  assert (incl w (0 :: taken)) as IN.
  { intros x X. unfold w in X. apply in_map_iff in X as (i & <- & Hi). apply in_seq in Hi.
    destruct (seq_loop_none _ _ _ H i ltac:(unfold n in *; lia)) as [->|E]; [left; reflexivity|right; apply U, E]. }
  pose proof (NoDup_incl_length ND IN) as LE. unfold w, n in LE. rewrite map_length, seq_length in LE. cbn [length] in LE. lia.
Qed.
Lemma alloc_some e : einv C e -> blen (e_acks e) + 1 < two32 -> exists s e', alloc_seq e = Some (s, e').
Proof.
  intros I B. unfold alloc_seq. destruct (seq_loop _ _ _) as [s|] eqn:E; [eauto|]. exfalso. revert E.
  apply seq_loop_some with (taken := akeys (e_acks e)).
  - intros x U. unfold seq_used, ack_contains in U. destruct (aget x (e_acks e)) as [a|] eqn:A; [exact (aget_some_key _ _ _ A)|].
    pose proof (ei_reg _ _ I x) as R. unfold registered in R. rewrite A in R. destruct R as [P F].
    unfold ahas in U. rewrite A, P, F in U. discriminate.
  - unfold akeys. rewrite map_length. lia.
  - unfold akeys, blen in *. rewrite map_length. exact B.
Qed.

(** ** Round robin *)
Lemma scan_first t o : forall fuel idx p, blen t <> 0 -> (o < fuel)%nat ->
  nth_error t (N.to_nat ((idx + N.of_nat o) mod blen t)) = Some p -> probeable C p = true ->
  (forall o' q, (o' < o)%nat -> nth_error t (N.to_nat ((idx + N.of_nat o') mod blen t)) = Some q -> probeable C q = false) ->
  scan C fuel idx t = Some (fst p, (idx + N.of_nat o + 1) mod blen t).
Proof.
  induction o as [|o IH]; intros fuel idx p NZ F E P L.
  - destruct fuel as [|fuel]; [lia|]. cbn [scan]. cbv zeta. cbn [N.of_nat] in *. rewrite N.add_0_r in *. rewrite E, P.
    rewrite N.add_mod_idemp_l by exact NZ. reflexivity.
  - destruct fuel as [|fuel]; [lia|]. cbn [scan]. cbv zeta.
    assert (scan C fuel (idx + 1) t = Some (fst p, (idx + N.of_nat (S o) + 1) mod blen t)) as S.
    { replace (idx + N.of_nat (S o) + 1) with (idx + 1 + N.of_nat o + 1) by lia. apply IH; [exact NZ|lia| |exact P|].
      - rewrite <- E. do 3 f_equal. lia.
      - intros o' q O' Q. apply (L (S o') q); [lia|]. rewrite <- Q. do 3 f_equal. lia. }
    destruct (nth_error t (N.to_nat (idx mod blen t))) as [q|] eqn:Q; [|exact S].
    rewrite (L 0%nat q); [exact S|lia|]. cbn [N.of_nat]. rewrite N.add_0_r. exact Q.
Qed.
Lemma filter_first {A} (f : A -> bool) l x r : filter f l = x :: r ->
  exists o, nth_error l o = Some x /\ f x = true /\ (forall o' y, (o' < o)%nat -> nth_error l o' = Some y -> f y = false) /\
    filter f (skipn (S o) l) = r.
Proof.
  induction l as [|a l IH]; cbn [filter]; [discriminate|]. destruct (f a) eqn:F.
  - intros [= <- <-]. exists 0%nat. repeat split; auto. intros; lia.
  - intros H. destruct (IH H) as (o & E & X & L & R). exists (S o). repeat split; auto.
    intros [|o'] y O Y; [injection Y as <-; exact F|]. eapply L; [|exact Y]. lia.
Qed.
Lemma filter_nil_all {A} (f : A -> bool) l : filter f l = [] -> forall o y, nth_error l o = Some y -> f y = false.
Proof.
  intros H o y Y. destruct (f y) eqn:F; [|reflexivity]. apply nth_error_In in Y.
  assert (In y (filter f l)) as I by (apply filter_In; auto). rewrite H in I. destruct I.
Qed.
Lemma nth_skipn {A} (l : list A) i o : nth_error (skipn i l) o = nth_error l (i + o).
Proof. revert i. induction l as [|a l IH]; intros [|i]; cbn; auto. destruct o; reflexivity. Qed.
Lemma skipn_skipn' {A} (l : list A) i o : skipn o (skipn i l) = skipn (i + o) l.
Proof. revert i. induction l as [|a l IH]; intros [|i]; cbn [skipn Nat.add]; auto. destruct o; reflexivity. Qed.

(** the next target is the next live member after the cursor, from the front
    again when there is none *)
Lemma scan_next t c : (c < length t)%nat -> let L := filter (probeable C) t in
  match filter (probeable C) (skipn c t), L with
  | x :: r, _ => exists c', scan C (length t) (N.of_nat c) t = Some (fst x, N.of_nat c') /\
      ((c' < length t)%nat /\ filter (probeable C) (skipn c' t) = r \/ c' = 0%nat /\ r = [])
  | [], x :: r => exists c', scan C (length t) (N.of_nat c) t = Some (fst x, N.of_nat c') /\
      (c' < length t)%nat /\ filter (probeable C) (skipn c' t) = r
  | [], [] => True
  end.
Proof.
  intros LT L. assert (blen t <> 0) as NZ by (unfold blen; lia).
  assert (forall i, (i < length t)%nat -> N.to_nat (N.of_nat i mod blen t) = i) as MS
    by (intros i Hi; rewrite N.mod_small by (unfold blen; lia); lia).
  destruct (filter (probeable C) (skipn c t)) as [|x r] eqn:E.
  - destruct L as [|x r] eqn:EL; [exact Logic.I|]. unfold L in EL. destruct (filter_first _ _ _ _ EL) as (o & N & P & B & R).
    pose proof (filter_nil_all _ _ E) as NA.
    assert (nth_error t o <> None) as OL by congruence. apply nth_error_Some in OL.
    assert (o < c)%nat as OC.
    { destruct (Nat.le_gt_cases c o) as [G|]; [|assumption]. exfalso.
      specialize (NA (o - c)%nat x). rewrite nth_skipn in NA. replace (c + (o - c))%nat with o in NA by lia. rewrite NA in P; [discriminate|exact N]. }
    assert (forall j, (j < c)%nat -> (N.of_nat c + N.of_nat (length t - c + j)) mod blen t = N.of_nat j) as WR.
    { intros j J. replace (N.of_nat c + N.of_nat (length t - c + j)) with (N.of_nat j + 1 * blen t) by (unfold blen; lia).
      rewrite N.mod_add by exact NZ. apply N.mod_small. unfold blen. lia. }
    exists (S o). split.
    + rewrite (scan_first t (length t - c + o) (length t) (N.of_nat c) x NZ).
      * f_equal. f_equal. replace (N.of_nat c + N.of_nat (length t - c + o) + 1) with (N.of_nat (S o) + 1 * blen t) by (unfold blen; lia).
        rewrite N.mod_add by exact NZ. apply N.mod_small. unfold blen. lia.
      * lia.
      * rewrite WR, Nat2N.id by lia. exact N.
      * exact P.
      * intros o' q O' Q. destruct (Nat.lt_ge_cases o' (length t - c)) as [LO|GE].
        -- apply (NA o'). rewrite nth_skipn. rewrite <- Nat2N.inj_add, MS in Q by lia. exact Q.
        -- replace o' with (length t - c + (o' - (length t - c)))%nat in Q by lia. rewrite WR, Nat2N.id in Q by lia.
           eapply B; [|exact Q]. lia.
    + split; [lia|exact R].
  - destruct (filter_first _ _ _ _ E) as (o & N & P & B & R). rewrite nth_skipn in N. rewrite skipn_skipn' in R.
    assert (nth_error t (c + o) <> None) as OL by congruence. apply nth_error_Some in OL.
    assert (scan C (length t) (N.of_nat c) t = Some (fst x, (N.of_nat c + N.of_nat o + 1) mod blen t)) as SC.
    { apply scan_first; [exact NZ|lia| |exact P|].
      - rewrite <- Nat2N.inj_add, MS by lia. exact N.
      - intros o' q O' Q. rewrite <- Nat2N.inj_add, MS in Q by lia. eapply B; [exact O'|]. rewrite nth_skipn. exact Q. }
    replace (N.of_nat c + N.of_nat o + 1) with (N.of_nat (c + S o)) in SC by lia.
    destruct (Nat.eq_dec (c + S o) (length t)) as [W|W].
    + exists 0%nat. split.
      * rewrite SC. do 2 f_equal. rewrite W. apply N.mod_same. exact NZ.
      * right. split; [reflexivity|]. rewrite <- R, W, skipn_all. reflexivity.
    + exists (c + S o)%nat. split.
      * rewrite SC. do 2 f_equal. apply N.mod_small. unfold blen. lia.
      * left. split; [lia|exact R].
Qed.

(** probing [k] times in a row *)
Definition probed (e : ep) : option N := option_map (fun p => ns_id (p_target p)) (aget (e_seq e) (e_probes e)).
Fixpoint probe_round (times : list N) (e : ep) : list (option N) :=
  match times with
  | [] => []
  | now :: r => let e' := fst (ep_step C e (EStartProbe now)) in probed e' :: probe_round r e'
  end.
Lemma start_probe_exact now e id cur : einv C e -> runs e = true -> blen (e_acks e) + 1 < two32 ->
  scan C (length (k_mem (e_core e))) (e_pidx e) (k_mem (e_core e)) = Some (id, cur) ->
  let e' := start_probe C now e in
  probed e' = Some id /\ e_core e' = e_core e /\ e_pidx e' = cur /\ blen (e_acks e') = blen (e_acks e) + 1.
Proof.
  intros I R B S. cbv zeta. unfold start_probe. rewrite R. cbn [negb]. unfold next_target. rewrite S.
  apply scan_spec in S as (m & i & N & _ & _). apply nth_error_In in N.
  apply (aget_of_in _ _ _ (ki_nodup _ _ (ei_core _ _ I))) in N.
  change (k_mem (e_core (e_set_pidx cur e))) with (k_mem (e_core e)). rewrite N.
  assert (einv C (e_set_pidx cur e)) as I' by (destruct I; constructor; auto).
  destruct (alloc_some (e_set_pidx cur e) I' B) as (s & e1 & A). rewrite A. apply alloc_seq_spec in A as (-> & S0 & S1 & U).
  apply seq_used_false in U as (U1 & U2 & U3). cbn [e_acks e_set_pidx] in U3.
  cbv zeta. set (p := probe_new _ _ _ _ _ _ _). set (a := mkAck _ _ AKProbe). set (e2 := e_set_acks _ _).
  set (X := if pstate_eqb (m_state m) PSuspect then _ else _).
  assert (e_core (fst X) = e_core e /\ e_probes (fst X) = e_probes e2 /\ e_seq (fst X) = s /\ e_pidx (fst X) = cur /\ e_acks (fst X) = e_acks e2) as (E1 & E2 & E3 & E4 & E5).
  { unfold X, push_fit. destruct (pstate_eqb _ _); repeat (match goal with |- context [if ?b then _ else _] => destruct b end); repeat split. }
  destruct X as [e3 sent]. cbn [fst] in *. unfold probed. cbn [e_seq e_probes e_core e_pidx e_acks e_set_probes].
  rewrite E1, E3, E4, E5, aget_aset_eq. cbn. split; [|repeat split].
  - f_equal. apply (ki_rec _ _ (ei_core _ _ I) id m N).
  - change (ack_register s a (e_acks e)) with (aset s a (e_acks e)). apply blen_aset_new. exact U3.
Qed.
Lemma firstn_more {A} k (r : list A) L : L <> [] -> firstn k (r ++ concat (repeat L (S k))) = firstn k (r ++ concat (repeat L k)).
Proof.
  intros NE. replace (S k) with (k + 1)%nat by lia. rewrite repeat_app, concat_app, app_assoc.
  rewrite firstn_app. assert (length (concat (repeat L k)) >= k)%nat as G.
  { clear r. induction k as [|k IH]; [cbn; lia|]. cbn [repeat concat]. rewrite app_length. destruct L; [congruence|]. cbn [length]. lia. }
  replace (k - length (r ++ concat (repeat L k)))%nat with 0%nat by (rewrite app_length; lia). cbn [firstn]. apply app_nil_r.
Qed.
Lemma probe_round_spec times : forall e c, einv C e -> runs e = true -> blen (e_acks e) + blen times + 1 < two32 ->
  let t := k_mem (e_core e) in let L := map fst (filter (probeable C) t) in
  L <> [] -> e_pidx e = N.of_nat c -> (c < length t)%nat ->
  probe_round times e = map Some (firstn (length times) (map fst (filter (probeable C) (skipn c t)) ++ concat (repeat L (length times)))).
Proof.
  induction times as [|now times IH]; intros e c I R B t L NE P LT; [reflexivity|].
  cbn [probe_round length]. cbn [ep_step fst]. set (e' := start_probe C now e).
  assert (blen times + 1 = blen (now :: times)) as BT by (unfold blen; cbn [length]; lia).
  pose proof (scan_next t c LT) as S. cbv zeta in S.
  assert (forall id c', scan C (length t) (N.of_nat c) t = Some (id, N.of_nat c') ->
    probed e' = Some id /\ e_core e' = e_core e /\ e_pidx e' = N.of_nat c' /\ blen (e_acks e') = blen (e_acks e) + 1) as X.
  { intros id c' E. apply start_probe_exact; [exact I|exact R|lia|]. rewrite P. exact E. }
  assert (einv C e') as I' by (exact (einv_op C e (EStartProbe now) I)).
  assert (forall id c', scan C (length t) (N.of_nat c) t = Some (id, N.of_nat c') -> (c' < length t)%nat ->
    probe_round times e' = map Some (firstn (length times) (map fst (filter (probeable C) (skipn c' t)) ++ concat (repeat L (length times))))) as Y.
  { intros id c' E LT'. destruct (X id c' E) as (_ & EC & EP & EA).
    specialize (IH e' c' I'). cbv zeta in IH. rewrite EC in IH. apply IH; auto.
    - unfold runs in *. rewrite EC. exact R.
    - rewrite EA. lia. }
  assert (L = map fst (filter (probeable C) t)) as LE by reflexivity. clearbody L.
  destruct (filter (probeable C) (skipn c t)) as [|x r] eqn:E.
  - destruct (filter (probeable C) t) as [|x r] eqn:EL; [exfalso; apply NE; exact LE|].
    destruct S as (c' & S & LT' & F). destruct (X _ _ S) as (-> & _). rewrite (Y _ _ S LT'), F.
    cbn [map app repeat concat]. rewrite LE at 2. cbn [map app firstn]. reflexivity.
  - destruct S as (c' & S & [[LT' F]|[-> ->]]).
    + destruct (X _ _ S) as (-> & _). rewrite (Y _ _ S LT'), F. cbn [map app firstn].
      f_equal. f_equal. symmetry. apply firstn_more. exact NE.
    + destruct (X _ _ S) as (-> & _). rewrite (Y _ _ S ltac:(lia)). cbn [skipn]. cbn [map app firstn].
      f_equal. f_equal. cbn [repeat concat]. rewrite <- LE. reflexivity.
Qed.

(** ** Answering pings *)
Lemma ping_exact from q src tgt now e : runs e = true ->
  fst (ep_step C e (EPacket from (MPing q src tgt) now)) =
  if nd_id tgt =? LID then
    push (TPacket from (MAck q
      (if c_ack_members_only C
       then match aget (nd_id src) (k_mem (e_core e)) with
            | Some m => if ns_addr (m_server m) =? from then e_payload e else []
            | None => []
            end
       else e_payload e))) e
  else e.
Proof.
  intros R. cbn [ep_step fst]. unfold handle_packet. rewrite R. cbn [negb]. unfold handle_ping.
  destruct (nd_id tgt =? LID); cbn [negb]; [|reflexivity]. cbv zeta. destruct (c_ack_members_only C); cbn [negb orb]; [|reflexivity].
  destruct (aget (nd_id src) (k_mem (e_core e))) as [m|]; [destruct (_ =? from)|]; reflexivity.
Qed.

(** ** Relays *)
Lemma relay_ack e from q payload now f : einv C e -> aget q (e_fwds e) = Some f -> runs e = true ->
  handle_ack C from q payload now e =
    if (from =? f_target f) && (now <? f_deadline f)
    then push (TPacket (f_reply f) (MAck (f_rseq f) payload)) (e_set_acks (adel q (e_acks e)) (e_set_fwds (adel q (e_fwds e)) e))
    else e.
Proof.
  intros I G R. pose proof (ei_reg _ _ I q) as Q. unfold registered, handle_ack, ack_get in *.
  destruct (aget q (e_acks e)) as [a|]; [|destruct Q; congruence]. destruct Q as (_ & _ & Q).
  destruct (a_kind a) as [|r|]; [destruct Q; congruence| |destruct Q; congruence].
  destruct Q as ((f' & G' & E) & _). rewrite G in G'. injection G' as <-. subst r.
  unfold ack_source_valid. rewrite G. rewrite (N.eqb_sym from), (N.ltb_antisym (f_deadline f) now).
  destruct (_ =? from); cbn [negb andb]; [|reflexivity]. destruct (_ <=? now); cbn [negb]; [reflexivity|].
  cbn [e_fwds e_set_acks]. rewrite G. reflexivity.
Qed.
End Facts.
