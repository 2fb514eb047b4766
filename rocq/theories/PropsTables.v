(** Properties C24-C26: the deadline index, the member table and the ack
    registry. *)
From Coq Require Import Sorting.Permutation.
From Verif Require Import Base BaseFacts MapModel MapFacts DeadlineModel DeadlineFacts MembersModel MembersFacts AckModel AckFacts MsgModel CoreModel MembersRefine.
Local Open Scope N_scope.

(** * C24 *)
(** The deadline a key holds after a history, read from the history alone
    (newest operation first): [last_set] in DeadlineFacts. *)
Theorem C24_earliest_exact : forall os,
  match di_earliest (di_run os) with
  | Some d => (exists k, last_set (rev os) k = Some d) /\
              forall k d', last_set (rev os) k = Some d' -> d <= d'
  | None => forall k, last_set (rev os) k = None
  end.
Proof. exact earliest_exact. Qed.
Print Assumptions C24_earliest_exact.
Definition di_ex := [DSet 1 (Some 50); DSet 2 (Some 40); DSet 1 (Some 30); DSet 3 (Some 30); DSet 1 None; DSet 2 (Some 90)].
Example C24_earliest_exact_ex :
  di_earliest (di_run di_ex) = Some 30 /\ last_set (rev di_ex) 3 = Some 30 /\
  last_set (rev di_ex) 1 = None /\ last_set (rev di_ex) 2 = Some 90 /\
  di_earliest (di_run (di_ex ++ [DSet 3 None])) = Some 90 /\
  di_earliest (di_run (di_ex ++ [DClear])) = None.
Proof. vm_compute. repeat split. Qed.

(** The index is empty exactly when nothing is registered. *)
Theorem C24_is_empty : forall os,
  di_is_empty (di_run os) = true <-> forall k, last_set (rev os) k = None.
Proof.
  intros os. pose proof (earliest_exact os) as H. unfold di_earliest, di_is_empty in *.
  destruct (di_by (di_run os)) as [|[[d s] k] l]; [tauto|]. split; [discriminate|].
  intros C. destruct H as [(k0 & E) _]. rewrite C in E. discriminate.
Qed.
Print Assumptions C24_is_empty.
Example C24_is_empty_ex : di_is_empty (di_run di_ex) = false /\
  di_is_empty (di_run (di_ex ++ [DSet 3 None; DSet 2 None])) = true.
Proof. vm_compute. split; reflexivity. Qed.

(** No stale entry stays behind: the ordered map holds one entry per
    registered key, however often its deadline was changed. *)
Theorem C24_no_stale_entries : forall os,
  blen (di_by (di_run os)) = blen (di_cur (di_run os)) /\
  NoDup (akeys (di_cur (di_run os))) /\
  forall k, In k (akeys (di_cur (di_run os))) <-> last_set (rev os) k <> None.
Proof.
  intros os. split; [apply no_tombstones|]. split; [apply nodup_cur|]. intros k.
  pose proof (run_cur os k) as E. destruct (aget k (di_cur (di_run os))) as [x|] eqn:G; cbn [option_map] in E.
  - rewrite <- E. split; [discriminate|]. intros _. eapply aget_some_key, G.
  - rewrite <- E. split; [|congruence]. intros C. apply aget_none in G. contradiction.
Qed.
Print Assumptions C24_no_stale_entries.
Example C24_no_stale_entries_ex : blen (di_by (di_run di_ex)) = 2.
Proof. reflexivity. Qed.

(** * C25 *)
(** The table as a function from id to member, read from the history alone. *)
Definition table_after {V} (os : list (ms_op V)) : N -> option V := fold_left ms_spec_step os (fun _ => None).

Lemma table_run {V} (os : list (ms_op V)) :
  exists M, ms_run ms_new os = Some M /\ ms_ok M /\ repr M (table_after os).
Proof. apply run_ok; [apply ms_ok_new|]. intros id v. cbn. split; [tauto|discriminate]. Qed.

(** No history panics; a lookup finds exactly what the history stored. *)
Theorem C25_lookup_last_stored : forall V (os : list (ms_op V)),
  exists M, ms_run ms_new os = Some M /\
    forall id x, ms_get id M = Some x <-> (fst x = id /\ table_after os id = Some (snd x)).
Proof.
  intros V os. destruct (table_run os) as (M & E & O & R). exists M. split; [exact E|].
  intros id [k v]. rewrite (get_in M id _ O), (R k v). cbn [fst snd]. split; intros [A B]; subst; tauto.
Qed.
Print Assumptions C25_lookup_last_stored.
Definition ms_ex : list (ms_op N) :=
  [MInsert 1 10; MInsertAt 2 20 0; MInsertAt 3 30 1; MShuffle [7; 5]; MRemove 2; MInsert 4 40; MInsert 1 11; MUpdate 3 31; MInsertAt 5 50 2].
Example C25_lookup_last_stored_ex :
  option_map (fun M => (ms_get 1 M, ms_get 2 M, ms_get 3 M, ms_get 5 M, ms_nodes M)) (ms_run ms_new ms_ex)
  = Some (Some (1, 11), None, Some (3, 31), Some (5, 50), [(1, 11); (3, 31); (5, 50); (4, 40)]).
Proof. vm_compute. reflexivity. Qed.

(** Membership, lookup and length agree; the iteration order lists every
    member exactly once. *)
Theorem C25_iteration_is_content : forall V (os : list (ms_op V)) M, ms_run ms_new os = Some M ->
  NoDup (map fst (ms_nodes M)) /\
  (forall id v, In (id, v) (ms_nodes M) <-> table_after os id = Some v) /\
  (forall id, ms_contains id M = true <-> table_after os id <> None) /\
  (forall l, NoDup l -> (forall id, In id l <-> table_after os id <> None) ->
             Permutation l (map fst (ms_nodes M)) /\ ms_len M = blen l).
Proof.
  intros V os M E. destruct (table_run os) as (M' & E' & O & R). rewrite E in E'. injection E' as <-.
  split; [apply O|]. split; [exact R|]. split.
  - intros id. unfold ms_contains. rewrite (has_in M id O). apply repr_in; assumption.
  - intros l ND H.
    assert (Permutation l (map fst (ms_nodes M))) as P.
    { apply NoDup_Permutation; [exact ND|apply O|]. intros id. rewrite H. symmetry. apply (repr_in M _ id O R). }
    split; [exact P|]. apply Permutation_length in P. rewrite map_length in P. unfold ms_len, blen. congruence.
Qed.
Print Assumptions C25_iteration_is_content.
Example C25_iteration_is_content_ex :
  option_map (fun M => (map fst (ms_nodes M), ms_len M)) (ms_run ms_new ms_ex) = Some ([1; 3; 5; 4], 4) /\
  table_after ms_ex 2 = None /\ table_after ms_ex 4 = Some 40.
Proof. vm_compute. repeat split. Qed.

(** What [remove] returns is the member that was stored. *)
Theorem C25_remove_returns_stored : forall V (os : list (ms_op V)) M id, ms_run ms_new os = Some M ->
  snd (ms_remove id M) = option_map (pair id) (table_after os id) /\
  table_after (os ++ [MRemove id]) id = None.
Proof.
  intros V os M id E. destruct (table_run os) as (M' & E' & O & R). rewrite E in E'. injection E' as <-.
  pose proof (remove_ok M id O) as RM. destruct (ms_remove id M) as [M1 r]. destruct RM as (_ & -> & _). cbn [snd]. split.
  - destruct (ms_get id M) as [[k v]|] eqn:G.
    + apply (get_in M id _ O) in G. cbn [fst] in G. destruct G as [G ->]. apply R in G. rewrite G. reflexivity.
    + destruct (table_after os id) as [v|] eqn:T; [|reflexivity]. apply R in T.
      assert (ms_get id M = Some (id, v)) by (apply (get_in M id _ O); auto). congruence.
  - unfold table_after. rewrite fold_left_app. cbn. rewrite N.eqb_refl. reflexivity.
Qed.
Print Assumptions C25_remove_returns_stored.
Example C25_remove_returns_stored_ex :
  option_map (fun M => (snd (ms_remove 3 M), map fst (ms_nodes (fst (ms_remove 3 M))), ms_map (fst (ms_remove 3 M)))) (ms_run ms_new ms_ex)
  = Some (Some (3, 31), [1; 5; 4], [(4, 2); (5, 1); (1, 0)]).
Proof. vm_compute. reflexivity. Qed.

(** The vector behind the table behaves as a plain list of members: each call
    changes the iteration order exactly as the list function of [CoreModel]
    says, so that the list used there for the member table is this container
    and not an idealisation of it. *)
Theorem C25_list_behaviour : forall (os : list (ms_op member)) M, ms_run ms_new os = Some M ->
  (forall id, ms_get id M = option_map (pair id) (aget id (ms_nodes M))) /\
  (forall id v, ms_nodes (ms_update id v M) = mt_upd id (fun _ => v) (ms_nodes M)) /\
  (forall id, ms_nodes (fst (ms_remove id M)) = filter (fun p => negb (fst p =? id)) (ms_nodes M)) /\
  (forall id v off, ms_contains id M = false -> off <= ms_len M ->
     option_map ms_nodes (ms_insert_at id v off M) = Some (mt_insert off id v (ms_nodes M))) /\
  (forall draw, option_map ms_nodes (ms_shuffle (draws_from draw (Nat.pred (length (ms_nodes M)))) M)
     = Some (shuffle draw (ms_nodes M))).
Proof.
  intros os M E. destruct (table_run os) as (M' & E' & O & R). rewrite E in E'. injection E' as <-.
  split; [intros; apply get_list, O|]. split; [intros; apply update_list, O|]. split.
  { intros id. rewrite (remove_list M id O). induction (ms_nodes M) as [|[k v] l IH]; cbn; [reflexivity|].
    rewrite (N.eqb_sym k id). destruct (id =? k); cbn [negb]; [exact IH|f_equal; exact IH]. }
  split; [|intros; apply shuffle_list, O].
  intros id v off H L. apply insert_list; [exact O| |exact L].
  intros C. apply (has_in M id O) in C. unfold ms_contains in H. congruence.
Qed.
Print Assumptions C25_list_behaviour.
Definition ms_ex_m : list (ms_op member) :=
  let m g := mkM (mkNS g 7 PAlive [] 1 1) 1 0 PAlive None g in
  [MInsert 1 (m 1); MInsertAt 2 (m 2) 0; MInsertAt 3 (m 3) 1; MInsertAt 4 (m 4) 1; MRemove 3].
Example C25_list_behaviour_ex :
  option_map (fun M => (map fst (ms_nodes M), option_map (fun M => map fst (ms_nodes M)) (ms_shuffle [7; 5] M),
     map fst (shuffle (fun i => match i with 2%nat => 7 | _ => 5 end) (ms_nodes M)))) (ms_run ms_new ms_ex_m)
  = Some ([2; 4; 1], Some [2; 1; 4], [2; 1; 4]).
Proof. vm_compute. reflexivity. Qed.

(** * C26 *)
(** Over any history a sequence number is handed out (by an ack, a removal or
    an expiry) at most as often as it was registered. *)
Theorem C26_at_most_once : forall seq os, Forall fair_op os ->
  resolutions seq (snd (ack_run [] os)) + pending seq (fst (ack_run [] os)) <= registers seq os.
Proof. intros seq os H. exact (run_ack seq os H [] (NoDup_nil _)). Qed.
Print Assumptions C26_at_most_once.
Definition ack_ex : list ack_op :=
  [ARegister 1 (mkAck 0 100 AKProbe); ARegister 2 (mkAck 0 80 AKPing); ARegister 3 (mkAck 0 90 (AKForward 7));
   AHandle 1; AHandle 1; APoll 95 (@rev _); ARemove 2; ARegister 1 (mkAck 5 70 AKPing); APoll 95 (fun l => l); AHandle 1].
Example C26_at_most_once_ex : Forall fair_op ack_ex /\
  snd (ack_run [] ack_ex) = [(1, mkAck 0 100 AKProbe); (2, mkAck 0 80 AKPing); (1, mkAck 5 70 AKPing)] /\
  registers 1 ack_ex = 2 /\ resolutions 1 (snd (ack_run [] ack_ex)) = 2.
Proof.
  split; [|vm_compute; repeat split]. unfold ack_ex. repeat constructor; cbn; auto using Permutation_sym, Permutation_rev.
Qed.

Lemma nodup_run os : Forall fair_op os -> forall R, NoDup (akeys R) -> NoDup (akeys (fst (ack_run R os))).
Proof.
  induction 1 as [|o os HF _ IH]; intros R ND; cbn [ack_run]; [exact ND|].
  destruct (step_ack R o ND HF) as [ND1 _]. destruct (ack_step R o) as [R1 x]. cbn [fst] in ND1.
  specialize (IH R1 ND1). destruct (ack_run R1 os) as [R2 l]. exact IH.
Qed.
(** The entry a history leaves pending for [seq]: the last one registered,
    unless a later operation resolved [seq]. *)
Definition last_registered (seq : N) (os : list ack_op) : option ack_entry :=
  fold_left (fun acc o => match o with ARegister s e => if s =? seq then Some e else acc | _ => acc end) os None.
Theorem C26_pending_is_last_registered : forall seq os e, Forall fair_op os ->
  aget seq (fst (ack_run [] os)) = Some e -> last_registered seq os = Some e.
Proof.
  intros seq os e HF.
  enough (forall R acc, NoDup (akeys R) -> (forall e, aget seq R = Some e -> acc = Some e) ->
          aget seq (fst (ack_run R os)) = Some e ->
          fold_left (fun acc o => match o with ARegister s e => if s =? seq then Some e else acc | _ => acc end) os acc = Some e) as G.
  { apply (G [] None (NoDup_nil _)). discriminate. }
  induction HF as [|o os Ho _ IH]; intros R acc ND HA; cbn [ack_run fold_left]; [intros E; apply HA, E|].
  destruct (step_ack R o ND Ho) as [ND1 S]. specialize (S seq).
  destruct (ack_step R o) as [R1 x] eqn:ES. cbn [fst snd] in *.
  specialize (IH R1 (match o with ARegister s e0 => if s =? seq then Some e0 else acc | _ => acc end) ND1).
  destruct (ack_run R1 os) as [R2 l]. cbn [fst] in *. apply IH. intros e0 E0.
  destruct x as [[s w]|].
  - destruct S as (Es & Es1 & Es2). destruct (N.eq_dec s seq) as [->|Hs]; [congruence|].
    rewrite Es2 in E0 by exact Hs. apply HA in E0. destruct o as [s' e'| | |]; try exact E0.
    cbn [ack_step] in ES. discriminate.
  - destruct S as [(e' & ->)|S].
    + rewrite N.eqb_refl. cbn [ack_step] in ES. injection ES as <-. unfold ack_register in E0. rewrite aget_aset_eq in E0. exact E0.
    + destruct o as [s' e'| | |]; try (rewrite S in E0; apply HA, E0).
      destruct (N.eqb_spec s' seq) as [->|]; [|rewrite S in E0; apply HA, E0].
      cbn [ack_step] in ES. injection ES as <-. unfold ack_register in E0. rewrite aget_aset_eq in E0. exact E0.
Qed.
Print Assumptions C26_pending_is_last_registered.
Example C26_pending_is_last_registered_ex :
  aget 3 (fst (ack_run [] ack_ex)) = Some (mkAck 0 90 (AKForward 7)) /\ last_registered 3 ack_ex = Some (mkAck 0 90 (AKForward 7)).
Proof. vm_compute. split; reflexivity. Qed.

(** An ack after the sequence number was consumed, removed or expired matches
    nothing until it is registered again. *)
Theorem C26_no_second_match : forall seq os1 os2 o, Forall fair_op (os1 ++ o :: os2) ->
  (match snd (ack_step (fst (ack_run [] os1)) o) with Some (s, _) => s = seq | None => False end) ->
  registers seq os2 = 0 ->
  ack_handle seq (fst (ack_run [] (os1 ++ o :: os2))) = (fst (ack_run [] (os1 ++ o :: os2)), None).
Proof.
  intros seq os1 os2 o HF HS HR.
  assert (forall R a b, fst (ack_run R (a ++ b)) = fst (ack_run (fst (ack_run R a)) b)) as RA.
  { intros R a. revert R. induction a as [|x a IH]; intros R b; cbn [app ack_run]; [reflexivity|].
    destruct (ack_step R x) as [R1 y]. specialize (IH R1 b). destruct (ack_run R1 a), (ack_run R1 (a ++ b)). exact IH. }
  apply Forall_app in HF. destruct HF as [F1 F2]. inversion F2 as [|? ? Fo F3]; subst.
  rewrite RA. set (R := fst (ack_run [] os1)) in *.
  assert (NoDup (akeys R)) as ND by (apply nodup_run; [exact F1|constructor]).
  destruct (step_ack R o ND Fo) as [ND1 S]. specialize (S seq). cbn [ack_run].
  destruct (ack_step R o) as [R1 [[s w]|]]; cbn [fst snd] in *; [|contradiction]. subst s.
  destruct S as (_ & S & _). pose proof (run_ack seq os2 F3 R1 ND1) as B.
  destruct (ack_run R1 os2) as [R2 l]. cbn [fst snd] in *. unfold pending in B. rewrite S in B.
  destruct (aget seq R2) eqn:E; [lia|]. unfold ack_handle. rewrite E, adel_none by exact E. reflexivity.
Qed.
Print Assumptions C26_no_second_match.
Example C26_no_second_match_ex : snd (ack_handle 2 (fst (ack_run [] (firstn 8 ack_ex)))) = None /\
  registers 2 (skipn 6 ack_ex) = 0 /\ snd (ack_step (fst (ack_run [] (firstn 5 ack_ex))) (APoll 95 (@rev _))) = Some (2, mkAck 0 80 AKPing).
Proof. vm_compute. repeat split. Qed.

(** Expiry takes an entry with the earliest deadline, only if that deadline
    is due, whatever the iteration order of the hash map. *)
Theorem C26_expiry_earliest_due : forall os now it, Forall fair_op os ->
  let R := fst (ack_run [] os) in Permutation it R ->
  match ack_poll_expired now it R with
  | (R', Some (seq, e)) =>
      aget seq R = Some e /\ a_deadline e <= now /\
      (forall s e', aget s R = Some e' -> a_deadline e <= a_deadline e') /\
      aget seq R' = None /\ (forall s, s <> seq -> aget s R' = aget s R)
  | (R', None) => R' = R /\ forall s e', aget s R = Some e' -> now < a_deadline e'
  end.
Proof.
  intros os now it HF R P. pose proof (poll_spec now it R (nodup_run os HF [] (NoDup_nil _)) P) as H.
  destruct (ack_poll_expired now it R) as [R' [[s e]|]]; [|exact H]. destruct H as (E & L & -> & M).
  repeat split; auto using aget_adel_eq, aget_adel_ne.
Qed.
Print Assumptions C26_expiry_earliest_due.
Example C26_expiry_earliest_due_ex :
  snd (ack_poll_expired 95 (rev (fst (ack_run [] (firstn 3 ack_ex)))) (fst (ack_run [] (firstn 3 ack_ex)))) = Some (2, mkAck 0 80 AKPing) /\
  snd (ack_poll_expired 79 (fst (ack_run [] (firstn 3 ack_ex))) (fst (ack_run [] (firstn 3 ack_ex)))) = None.
Proof. vm_compute. split; reflexivity. Qed.

(** [next_deadline] is the minimum of the pending deadlines. *)
Theorem C26_next_deadline_min : forall os, Forall fair_op os ->
  let R := fst (ack_run [] os) in
  match ack_next_deadline R with
  | Some d => (exists s e, aget s R = Some e /\ a_deadline e = d) /\ forall s e, aget s R = Some e -> d <= a_deadline e
  | None => forall s, aget s R = None
  end.
Proof.
  intros os HF R. pose proof (nodup_run os HF [] (NoDup_nil _)) as ND. fold R in ND. unfold ack_next_deadline.
  pose proof (min_deadline_spec R) as M. destruct (min_deadline R) as [[s e]|]; cbn [option_map].
  - destruct M as [Hi HM]. split; [exists s, e; split; [apply aget_of_in; assumption|reflexivity]|].
    intros s' e' E. apply aget_in in E. exact (HM _ E).
  - intros s. rewrite M. reflexivity.
Qed.
Print Assumptions C26_next_deadline_min.
Example C26_next_deadline_min_ex : ack_next_deadline (fst (ack_run [] (firstn 3 ack_ex))) = Some 80.
Proof. reflexivity. Qed.
