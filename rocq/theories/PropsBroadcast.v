(** Properties C20-C23 and C61: the gossip queue.  The queue is generic in the
    implementor [I] of the [Broadcast] trait; lengths fit a [u64] ([len_ok]).
    Histories are shorter than 2^64 where the 64-bit insertion counter
    matters. *)
From Coq Require Import Sorting.Sorted Sorting.Permutation.
From Verif Require Import Base BaseFacts MapModel MapFacts BroadcastModel BroadcastFacts BroadcastInv BroadcastHist.
Local Open Scope N_scope.

(** Running example: messages about nodes; the message is its own length. *)
Definition exI := memberlist_broadcast (fun m : N => N.min m 1000).
Definition ex_ops : list (bq_op (N * N)) :=
  [OQueue (1, 40); OQueue (2, 60); OQueue (3, 50); OTake 3 2 100; OQueue (1, 30)].
Definition ex_Q := fst (bq_run exI bq_new ex_ops).
Lemma exI_len_ok : len_ok exI.
Proof. intros [k m]. cbn. unfold u64_max. lia. Qed.

Lemma reach_ok {B} (I : bcast_impl B) os : len_ok I -> blen os <= u64_max ->
  let Q := fst (bq_run I bq_new os) in wfq I Q /\ ids Q /\ bq_gen Q <= blen os.
Proof.
  intros HL H. destruct (run_summary I os HL bq_new (wfq_new I) ids_new ltac:(cbn [bq_new bq_gen]; lia)) as (W & D & G & _).
  auto.
Qed.

(** C20: at most one queued broadcast per id, whatever happened before. *)
Theorem C20_one_per_node : forall B (I : bcast_impl B) os k x y, len_ok I ->
  let q := bq_q (fst (bq_run I bq_new os)) in
  NoDup q /\ (In x q -> In y q -> b_id I (i_b x) = Some k -> b_id I (i_b y) = Some k -> x = y).
Proof.
  intros B I os k x y HL q. pose proof (wfq_run I os HL bq_new (wfq_new I)) as W. split.
  - apply sorted_nodup, W.
  - intros. eapply agree_key; eauto. apply W.
Qed.
Print Assumptions C20_one_per_node.
Example C20_one_per_node_ex : map i_b (bq_q ex_Q) = [(3, 50); (1, 30); (2, 60)] /\ map i_tr (bq_q ex_Q) = [0; 0; 1].
Proof. split; vm_compute; reflexivity. Qed.

(** C20: the new broadcast is queued with transmit count zero, every queued
    broadcast it does not supersede is untouched, and nothing else remains. *)
Theorem C20_newer_replaces : forall B (I : bcast_impl B) os b x, len_ok I -> blen os < u64_max ->
  let Q := fst (bq_run I bq_new os) in
  let Q' := queue_broadcast I b Q in
  In x (bq_q Q') <->
  x = mkItem 0 (b_len I b) (bq_gen Q') b \/ (In x (bq_q Q) /\ superseded I b (i_b x) = false).
Proof.
  intros B I os b x HL H Q Q'. destruct (reach_ok I os HL ltac:(lia)) as (W & D & G).
  apply (queue_summary I b Q W D); fold Q in G; lia.
Qed.
Print Assumptions C20_newer_replaces.
(** For membership broadcasts "supersedes" means: about the same node. *)
Theorem C20_supersedes_same_node : forall M (mlen : M -> N) b old,
  superseded (memberlist_broadcast mlen) b old = true <-> fst b = fst old.
Proof. intros M mlen b old. unfold superseded. cbn. apply N.eqb_eq. Qed.
Print Assumptions C20_supersedes_same_node.
Example C20_newer_replaces_ex :
  In (2, 60) (map i_b (bq_q ex_Q)) /\ ~ In (2, 60) (map i_b (bq_q (queue_broadcast exI (2, 61) ex_Q))) /\
  In (2, 61) (map i_b (bq_q (queue_broadcast exI (2, 61) ex_Q))).
Proof. vm_compute. intuition congruence. Qed.

(** C20: a superseded broadcast is never handed out again. *)
Theorem C20_superseded_never_sent : forall B (I : bcast_impl B) os b old os', len_ok I -> blen os < u64_max ->
  superseded I b old = true -> b <> old -> ~ In (OQueue old) os' ->
  ~ In old (snd (bq_run I (queue_broadcast I b (fst (bq_run I bq_new os))) os')).
Proof.
  intros B I os b old os' HL H Hs Hb Ho. destruct (reach_ok I os HL ltac:(lia)) as (W & D & G).
  apply (run_from_queue I os' old HL); [apply wfq_queue; [apply HL|assumption]| |exact Ho].
  intros C. apply in_map_iff in C. destruct C as (x & Ex & Hx).
  apply (C20_newer_replaces B I os b x HL H) in Hx. destruct Hx as [->|[_ Hx]]; [cbn in Ex; congruence|].
  rewrite Ex in Hx. congruence.
Qed.
Print Assumptions C20_superseded_never_sent.
Example C20_superseded_never_sent_ex :
  superseded exI (2, 61) (2, 60) = true /\
  snd (bq_run exI (queue_broadcast exI (2, 61) ex_Q) [OTake 3 2 1000; OTake 3 2 1000]) =
  [(2, 61); (3, 50); (1, 30); (2, 61); (3, 50); (1, 30)].
Proof. split; vm_compute; reflexivity. Qed.

(** C21: the charge is exactly the bytes of the batch including overhead, and
    it is within the budget; the batch is a part of the queue (no broadcast
    twice); whatever is not in it would not have fitted in the budget left. *)
Theorem C21_batch_within_budget : forall B (I : bcast_impl B) os lim ov limit, len_ok I ->
  let Q := fst (bq_run I bq_new os) in
  let '(Q', sent, used) := take_broadcasts_measured I lim ov limit Q in
  used = cost I ov sent /\ used <= limit /\
  exists rest, Permutation (map i_b (bq_q Q)) (sent ++ rest) /\
    forall b, In b rest -> limit < used + (b_len I b + ov).
Proof. intros B I os lim ov limit HL Q. apply batch_spec, wfq_run; [exact HL|apply wfq_new]. Qed.
Print Assumptions C21_batch_within_budget.
Example C21_batch_within_budget_ex :
  snd (fst (take_broadcasts_measured exI 3 2 90 ex_Q)) = [(3, 50); (1, 30)] /\
  snd (take_broadcasts_measured exI 3 2 90 ex_Q) = 84.
Proof. split; vm_compute; reflexivity. Qed.

(** C21: whatever is not handed out stays queued, untouched. *)
Theorem C21_unsent_stays_queued : forall B (I : bcast_impl B) os lim ov limit x, len_ok I -> blen os <= u64_max ->
  let Q := fst (bq_run I bq_new os) in
  let '(Q', sent, used) := take_broadcasts_measured I lim ov limit Q in
  In x (bq_q Q) -> In x (bq_q Q') \/ In (i_b x) sent.
Proof.
  intros B I os lim ov limit x HL H Q. destruct (reach_ok I os HL H) as (W & D & G).
  pose proof (batch_keeps I lim ov limit Q W D) as K.
  destruct (take_broadcasts_measured I lim ov limit Q) as [[Q' sent] used]. exact (K x).
Qed.
Print Assumptions C21_unsent_stays_queued.
Example C21_unsent_stays_queued_ex :
  map i_b (bq_q (fst (fst (take_broadcasts_measured exI 3 2 90 ex_Q)))) = [(2, 60); (3, 50); (1, 30)].
Proof. vm_compute; reflexivity. Qed.

(** C21: over any history in which it is queued once, a broadcast is handed
    out at most as often as the largest limit in force (at least once). *)
Theorem C21_at_most_limit : forall B (I : bcast_impl B) (Beq : forall a b : B, {a = b} + {a <> b}) b L os1 os2,
  len_ok I -> 1 <= L -> L <= u32_max ->
  (forall o, In o (os1 ++ OQueue b :: os2) -> op_lim o <= L) ->
  ~ In (OQueue b) os1 -> ~ In (OQueue b) os2 ->
  blen (os1 ++ OQueue b :: os2) <= u64_max ->
  N.of_nat (count_occ Beq (snd (bq_run I bq_new (os1 ++ OQueue b :: os2))) b) <= L.
Proof. intros B I Beq b L os1 os2. exact (handed_at_most I Beq b L os1 os2). Qed.
Print Assumptions C21_at_most_limit.
Example C21_at_most_limit_ex :
  snd (bq_run exI bq_new ([] ++ OQueue (1, 40) :: [OTake 3 2 100; OTake 3 2 100; OTakeOne 3 100; OTake 3 2 100])) =
  [(1, 40); (1, 40); (1, 40)].
Proof. vm_compute; reflexivity. Qed.

(** C21: a lone broadcast is the first in queue order that fits, and its
    length is what the peek reports. *)
Theorem C21_take_one_is_first_fitting : forall B (I : bcast_impl B) os lim limit, len_ok I ->
  let Q := fst (bq_run I bq_new os) in
  snd (take_one_broadcast I lim limit Q) = option_map i_b (find (fun x => i_len x <=? limit) (bq_q Q)) /\
  peek_first_sendable Q limit = option_map (b_len I) (snd (take_one_broadcast I lim limit Q)).
Proof.
  intros B I os lim limit HL Q. pose proof (wfq_run I os HL bq_new (wfq_new I)) as W. fold Q in W.
  unfold peek_first_sendable. rewrite (take_one_first I lim limit Q W).
  destruct (find _ (bq_q Q)) as [x|] eqn:E; [|split; reflexivity]. cbv zeta. cbn [snd option_map].
  apply find_some in E. rewrite (w_len I Q W x (proj1 E)). split; reflexivity.
Qed.
Print Assumptions C21_take_one_is_first_fitting.
Example C21_take_one_ex : snd (take_one_broadcast exI 3 45 ex_Q) = Some (1, 30) /\ peek_first_sendable ex_Q 45 = Some 30.
Proof. split; vm_compute; reflexivity. Qed.

(** C22: the batch is in order of fewest transmits, and whatever was passed
    over did not fit next to what was handed out before its turn. *)
Theorem C22_fewest_transmits_first : forall B (I : bcast_impl B) os lim ov limit, len_ok I ->
  let Q := fst (bq_run I bq_new os) in
  let '(Q', sent, used) := take_broadcasts_measured I lim ov limit Q in
  exists t lf, sent = map i_b t /\ Permutation (bq_q Q) (t ++ lf) /\
    StronglySorted (fun x y => i_tr x <= i_tr y) t /\
    forall y, In y lf -> exists t1 t2, t = t1 ++ t2 /\
      (forall x, In x t1 -> i_tr x <= i_tr y) /\ (forall x, In x t2 -> i_tr y <= i_tr x) /\
      limit < cost I ov (map i_b t1) + (b_len I (i_b y) + ov).
Proof. intros B I os lim ov limit HL Q. apply batch_order, wfq_run; [exact HL|apply wfq_new]. Qed.
Print Assumptions C22_fewest_transmits_first.
Example C22_ex : snd (fst (take_broadcasts_measured exI 3 2 120 ex_Q)) = [(3, 50); (1, 30)] /\
  snd (fst (take_broadcasts_measured exI 3 2 146 ex_Q)) = [(3, 50); (1, 30); (2, 60)].
Proof. split; vm_compute; reflexivity. Qed.

(** Histories of a ranked queue. *)
Inductive ub_op (B : Type) := UQueue (rank : N) (b : B) | UTake (lim ov limit : N) | UReset.
Arguments UQueue {B}. Arguments UTake {B}. Arguments UReset {B}.
Definition ub_step {B} (I : bcast_impl B) (T : list (bqueue B)) (o : ub_op B) : list (bqueue B) :=
  match o with
  | UQueue r b => queue_ranked I r b T
  | UTake lim ov limit => fst (fst (ub_take I lim ov limit T))
  | UReset => ub_reset T
  end.
Definition ub_run {B} (I : bcast_impl B) (n : nat) (os : list (ub_op B)) := fold_left (ub_step I) os (ub_new n).

Lemma upd_nth_length {A} (f : A -> A) (l : list A) : forall n, length (upd_nth n f l) = length l.
Proof. induction l as [|x l IH]; intros [|n]; cbn [upd_nth length]; try reflexivity. rewrite IH. reflexivity. Qed.
Lemma upd_nth_nth {A} (f : A -> A) (l : list A) : forall n i,
  nth_error (upd_nth n f l) i = if (i =? n)%nat then option_map f (nth_error l i) else nth_error l i.
Proof.
  induction l as [|x l IH]; intros [|n] [|i]; cbn [upd_nth nth_error option_map Nat.eqb]; try reflexivity; auto.
  destruct (i =? n)%nat; reflexivity.
Qed.
Lemma ub_wf_step {B} (I : bcast_impl B) : len_ok I -> forall T o,
  Forall (wfq I) T -> Forall (wfq I) (ub_step I T o) /\ length (ub_step I T o) = length T.
Proof.
  intros HL T o W. destruct o; cbn [ub_step].
  - unfold queue_ranked. split; [|apply upd_nth_length]. generalize (N.to_nat (N.min rank (blen T - 1))).
    induction W as [|Q T W1 W2 IH]; intros n; destruct n; cbn [upd_nth]; constructor; auto. apply wfq_queue; auto.
  - pose proof (ub_wf I lim ov limit T 0 W) as U. unfold ub_take.
    destruct (ub_take_loop I lim ov limit T 0) as [[T' s] u]. destruct U as (Len & W'). auto.
  - unfold ub_reset. split; [|apply map_length]. induction W; cbn [map]; constructor; auto. apply wfq_reset.
Qed.
Lemma ub_wf_run {B} (I : bcast_impl B) n os : len_ok I ->
  Forall (wfq I) (ub_run I n os) /\ length (ub_run I n os) = n.
Proof.
  intros HL. unfold ub_run.
  assert (forall T, Forall (wfq I) T -> length T = n ->
     Forall (wfq I) (fold_left (ub_step I) os T) /\ length (fold_left (ub_step I) os T) = n) as G.
  { induction os as [|o os IH]; intros T W E; cbn [fold_left]; [auto|].
    destruct (ub_wf_step I HL T o W). apply IH; congruence. }
  apply G; [|apply repeat_length]. unfold ub_new. apply Forall_forall. intros Q HQ. apply repeat_spec in HQ. subst. apply wfq_new.
Qed.

(** C23: one budget over all tiers, drained in rank order: a broadcast of tier
    [i] that is not handed out would not have fitted next to what tiers up to
    [i] handed out — later tiers never come at its expense. *)
Theorem C23_ranked_within_budget : forall B (I : bcast_impl B) n os lim ov limit, len_ok I ->
  (forall b, 1 <= b_len I b + ov) ->
  let T := ub_run I n os in
  let '(T', sent, used) := ub_take I lim ov limit T in
  used = cost I ov sent /\ used <= limit /\
  exists per, sent = concat per /\
    Forall2 (fun Q s => exists r, Permutation (map i_b (bq_q Q)) (s ++ r)) T per /\
    forall i Q b, nth_error T i = Some Q -> In b (map i_b (bq_q Q)) ->
      In b (nth i per []) \/ limit < cost I ov (concat (firstn (S i) per)) + (b_len I b + ov).
Proof.
  intros B I n os lim ov limit HL HP T. destruct (ub_wf_run I n os HL) as [W _]. fold T in W.
  pose proof (ub_spec I lim ov limit HP T 0 W ltac:(lia)) as U. unfold ub_take.
  destruct (ub_take_loop I lim ov limit T 0) as [[T' s] u]. exact (proj2 (proj2 U)).
Qed.
Print Assumptions C23_ranked_within_budget.
Definition ub_ex := ub_run bytes_broadcast 2 [UQueue 7 [1; 2; 3]; UQueue 0 [4; 5]; UQueue 1 [6; 7; 8; 9]; UQueue 0 [10]].
Example C23_ranked_ex : snd (fst (ub_take bytes_broadcast 4 11 45 ub_ex)) = [[4; 5]; [10]; [6; 7; 8; 9]] /\
  snd (ub_take bytes_broadcast 4 11 45 ub_ex) = 40.
Proof. split; vm_compute; reflexivity. Qed.

(** C23: a rank beyond the last tier lands in the last tier; other tiers are
    not touched. *)
Theorem C23_rank_saturates : forall B (I : bcast_impl B) n os rank b i, len_ok I -> (0 < n)%nat ->
  let T := ub_run I n os in
  nth_error (queue_ranked I rank b T) i =
  if N.of_nat i =? N.min rank (N.of_nat n - 1) then option_map (queue_broadcast I b) (nth_error T i)
  else nth_error T i.
Proof.
  intros B I n os rank b i HL Hn T. destruct (ub_wf_run I n os HL) as [_ E]. fold T in E.
  unfold queue_ranked, blen. rewrite upd_nth_nth, E.
  destruct (Nat.eqb_spec i (N.to_nat (N.min rank (N.of_nat n - 1)))), (N.eqb_spec (N.of_nat i) (N.min rank (N.of_nat n - 1)));
    try reflexivity; lia.
Qed.
Print Assumptions C23_rank_saturates.
Example C23_rank_saturates_ex : map (fun Q => map i_b (bq_q Q)) ub_ex = [[[4; 5]; [10]]; [[6; 7; 8; 9]; [1; 2; 3]]].
Proof. vm_compute; reflexivity. Qed.

(** C61: every queued broadcast is accounted for exactly once: it is either
    still queued or its [finished] notification has fired, never both and
    never twice. *)
Theorem C61_finished_exactly_once : forall B (I : bcast_impl B) os, len_ok I -> blen os <= u64_max ->
  let Q := fst (bq_run I bq_new os) in
  Permutation (bq_fin Q ++ map i_b (bq_q Q)) (queued_in os).
Proof.
  intros B I os HL H. cbv zeta.
  destruct (run_summary I os HL bq_new (wfq_new I) ids_new ltac:(cbn [bq_new bq_gen]; lia)) as (_ & _ & _ & P).
  rewrite P. cbn. rewrite app_nil_r. reflexivity.
Qed.
Print Assumptions C61_finished_exactly_once.
Example C61_ex : bq_fin (fst (bq_run exI bq_new (ex_ops ++ [OTake 2 0 1000; OPrune 1]))) = [(1, 40); (2, 60); (1, 30)] /\  map i_b (bq_q (fst (bq_run exI bq_new (ex_ops ++ [OTake 2 0 1000; OPrune 1])))) = [(3, 50)].
Proof. split; vm_compute; reflexivity. Qed.
