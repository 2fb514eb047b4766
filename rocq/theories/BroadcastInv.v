(** Invariants of the gossip queue over histories. *)
From Coq Require Import Sorting.Sorted Sorting.Permutation.
From Verif Require Import Base BaseFacts MapModel MapFacts BroadcastModel BroadcastFacts.
Local Open Scope N_scope.

Section Inv.
Context {B : Type} (I : bcast_impl B).
Implicit Types (x y : item B) (q : list (item B)) (Q : bqueue B) (m : amap (item B)).

(** Lengths fit the [u64] they are stored in. *)
Definition len_ok : Prop := forall b, b_len I b <= u64_max.

Definition agree q m : Prop := forall k x, aget k m = Some x <-> In x q /\ b_id I (i_b x) = Some k.
Record wfq Q : Prop := {
  w_sorted : sorted (bq_q Q);
  w_ok : Forall item_ok (bq_q Q);
  w_len : forall x, In x (bq_q Q) -> i_len x = b_len I (i_b x);
  w_gen : bq_gen Q <= u64_max;
  w_idle : bq_q Q = [] -> bq_gen Q = 0;
  w_agree : agree (bq_q Q) (bq_m Q) }.

Lemma wfq_new : wfq bq_new.
Proof.
  constructor; cbn; auto; try (constructor; fail); try tauto.
  - lia.
  - intros k x. cbn. intuition discriminate.
Qed.

Lemma agree_key q m x y k : agree q m -> In x q -> In y q ->
  b_id I (i_b x) = Some k -> b_id I (i_b y) = Some k -> x = y.
Proof.
  intros A Hx Hy Kx Ky. pose proof (proj2 (A k x) (conj Hx Kx)). pose proof (proj2 (A k y) (conj Hy Ky)). congruence.
Qed.
Lemma agree_ext q q' m : (forall x, In x q <-> In x q') -> agree q m -> agree q' m.
Proof. intros H A k x. rewrite <- H. apply A. Qed.
Lemma agree_forget x q m : ~ In x q -> agree (x :: q) m -> agree q (m_forget I x m).
Proof.
  intros Hn A k y. unfold m_forget. destruct (b_id I (i_b x)) as [k'|] eqn:Kx.
  - rewrite aget_adel. destruct (N.eqb_spec k k') as [->|Hk].
    + split; [discriminate|]. intros [Hy Ky]. exfalso. apply Hn.
      rewrite (agree_key (x :: q) m x y k' A); auto; [left; reflexivity|right; exact Hy].
    + rewrite (A k y). cbn [In]. split; [intros [[<-|Hy] Ky]; [congruence|auto]|intuition].
  - rewrite (A k y). cbn [In]. split; [intros [[<-|Hy] Ky]; [congruence|auto]|intuition].
Qed.
Lemma agree_forget_list t : forall rest m, NoDup (t ++ rest) -> agree (t ++ rest) m ->
  agree rest (fold_left (fun m x => m_forget I x m) t m).
Proof.
  induction t as [|x t IH]; intros rest m HN A; cbn [fold_left app] in *; [exact A|].
  inversion HN as [|? ? Hni HN']; subst.
  apply IH; [exact HN'|]. apply agree_forget; assumption.
Qed.

(** ** insert_into *)
Definition kclash x y : Prop := exists k, b_id I (i_b x) = Some k /\ b_id I (i_b y) = Some k.
Lemma insert_into_q x Q : bq_q (insert_into I x Q) = fst (set_insert x (bq_q Q)).
Proof. unfold insert_into. destruct (set_insert x (bq_q Q)). reflexivity. Qed.
Lemma insert_into_gen x Q : bq_gen (insert_into I x Q) = bq_gen Q.
Proof. unfold insert_into. destruct (set_insert x (bq_q Q)). reflexivity. Qed.
Lemma insert_into_fin x Q : bq_fin (insert_into I x Q) = bq_fin Q.
Proof. unfold insert_into. destruct (set_insert x (bq_q Q)). reflexivity. Qed.
Lemma set_insert_nonempty x q : fst (set_insert x q) <> [].
Proof.
  destruct q as [|y q]; cbn; [discriminate|]. destruct (item_cmp x y); cbn; try discriminate.
  destruct (set_insert x q). discriminate.
Qed.

(** The parts of [wfq] that survive loops. *)
Record wfl Q : Prop := {
  l_sorted : sorted (bq_q Q);
  l_ok : Forall item_ok (bq_q Q);
  l_len : forall x, In x (bq_q Q) -> i_len x = b_len I (i_b x);
  l_gen : bq_gen Q <= u64_max;
  l_agree : agree (bq_q Q) (bq_m Q) }.
Lemma wfq_wfl Q : wfq Q -> wfl Q.
Proof. intros []. constructor; assumption. Qed.
Lemma wfl_idle Q : wfl Q -> wfq (mkQ (bq_q Q) (bq_m Q) (idle_gen (bq_q Q) (bq_gen Q)) (bq_fin Q)).
Proof.
  intros []. constructor; cbn [bq_q bq_m bq_gen]; auto.
  - unfold idle_gen. destruct (bq_q Q); [lia|assumption].
  - intros ->. reflexivity.
Qed.

Lemma wfl_insert x Q : wfl Q -> item_ok x -> i_len x = b_len I (i_b x) ->
  (forall y, In y (bq_q Q) -> ~ kclash x y) -> wfl (insert_into I x Q).
Proof.
  intros [S O L G A] Ox Lx HK. constructor.
  - rewrite insert_into_q. apply set_insert_sorted, S.
  - rewrite insert_into_q. rewrite Forall_forall in *. intros y Hy. apply set_insert_in in Hy.
    destruct Hy as [[-> _]|Hy]; auto.
  - rewrite insert_into_q. intros y Hy. apply set_insert_in in Hy. destruct Hy as [[-> _]|Hy]; auto.
  - rewrite insert_into_gen. exact G.
  - rewrite insert_into_q. unfold insert_into.
    pose proof (set_insert_in x (bq_q Q)) as HI. destruct (set_insert x (bq_q Q)) as [q' ins].
    cbn [fst snd bq_m] in *. intros k y. destruct ins.
    + destruct (b_id I (i_b x)) as [kx|] eqn:Kx.
      * rewrite aget_aset. destruct (N.eqb_spec k kx) as [->|Hk].
        -- split.
           ++ intros [= <-]. split; [apply HI; auto|exact Kx].
           ++ intros [Hy Ky]. apply HI in Hy. destruct Hy as [[-> _]|Hy]; [reflexivity|].
              exfalso. apply (HK y Hy). exists kx. auto.
        -- rewrite (A k y). rewrite HI. split; [intuition|]. intros [[[-> _]|Hy] Ky]; [congruence|auto].
      * rewrite (A k y), HI. split; [intuition|]. intros [[[-> _]|Hy] Ky]; [congruence|auto].
    + rewrite (A k y), HI. split; [intuition|]. intros [[[_ [=]]|Hy] Ky]; auto.
Qed.
Lemma wfl_insert_list re : forall Q, wfl Q -> Forall item_ok re ->
  (forall x, In x re -> i_len x = b_len I (i_b x)) ->
  (forall x y, In x re -> In y (bq_q Q) -> ~ kclash x y) ->
  ForallOrdPairs (fun x y => ~ kclash x y) re ->
  wfl (fold_left (fun Q x => insert_into I x Q) re Q).
Proof.
  induction re as [|x re IH]; intros Q W O L K P; cbn [fold_left]; [exact W|].
  inversion O; subst. inversion P as [|? ? F P']; subst. apply IH; auto.
  - apply wfl_insert; auto.
    + apply L. left. reflexivity.
    + intros y Hy. apply K; [left; reflexivity|exact Hy].
  - intros y Hy. apply L. right. exact Hy.
  - intros y z Hy Hz. rewrite insert_into_q in Hz. apply set_insert_in in Hz.
    destruct Hz as [[-> _]|Hz].
    + rewrite Forall_forall in F. intros (k & Ky & Kx). apply (F y Hy). exists k. auto.
    + apply K; [right; exact Hy|exact Hz].
Qed.
Lemma nodup_pairs t q m : agree q m -> NoDup t -> incl t q -> ForallOrdPairs (fun x y => ~ kclash x y) t.
Proof.
  intros A ND HI. induction ND as [|x t Hn ND IH]; constructor.
  - apply Forall_forall. intros y Hy (k & Kx & Ky).
    assert (x = y) as -> by (apply (agree_key q m x y k); auto; apply HI; [left; reflexivity|right; exact Hy]).
    contradiction.
  - apply IH. intros z Hz. apply HI. right. exact Hz.
Qed.
Lemma pairs_bump t : ForallOrdPairs (fun x y => ~ kclash x y) t -> ForallOrdPairs (fun x y => ~ kclash x y) (map bump t).
Proof.
  induction 1 as [|x t F _ IH]; cbn [map]; constructor; [|exact IH].
  rewrite Forall_forall in *. intros y Hy. apply in_map_iff in Hy. destruct Hy as (z & <- & Hz). apply (F z Hz).
Qed.

(** ** The operations preserve the invariant *)
Lemma next_id_le g : g <= u64_max -> next_id g <= u64_max.
Proof. unfold next_id. intros H. destruct (N.eqb_spec g u64_max); [vm_compute; congruence|lia]. Qed.

Lemma perm_sorted_remove x q : sorted q -> In x q -> Permutation q (x :: set_remove x q).
Proof.
  intros S Hx. destruct (in_split x q Hx) as (a & b & ->). rewrite (set_remove_split x a b S).
  symmetry. apply Permutation_middle.
Qed.
Lemma wfl_remove x Q : wfl Q -> In x (bq_q Q) -> forall fin,
  wfl (mkQ (set_remove x (bq_q Q)) (m_forget I x (bq_m Q)) (bq_gen Q) fin).
Proof.
  intros [S O L G A] Hx fin. constructor; cbn [bq_q bq_m bq_gen]; auto.
  - apply set_remove_sorted, S.
  - rewrite Forall_forall in *. intros y Hy. apply O, (set_remove_incl x), Hy.
  - intros y Hy. apply L, (set_remove_incl x), Hy.
  - apply agree_forget.
    + rewrite (set_remove_in x _ x S Hx). intuition.
    + revert A. apply agree_ext. intros y. cbn [In]. rewrite (set_remove_in x _ y S Hx).
      split; [|intuition; subst; assumption]. intros Hy.
      destruct (item_cmp_spec x y) as [E|E|E].
      * left. apply (sorted_ieq (bq_q Q)); auto.
      * right. split; [exact Hy|]. intros ->. exact (ilt_irrefl _ E).
      * right. split; [exact Hy|]. intros ->. exact (ilt_irrefl _ E).
Qed.

Lemma invalidate_same_wfl k Q : wfl Q -> wfl (invalidate_same_id k Q) /\
  (forall x, In x (bq_q (invalidate_same_id k Q)) <-> In x (bq_q Q) /\ b_id I (i_b x) <> Some k).
Proof.
  intros W. unfold invalidate_same_id. destruct (aget k (bq_m Q)) as [old|] eqn:E.
  - pose proof W as [S O L G A]. apply A in E. destruct E as [Ho Ko].
    pose proof (wfl_remove old Q W Ho (bq_fin Q ++ [i_b old])) as W'. unfold m_forget in W'. rewrite Ko in W'.
    split.
    + destruct W'. cbn [bq_q bq_m bq_gen] in *. constructor; cbn [bq_q bq_m bq_gen]; auto.
      unfold idle_gen. destruct (set_remove old (bq_q Q)); [lia|assumption].
    + cbn [bq_q]. intros x. rewrite (set_remove_in old _ x S Ho). split.
      * intros [Hx Hn]. split; [exact Hx|]. intros Kx. apply Hn. apply (agree_key (bq_q Q) (bq_m Q) x old k); auto.
      * intros [Hx Kx]. split; [exact Hx|]. intros ->. contradiction.
  - split; [exact W|]. intros x. split; [|intuition]. intros Hx. split; [exact Hx|]. intros Kx.
    destruct W as [S O L G A]. pose proof (proj2 (A k x) (conj Hx Kx)). congruence.
Qed.

Lemma remove_list_wfl inv : forall Q fin, wfl Q -> NoDup inv -> incl inv (bq_q Q) ->
  let Q' := mkQ (fold_left (fun q x => set_remove x q) inv (bq_q Q))
                (fold_left (fun m x => m_forget I x m) inv (bq_m Q)) (bq_gen Q) fin in
  wfl Q' /\ (forall x, In x (bq_q Q') <-> In x (bq_q Q) /\ ~ In x inv) /\
  Permutation (bq_q Q) (inv ++ bq_q Q').
Proof.
  induction inv as [|x inv IH]; intros Q fin W ND HI; cbn [fold_left]; cbv zeta.
  - split; [|split].
    + destruct W. constructor; assumption.
    + cbn. intuition.
    + reflexivity.
  - inversion ND as [|? ? Hn ND']; subst.
    assert (In x (bq_q Q)) as Hx by (apply HI; left; reflexivity).
    pose proof (wfl_remove x Q W Hx (bq_fin Q)) as W1.
    destruct (IH _ fin W1 ND') as (W2 & M2 & P2).
    + cbn [bq_q]. intros y Hy. apply (set_remove_in x _ y (l_sorted Q W) Hx). split; [apply HI; right; exact Hy|].
      intros ->. contradiction.
    + cbn [bq_q bq_m bq_gen] in *. split; [exact W2|]. split.
      * intros y. rewrite M2, (set_remove_in x _ y (l_sorted Q W) Hx). cbn [In]. intuition.
      * cbn [app]. rewrite <- P2. apply perm_sorted_remove; [apply W|exact Hx].
Qed.

Lemma invalidate_scan_wfl b Q : wfl Q -> wfl (invalidate_scan I b Q) /\
  (forall x, In x (bq_q (invalidate_scan I b Q)) <-> In x (bq_q Q) /\ b_invalidates I b (i_b x) = false) /\
  Permutation (map i_b (bq_q Q)) (map i_b (filter (fun x => b_invalidates I b (i_b x)) (bq_q Q)) ++ map i_b (bq_q (invalidate_scan I b Q))).
Proof.
  intros W. unfold invalidate_scan. set (inv := filter _ _).
  destruct (remove_list_wfl inv Q (bq_fin Q ++ map i_b inv) W) as (W' & M & P).
  - apply NoDup_filter, sorted_nodup, W.
  - intros x Hx. apply filter_In in Hx. apply Hx.
  - split; [|split].
    + destruct W'. cbn [bq_q bq_m bq_gen] in *. constructor; cbn [bq_q bq_m bq_gen]; auto.
      unfold idle_gen. destruct (fold_left _ _ _); [lia|assumption].
    + cbn [bq_q] in *. intros x. rewrite M. unfold inv. rewrite filter_In.
      destruct (b_invalidates I b (i_b x)); intuition congruence.
    + cbn [bq_q] in *. rewrite <- map_app. apply Permutation_map, P.
Qed.

(** The queue before the new item is inserted. *)
Definition pre_queue (b : B) Q : bqueue B :=
  match b_id I b with
  | Some k => invalidate_same_id k Q
  | None => if b_unique I b then Q else invalidate_scan I b Q
  end.
Lemma queue_pre b Q : queue_broadcast I b Q =
  insert_into I (mkItem 0 (b_len I b) (next_id (bq_gen (pre_queue b Q))) b)
    (mkQ (bq_q (pre_queue b Q)) (bq_m (pre_queue b Q)) (next_id (bq_gen (pre_queue b Q))) (bq_fin (pre_queue b Q))).
Proof. reflexivity. Qed.
(** What makes a queued broadcast give way to [b]. *)
Definition superseded (b old : B) : bool :=
  match b_id I b with
  | Some k => match b_id I old with Some k' => k =? k' | None => false end
  | None => negb (b_unique I b) && b_invalidates I b old
  end.
Lemma pre_queue_wfl b Q : wfl Q -> wfl (pre_queue b Q) /\
  (forall x, In x (bq_q (pre_queue b Q)) <-> In x (bq_q Q) /\ superseded b (i_b x) = false).
Proof.
  intros W. unfold pre_queue, superseded. destruct (b_id I b) as [k|].
  - destruct (invalidate_same_wfl k Q W) as [W' M]. split; [exact W'|]. intros x. rewrite M.
    destruct (b_id I (i_b x)) as [k'|]; [|intuition discriminate].
    destruct (N.eqb_spec k k') as [->|]; intuition congruence.
  - destruct (b_unique I b); cbn [negb andb].
    + split; [exact W|]. intuition.
    + destruct (invalidate_scan_wfl b Q W) as (W' & M & _). split; [exact W'|exact M].
Qed.
Lemma wfl_gen g Q : wfl Q -> g <= u64_max -> wfl (mkQ (bq_q Q) (bq_m Q) g (bq_fin Q)).
Proof. intros [] H. constructor; assumption. Qed.

Lemma wfq_queue b Q : b_len I b <= u64_max -> wfq Q -> wfq (queue_broadcast I b Q).
Proof.
  intros HL W. apply wfq_wfl in W. destruct (pre_queue_wfl b Q W) as [W1 M1]. rewrite queue_pre.
  assert (next_id (bq_gen (pre_queue b Q)) <= u64_max) as G by (apply next_id_le, W1).
  assert (wfl (queue_broadcast I b Q)) as W2.
  { rewrite queue_pre. apply wfl_insert.
    - apply wfl_gen; assumption.
    - split; [exact HL|exact G].
    - reflexivity.
    - cbn [bq_q]. intros y Hy (k & K1 & K2). cbn [i_b] in K1. apply M1 in Hy. destruct Hy as [_ Hy].
      unfold superseded in Hy. rewrite K1, K2, N.eqb_refl in Hy. discriminate. }
  rewrite queue_pre in W2. destruct W2. constructor; auto.
  rewrite insert_into_q. intros E. exfalso. revert E. apply set_insert_nonempty.
Qed.

Lemma bump_ok x : item_ok x -> item_ok (bump x).
Proof. exact (fun H => H). Qed.

Lemma wfq_take lim ov limit Q : wfq Q -> wfq (fst (fst (take_broadcasts_measured I lim ov limit Q))).
Proof.
  intros W. pose proof (take_greedy I lim ov limit Q (w_sorted Q W) (w_ok Q W) (w_idle Q W)) as E.
  pose proof (greedy_perm ov limit (bq_q Q) 0) as P.
  pose proof (greedy_sorted ov limit (bq_q Q) (w_sorted Q W) 0) as [S1 S2].
  destruct (greedy ov limit 0 (bq_q Q)) as [t lf]. cbn [fst snd] in *. rewrite E. cbn [fst].
  assert (forall x, In x (bq_q Q) <-> In x (t ++ lf)) as PI.
  { intros x. split; apply Permutation_in; [exact P|symmetry; exact P]. }
  assert (NoDup (t ++ lf)) as ND by (apply (Permutation_NoDup P), sorted_nodup, W).
  assert (agree (t ++ lf) (bq_m Q)) as A by (apply (agree_ext (bq_q Q)); [exact PI|apply W]).
  pose proof (w_ok Q W) as O. rewrite Forall_forall in O.
  apply (wfl_idle (fold_left _ _ _)). apply wfl_insert_list.
  - constructor; cbn [bq_q bq_m bq_gen]; [exact S2| | |apply W|apply agree_forget_list; assumption].
    + apply Forall_forall. intros x Hx. apply O, PI, in_app_iff. auto.
    + intros x Hx. apply (w_len Q W), PI, in_app_iff. auto.
  - apply Forall_forall. intros x Hx. apply in_map_iff in Hx. destruct Hx as (y & <- & Hy).
    apply filter_In in Hy. apply bump_ok, O, PI, in_app_iff. intuition.
  - intros x Hx. apply in_map_iff in Hx. destruct Hx as (y & <- & Hy). apply filter_In in Hy. cbn [bump i_len i_b].
    apply (w_len Q W), PI, in_app_iff. intuition.
  - cbn [bq_q]. intros x y Hx Hy (k & Kx & Ky). apply in_map_iff in Hx. destruct Hx as (z & <- & Hz).
    apply filter_In in Hz. destruct Hz as [Hz _]. cbn [bump i_b] in Kx.
    assert (z = y) as -> by (apply (agree_key _ _ z y k A); auto; apply in_app_iff; auto).
    clear - ND Hz Hy. induction t as [|a t IH]; [destruct Hz|]. cbn [app] in ND. inversion ND as [|? ? Hn ND']; subst.
    destruct Hz as [->|Hz]; [apply Hn, in_app_iff; auto|auto].
  - apply pairs_bump, (nodup_pairs _ (t ++ lf) (bq_m Q)); auto.
    + apply NoDup_filter. clear - ND. induction t as [|a t IH]; [constructor|]. cbn [app] in ND. inversion ND; subst.
      constructor; [|auto]. rewrite in_app_iff in *. intuition.
    + intros x Hx. apply filter_In in Hx. apply in_app_iff. intuition.
Qed.

(** [take_one_broadcast] as the first item that fits *)
Lemma take_one_first lim limit Q : wfq Q ->
  take_one_broadcast I lim limit Q =
  match find (fun x => i_len x <=? limit) (bq_q Q) with
  | None => (Q, None)
  | Some keep =>
    let fin := spent keep lim in
    let Q1 := mkQ (set_remove keep (bq_q Q)) (m_forget I keep (bq_m Q)) (bq_gen Q)
                  (if fin then bq_fin Q ++ [i_b keep] else bq_fin Q) in
    let Q2 := if fin then Q1 else insert_into I (bump keep) Q1 in
    (mkQ (bq_q Q2) (bq_m Q2) (idle_gen (bq_q Q2) (bq_gen Q2)) (bq_fin Q2), Some (i_b keep))
  end.
Proof.
  intros W. unfold take_one_broadcast. destruct (bq_q Q) as [|x q] eqn:E; [reflexivity|].
  rewrite <- E. pose proof (sorted_range (bq_q Q)) as R.
  destruct (transmit_range (bq_q Q)) as [mn mx] eqn:Er. cbn [fst snd] in R.
  rewrite one_loop_first; try apply W; [reflexivity| |lia|].
  - intros y Hy. apply (R y (w_sorted Q W) Hy).
  - intros y Hy Hlt. specialize (R y (w_sorted Q W) Hy). lia.
Qed.
Lemma wfq_take_one lim limit Q : wfq Q -> wfq (fst (take_one_broadcast I lim limit Q)).
Proof.
  intros W. rewrite (take_one_first lim limit Q W).
  destruct (find _ (bq_q Q)) as [keep|] eqn:E; [|exact W]. cbv zeta. cbn [fst].
  apply find_some in E. destruct E as [Hk _].
  apply (wfl_idle (if spent keep lim then _ else _)).
  pose proof (wfl_remove keep Q (wfq_wfl Q W) Hk) as W1.
  destruct (spent keep lim); [apply W1|]. apply wfl_insert.
  - apply W1.
  - apply bump_ok. pose proof (w_ok Q W) as O. rewrite Forall_forall in O. auto.
  - apply (w_len Q W keep Hk).
  - cbn [bq_q]. intros y Hy (k & Kx & Ky). cbn [bump i_b] in Kx.
    apply (set_remove_in keep _ y (w_sorted Q W) Hk) in Hy. destruct Hy as [Hy Hn]. apply Hn.
    symmetry. apply (agree_key (bq_q Q) (bq_m Q) keep y k); auto. apply W.
Qed.
Lemma wfq_reset Q : wfq (bq_reset Q).
Proof.
  constructor; cbn; auto; try (constructor; fail); try tauto.
  - lia.
  - intros k x. cbn. intuition discriminate.
Qed.

Lemma last_split (q : list (item B)) d : q <> [] -> q = removelast q ++ [last q d].
Proof. intros H. apply app_removelast_last, H. Qed.
Lemma prune_loop_spec keep : forall fuel Q, wfl Q -> 
  wfl (prune_loop I fuel keep Q) /\
  exists dropped, bq_q Q = bq_q (prune_loop I fuel keep Q) ++ dropped /\
    bq_fin (prune_loop I fuel keep Q) = bq_fin Q ++ map i_b (rev dropped) /\
    bq_gen (prune_loop I fuel keep Q) = bq_gen Q.
Proof.
  induction fuel as [|fuel IH]; intros Q W; cbn [prune_loop].
  { split; [exact W|]. exists []. cbn. rewrite !app_nil_r. auto. }
  destruct (blen (bq_q Q) <=? keep).
  { split; [exact W|]. exists []. cbn. rewrite !app_nil_r. auto. }
  destruct (bq_q Q) as [|x q] eqn:E.
  { split; [exact W|]. exists []. cbn. rewrite ?app_nil_r, E. auto. }
  assert (bq_q Q <> []) as NE by (rewrite E; discriminate). rewrite <- E in *.
  pose proof (last_split (bq_q Q) x NE) as SP.
  set (l := last (bq_q Q) x) in *. 
  assert (In l (bq_q Q)) as Hl by (rewrite SP, in_app_iff; right; left; reflexivity).
  assert (set_remove l (bq_q Q) = removelast (bq_q Q)) as RM.
  { pose proof (l_sorted Q W) as S. rewrite SP in S. rewrite SP at 1.
    rewrite (set_remove_split l _ [] S). apply app_nil_r. }
  pose proof (wfl_remove l Q W Hl (bq_fin Q ++ [i_b l])) as W1. rewrite RM in W1.
  destruct (IH _ W1) as (W2 & d & Eq & Ef & Eg). cbn [bq_q bq_fin bq_gen] in *. split; [exact W2|].
  exists (d ++ [l]). split; [|split].
  - etransitivity; [exact SP|]. rewrite app_assoc. f_equal. exact Eq.
  - rewrite Ef, rev_app_distr. cbn. rewrite <- app_assoc. reflexivity.
  - exact Eg.
Qed.
Lemma wfq_prune n Q : wfq Q -> wfq (bq_prune I n Q).
Proof.
  intros W. unfold bq_prune. apply (wfl_idle (prune_loop _ _ _ _)). apply prune_loop_spec, wfq_wfl, W.
Qed.

Lemma wfq_step Q o : len_ok -> wfq Q -> wfq (fst (bq_step I Q o)).
Proof.
  intros HL W. destruct o; cbn [bq_step].
  - apply wfq_queue; [apply HL|assumption].
  - pose proof (wfq_take lim overhead limit Q W). destruct (take_broadcasts_measured _ _ _ _ _) as [[? ?] ?]. assumption.
  - pose proof (wfq_take_one lim limit Q W). destruct (take_one_broadcast _ _ _ _). assumption.
  - apply wfq_reset.
  - apply wfq_prune, W.
Qed.
Lemma wfq_run os : len_ok -> forall Q, wfq Q -> wfq (fst (bq_run I Q os)).
Proof.
  intros HL. induction os as [|o os IH]; intros Q W; cbn [bq_run]; [exact W|].
  pose proof (wfq_step Q o HL W) as W1. destruct (bq_step I Q o) as [Q1 s]. cbn [fst] in W1.
  specialize (IH Q1 W1). destruct (bq_run I Q1 os). exact IH.
Qed.

(** ** Insertion ids do not repeat before the 64-bit counter runs out *)
Record ids Q : Prop := {
  d_nodup : NoDup (map i_id (bq_q Q));
  d_le : forall x, In x (bq_q Q) -> i_id x <= bq_gen Q }.

Lemma ids_fresh q x : ~ In (i_id x) (map i_id q) -> snd (set_insert x q) = true.
Proof.
  intros H. apply set_insert_fresh. intros y Hy (_ & _ & E). apply H. rewrite E. apply in_map, Hy.
Qed.
Lemma insert_list_perm re : forall Q, NoDup (map i_id (re ++ bq_q Q)) ->
  Permutation (bq_q (fold_left (fun Q x => insert_into I x Q) re Q)) (re ++ bq_q Q) /\
  bq_fin (fold_left (fun Q x => insert_into I x Q) re Q) = bq_fin Q /\
  bq_gen (fold_left (fun Q x => insert_into I x Q) re Q) = bq_gen Q.
Proof.
  induction re as [|x re IH]; intros Q ND; cbn [fold_left app]; [auto|].
  cbn [app map] in ND. inversion ND as [|? ? Hn ND']; subst.
  assert (Permutation (bq_q (insert_into I x Q)) (x :: bq_q Q)) as P.
  { rewrite insert_into_q. apply set_insert_perm, ids_fresh. intros H. apply Hn.
    rewrite map_app, in_app_iff. auto. }
  destruct (IH (insert_into I x Q)) as (P' & F' & G').
  - apply (Permutation_NoDup (l := map i_id (x :: re ++ bq_q Q))); [|exact ND].
    apply Permutation_map. rewrite P. apply Permutation_middle.
  - rewrite F', G', insert_into_fin, insert_into_gen. split; [|auto].
    rewrite P', P. symmetry. apply Permutation_middle.
Qed.

(** The batch as a whole: what is sent, what is kept, what is finished. *)
Lemma take_summary lim ov limit Q : wfq Q -> ids Q ->
  exists t lf, greedy ov limit 0 (bq_q Q) = (t, lf) /\
    let '(Q', sent, used) := take_broadcasts_measured I lim ov limit Q in
    sent = map i_b t /\ used = charges ov t /\
    Permutation (bq_q Q') (map bump (filter (fun x => negb (spent x lim)) t) ++ lf) /\
    bq_fin Q' = bq_fin Q ++ map i_b (filter (fun x => spent x lim) t) /\
    bq_gen Q' = idle_gen (bq_q Q') (bq_gen Q).
Proof.
  intros W D. pose proof (take_greedy I lim ov limit Q (w_sorted Q W) (w_ok Q W) (w_idle Q W)) as E.
  pose proof (greedy_perm ov limit (bq_q Q) 0) as P.
  destruct (greedy ov limit 0 (bq_q Q)) as [t lf]. cbn [fst snd] in *. exists t, lf. split; [reflexivity|].
  rewrite E. destruct D as [ND _].
  destruct (insert_list_perm (map bump (filter (fun x => negb (spent x lim)) t))
    (mkQ lf (fold_left (fun m x => m_forget I x m) t (bq_m Q)) (bq_gen Q)
         (bq_fin Q ++ map i_b (filter (fun x => spent x lim) t)))) as (P' & F' & G').
  - cbn [bq_q]. apply (Permutation_NoDup (Permutation_map i_id P)) in ND. rewrite map_app in *.
    rewrite map_map. cbn [bump i_id].
    clear - ND. induction t as [|x t IH]; cbn [filter map app]; [exact ND|].
    cbn [map app] in ND. inversion ND as [|? ? Hn ND']; subst.
    destruct (negb (spent x lim)); [|auto]. cbn [map app]. constructor; [|auto].
    intros C. apply Hn. rewrite in_app_iff in *. destruct C as [C|C]; [|auto]. left.
    apply in_map_iff in C. destruct C as (y & Ey & Hy). apply filter_In in Hy.
    rewrite <- Ey. apply (in_map i_id t y). apply Hy.
  - cbn [bq_q bq_fin bq_gen] in *. repeat split; auto. rewrite G'. reflexivity.
Qed.

Lemma ids_idle Q : ids Q -> forall m fin, ids (mkQ (bq_q Q) m (idle_gen (bq_q Q) (bq_gen Q)) fin).
Proof.
  intros [ND LE] m fin. constructor; cbn [bq_q bq_gen]; [exact ND|].
  intros x Hx. unfold idle_gen. destruct (bq_q Q); [destruct Hx|auto].
Qed.
Lemma ids_perm_sub Q Q' : ids Q -> bq_gen Q' = idle_gen (bq_q Q') (bq_gen Q) ->
  (exists r, Permutation (map i_id (bq_q Q)) (map i_id (bq_q Q') ++ r)) -> ids Q'.
Proof.
  intros [ND LE] G (r & P). constructor.
  - apply (Permutation_NoDup P) in ND. clear - ND. induction (map i_id (bq_q Q')) as [|a l IH]; [constructor|].
    cbn [app] in ND. inversion ND; subst. constructor; [|auto]. rewrite in_app_iff in *. intuition.
  - intros x Hx. rewrite G. unfold idle_gen. 
    assert (i_id x <= bq_gen Q) as H.
    { assert (In (i_id x) (map i_id (bq_q Q))) as HI.
      { apply (Permutation_in _ (Permutation_sym P)), in_app_iff. left. apply in_map, Hx. }
      apply in_map_iff in HI. destruct HI as (y & Ey & Hy). rewrite <- Ey. auto. }
    destruct (bq_q Q'); [destruct Hx|exact H].
Qed.

Lemma pre_queue_conserve b Q : wfq Q -> 
  Permutation (bq_fin (pre_queue b Q) ++ map i_b (bq_q (pre_queue b Q))) (bq_fin Q ++ map i_b (bq_q Q)) /\
  (exists r, Permutation (map i_id (bq_q Q)) (map i_id (bq_q (pre_queue b Q)) ++ r)) /\
  bq_gen (pre_queue b Q) = idle_gen (bq_q (pre_queue b Q)) (bq_gen Q).
Proof.
  intros W. assert (bq_gen Q = idle_gen (bq_q Q) (bq_gen Q)) as GI.
  { unfold idle_gen. pose proof (w_idle Q W). destruct (bq_q Q); auto. }
  unfold pre_queue. destruct (b_id I b) as [k|].
  - unfold invalidate_same_id. destruct (aget k (bq_m Q)) as [old|] eqn:E.
    + apply (w_agree Q W) in E. destruct E as [Ho Ko]. cbn [bq_fin bq_q bq_gen].
      pose proof (perm_sorted_remove old (bq_q Q) (w_sorted Q W) Ho) as P. split; [|split]; auto.
      * rewrite <- app_assoc. apply Permutation_app_head. cbn [app]. symmetry. exact (Permutation_map i_b P).
      * exists [i_id old]. rewrite (Permutation_map i_id P). cbn [map]. apply Permutation_cons_append.
    + split; [reflexivity|]. split; [|exact GI]. exists []. rewrite app_nil_r. reflexivity.
  - destruct (b_unique I b).
    + split; [reflexivity|]. split; [|exact GI]. exists []. rewrite app_nil_r. reflexivity.
    + unfold invalidate_scan. set (inv := filter _ _).
      destruct (remove_list_wfl inv Q (bq_fin Q ++ map i_b inv) (wfq_wfl Q W)) as (_ & _ & P).
      * apply NoDup_filter, sorted_nodup, W.
      * intros x Hx. apply filter_In in Hx. apply Hx.
      * cbn [bq_q bq_fin bq_gen] in *. split; [|split]; auto.
        -- rewrite <- app_assoc. apply Permutation_app_head. rewrite <- map_app. apply Permutation_map.
           symmetry. exact P.
        -- exists (map i_id inv). rewrite (Permutation_map i_id P). rewrite map_app. apply Permutation_app_comm.
Qed.

(** Inserting the new broadcast succeeds. *)
Lemma queue_summary b Q : wfq Q -> ids Q -> bq_gen Q < u64_max ->
  let Q' := queue_broadcast I b Q in
  ids Q' /\ bq_gen Q' <= bq_gen Q + 1 /\
  Permutation (bq_fin Q' ++ map i_b (bq_q Q')) (b :: bq_fin Q ++ map i_b (bq_q Q)) /\
  (forall x, In x (bq_q Q') <->
     x = mkItem 0 (b_len I b) (bq_gen Q') b \/ (In x (bq_q Q) /\ superseded b (i_b x) = false)).
Proof.
  intros W D HG Q'. destruct (pre_queue_conserve b Q W) as (P1 & S1 & G1).
  assert (ids (pre_queue b Q)) as D1 by (apply (ids_perm_sub Q); assumption).
  destruct (pre_queue_wfl b Q (wfq_wfl Q W)) as [W1 M1].
  assert (bq_gen (pre_queue b Q) <= bq_gen Q) as G2 by (rewrite G1; unfold idle_gen; destruct (bq_q (pre_queue b Q)); lia).
  assert (next_id (bq_gen (pre_queue b Q)) = bq_gen (pre_queue b Q) + 1) as EN.
  { unfold next_id. destruct (N.eqb_spec (bq_gen (pre_queue b Q)) u64_max); lia. }
  unfold Q'. rewrite queue_pre, EN. set (g := bq_gen (pre_queue b Q) + 1).
  set (x0 := mkItem 0 (b_len I b) g b).
  assert (snd (set_insert x0 (bq_q (pre_queue b Q))) = true) as FR.
  { apply ids_fresh. cbn [i_id x0]. intros C. apply in_map_iff in C. destruct C as (y & Ey & Hy).
    apply (d_le _ D1) in Hy. unfold g in *. lia. }
  pose proof (set_insert_perm x0 _ FR) as P.
  rewrite insert_into_gen, insert_into_fin, insert_into_q. cbn [bq_gen bq_q bq_fin].
  split; [|split; [unfold g; lia|split]].
  - constructor; rewrite ?insert_into_q, ?insert_into_gen; cbn [bq_q bq_gen].
    + apply (Permutation_NoDup (Permutation_map i_id (Permutation_sym P))). cbn [map]. constructor; [|apply D1].
      cbn [i_id x0]. intros C. apply in_map_iff in C. destruct C as (y & Ey & Hy).
      apply (d_le _ D1) in Hy. unfold g in *. lia.
    + intros y Hy. apply set_insert_in in Hy. destruct Hy as [[-> _]|Hy]; [cbn; lia|].
      apply (d_le _ D1) in Hy. unfold g. lia.
  - rewrite P. cbn [map x0 i_b]. rewrite <- P1. symmetry. apply Permutation_middle.
  - intros x. rewrite set_insert_in, FR, M1. intuition.
Qed.

Lemma prune_keep n : forall fuel Q, wfl Q -> exists d, bq_q Q = bq_q (prune_loop I fuel n Q) ++ d.
Proof. intros fuel Q W. destruct (prune_loop_spec n fuel Q W) as (_ & d & E & _). eauto. Qed.

Definition queued_by (o : bq_op B) : list B := match o with OQueue b => [b] | _ => [] end.

Lemma step_summary Q o : len_ok -> wfq Q -> ids Q -> bq_gen Q < u64_max ->
  let Q' := fst (bq_step I Q o) in
  ids Q' /\ bq_gen Q' <= bq_gen Q + 1 /\
  Permutation (bq_fin Q' ++ map i_b (bq_q Q')) (queued_by o ++ bq_fin Q ++ map i_b (bq_q Q)).
Proof.
  intros HL W D HG. destruct o; cbn [bq_step queued_by app].
  - destruct (queue_summary b Q W D HG) as (A & C & P & _). auto.
  - destruct (take_summary lim overhead limit Q W D) as (t & lf & E & H).
    destruct (take_broadcasts_measured I lim overhead limit Q) as [[Q' sent] used]. cbn [fst].
    destruct H as (_ & _ & P & F & G).
    pose proof (greedy_perm overhead limit (bq_q Q) 0) as PG. rewrite E in PG. cbn [fst snd] in PG.
    assert (Permutation t (filter (fun x => negb (spent x lim)) t ++ filter (fun x => spent x lim) t)) as PF.
    { clear. induction t as [|x t IH]; cbn [filter]; [reflexivity|]. destruct (spent x lim); cbn [negb app].
      - rewrite IH at 1. apply Permutation_middle.
      - constructor. exact IH. }
    split; [|split].
    + apply (ids_perm_sub Q); auto. exists (map i_id (filter (fun x => spent x lim) t)).
      rewrite (Permutation_map i_id PG), (Permutation_map i_id P). rewrite !map_app, map_map. cbn [bump i_id].
      rewrite (Permutation_map i_id PF) at 1. rewrite map_app.
      rewrite <- !app_assoc. apply Permutation_app_head, Permutation_app_comm.
    + rewrite G. unfold idle_gen. destruct (bq_q Q'); lia.
    + rewrite F, (Permutation_map i_b P), (Permutation_map i_b PG). rewrite !map_app, map_map. cbn [bump i_b].
      rewrite (Permutation_map i_b PF) at 1. rewrite map_app.
      rewrite <- !app_assoc. apply Permutation_app_head.
      rewrite !app_assoc. apply Permutation_app_tail, Permutation_app_comm.
  - rewrite (take_one_first lim limit Q W). destruct (find _ (bq_q Q)) as [keep|] eqn:E.
    2:{ cbn [fst]. split; [exact D|]. split; [lia|reflexivity]. }
    apply find_some in E. destruct E as [Hk _]. cbv zeta. cbn [fst].
    pose proof (perm_sorted_remove keep (bq_q Q) (w_sorted Q W) Hk) as P.
    destruct (spent keep lim).
    + cbn [bq_q bq_gen bq_fin]. split; [|split].
      * apply (ids_perm_sub Q); auto. cbn [bq_q]. exists [i_id keep]. rewrite (Permutation_map i_id P). cbn [map].
        apply Permutation_cons_append.
      * unfold idle_gen. destruct (set_remove keep (bq_q Q)); lia.
      * rewrite <- app_assoc. apply Permutation_app_head. symmetry. exact (Permutation_map i_b P).
    + rewrite insert_into_q, insert_into_gen, insert_into_fin. cbn [bq_q bq_gen bq_fin].
      assert (Permutation (fst (set_insert (bump keep) (set_remove keep (bq_q Q)))) (bump keep :: set_remove keep (bq_q Q))) as P'.
      { apply set_insert_perm, ids_fresh. cbn [bump i_id].
        pose proof (Permutation_NoDup (Permutation_map i_id P) (d_nodup Q D)) as ND. cbn [map] in ND.
        inversion ND; assumption. }
      split; [|split].
      * apply (ids_perm_sub Q); auto. cbn [bq_q]. exists []. rewrite app_nil_r. rewrite (Permutation_map i_id P'). exact (Permutation_map i_id P).
      * unfold idle_gen. destruct (fst _); lia.
      * apply Permutation_app_head. rewrite (Permutation_map i_b P'). symmetry. exact (Permutation_map i_b P).
  - cbn [fst bq_reset bq_q bq_gen bq_fin]. split; [|split].
    + constructor; cbn; [constructor|intros ? []].
    + cbn; lia.
    + cbn. rewrite app_nil_r. reflexivity.
  - unfold bq_prune. destruct (prune_loop_spec max_retain (length (bq_q Q)) Q (wfq_wfl Q W)) as (_ & d & E & F & G).
    cbn [bq_q bq_gen bq_fin fst]. split; [|split].
    + apply (ids_perm_sub Q); auto; cbn [bq_q bq_gen].
      * rewrite G. reflexivity.
      * exists (map i_id d). rewrite E at 1. rewrite map_app. reflexivity.
    + rewrite G. unfold idle_gen. destruct (bq_q (prune_loop I (length (bq_q Q)) max_retain Q)); lia.
    + rewrite F, <- app_assoc. apply Permutation_app_head. rewrite E at 2.
      rewrite map_app. rewrite (Permutation_app_comm (map i_b (bq_q (prune_loop I (length (bq_q Q)) max_retain Q)))).
      apply Permutation_app_tail, Permutation_map. symmetry. apply Permutation_rev.
Qed.
End Inv.
