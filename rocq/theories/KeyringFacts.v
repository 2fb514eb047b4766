(** Proofs about the keyring. *)
From Coq Require Import Permutation.
From Verif Require Import Base BaseFacts LabelModel LabelFacts KeyringModel TransformModel TransformSpec.
Local Open Scope N_scope.

Lemma key_eqb_spec a b : reflect (a = b) (key_eqb a b).
Proof.
  destruct a as [x|x|x|x], b as [y|y|y|y]; cbn [key_eqb]; try (constructor; congruence);
  destruct (bytes_eqb_spec x y); constructor; congruence.
Qed.
Lemma existsb_key k l : existsb (fun x => key_eqb x k) l = true <-> In k l.
Proof.
  rewrite existsb_exists. split.
  - intros (x & Hin & E). destruct (key_eqb_spec x k); congruence.
  - intros Hin. exists k. split; [exact Hin|]. destruct (key_eqb_spec k k); congruence.
Qed.

Lemma take_first_some key l x r : take_first key l = Some (x, r) ->
  key_bytes x = key /\ exists l1 l2, l = l1 ++ x :: l2 /\ r = l1 ++ l2 /\
    forall y, In y l1 -> key_bytes y <> key.
Proof.
  revert x r. induction l as [|k l IH]; intros x r; cbn [take_first]; [discriminate|].
  destruct (bytes_eqb_spec (key_bytes k) key) as [E|Ne].
  - intros [= <- <-]. split; [exact E|]. exists [], l. repeat split. intros y [].
  - destruct (take_first key l) as [[x' r']|]; [|discriminate]. intros [= <- <-].
    destruct (IH x' r' eq_refl) as (E & l1 & l2 & -> & -> & H). split; [exact E|].
    exists (k :: l1), l2. repeat split. intros y [<-|Hy]; [exact Ne|exact (H y Hy)].
Qed.
Lemma take_first_none key l : take_first key l = None -> forall y, In y l -> key_bytes y <> key.
Proof.
  induction l as [|k l IH]; cbn [take_first]; [intros _ y []|].
  destruct (bytes_eqb_spec (key_bytes k) key) as [E|Ne]; [discriminate|].
  destruct (take_first key l) as [[x' r']|]; [discriminate|]. intros _ y [<-|Hy]; auto.
Qed.

Lemma insert_keys kr k :
  (In k (ring_keys kr) /\ insert_secondary kr k = kr) \/
  (~ In k (ring_keys kr) /\ ring_keys (insert_secondary kr k) = ring_keys kr ++ [k] /\
   primary (insert_secondary kr k) = primary kr).
Proof.
  unfold insert_secondary, ring_keys. destruct (key_eqb_spec (primary kr) k) as [E|Ne].
  - left. cbn [In]. auto.
  - destruct (existsb (fun x => key_eqb x k) (secondaries kr)) eqn:X.
    + left. apply existsb_key in X. cbn [In]. auto.
    + right. split; [|split; reflexivity]. cbn [In]. intros [|Hin]; [contradiction|].
      apply existsb_key in Hin. congruence.
Qed.

Lemma promote_ok kr key kr' : promote kr key = (kr', Ok tt) ->
  Permutation (ring_keys kr) (ring_keys kr') /\ key_bytes (primary kr') = key.
Proof.
  unfold promote. destruct (bytes_eqb_spec (key_bytes (primary kr)) key) as [E|Ne].
  - intros [= <-]. split; [reflexivity|exact E].
  - destruct (take_first key (secondaries kr)) as [[x r]|] eqn:T; [|discriminate].
    intros [= <-]. apply take_first_some in T as (E & l1 & l2 & El & -> & _).
    split; [|exact E]. unfold ring_keys. cbn [primary secondaries]. rewrite El.
    rewrite (Permutation_app_comm l1 (x :: l2)), (Permutation_app_comm l1 l2). cbn [app]. apply perm_swap.
Qed.
Lemma promote_err kr key kr' e : promote kr key = (kr', Err e) ->
  kr' = kr /\ e = NotInRing /\ forall k, In k (ring_keys kr) -> key_bytes k <> key.
Proof.
  unfold promote. destruct (bytes_eqb_spec (key_bytes (primary kr)) key) as [E|Ne]; [discriminate|].
  destruct (take_first key (secondaries kr)) as [[x r]|] eqn:T; [discriminate|].
  intros [= <- <-]. split; [reflexivity|]. split; [reflexivity|].
  intros k [<-|Hin]; [exact Ne|]. exact (take_first_none _ _ T k Hin).
Qed.
Lemma remove_ok kr key kr' : remove_secondary kr key = (kr', Ok tt) ->
  primary kr' = primary kr /\ key_bytes (primary kr) <> key /\
  exists k, key_bytes k = key /\ Permutation (ring_keys kr) (k :: ring_keys kr').
Proof.
  unfold remove_secondary. destruct (bytes_eqb_spec (key_bytes (primary kr)) key) as [E|Ne]; [discriminate|].
  destruct (take_first key (secondaries kr)) as [[x r]|] eqn:T; [|discriminate].
  intros [= <-]. apply take_first_some in T as (E & l1 & l2 & El & -> & _).
  split; [reflexivity|]. split; [exact Ne|]. exists x. split; [exact E|].
  unfold ring_keys. cbn [primary secondaries]. rewrite El.
  rewrite (Permutation_app_comm l1 (x :: l2)), (Permutation_app_comm l1 l2). cbn [app]. apply perm_swap.
Qed.
Lemma remove_err kr key kr' e : remove_secondary kr key = (kr', Err e) ->
  kr' = kr /\ ((e = IsPrimary /\ key_bytes (primary kr) = key) \/
               (e = NotInRing /\ forall k, In k (ring_keys kr) -> key_bytes k <> key)).
Proof.
  unfold remove_secondary. destruct (bytes_eqb_spec (key_bytes (primary kr)) key) as [E|Ne].
  - intros [= <- <-]. auto.
  - destruct (take_first key (secondaries kr)) as [[x r]|] eqn:T; [discriminate|].
    intros [= <- <-]. split; [reflexivity|]. right. split; [reflexivity|].
    intros k [<-|Hin]; [exact Ne|]. exact (take_first_none _ _ T k Hin).
Qed.

Lemma kr_step_nodup kr o : NoDup (ring_keys kr) -> NoDup (ring_keys (kr_step kr o)).
Proof.
  intros H. destruct o as [k|b|b]; cbn [kr_step].
  - destruct (insert_keys kr k) as [[_ ->]|(Hn & -> & _)]; [exact H|].
    rewrite (Permutation_app_comm (ring_keys kr) [k]). cbn [app]. constructor; assumption.
  - destruct (remove_secondary kr b) as [kr' [[]|e]] eqn:R; cbn [fst].
    + apply remove_ok in R as (_ & _ & k & _ & P). rewrite P in H. inversion H; assumption.
    + apply remove_err in R as [-> _]. exact H.
  - destruct (promote kr b) as [kr' [[]|e]] eqn:R; cbn [fst].
    + apply promote_ok in R as [P _]. rewrite <- P. exact H.
    + apply promote_err in R as [-> _]. exact H.
Qed.
Lemma kr_run_nodup ops : forall kr, NoDup (ring_keys kr) -> NoDup (ring_keys (kr_run kr ops)).
Proof.
  unfold kr_run. induction ops as [|o ops IH]; intros kr H; [exact H|]. cbn [fold_left]. apply IH, kr_step_nodup, H.
Qed.
Lemma keyring_new_nodup p : NoDup (ring_keys (keyring_new p)).
Proof. repeat constructor. intros []. Qed.
Lemma with_secondaries_run p l : with_secondaries p l = kr_run (keyring_new p) (map KInsert l).
Proof.
  unfold with_secondaries, kr_run. generalize (keyring_new p).
  induction l as [|k l IH]; intros kr; [reflexivity|]. cbn [map fold_left kr_step]. apply IH.
Qed.
Lemma with_secondaries_nodup p l : NoDup (ring_keys (with_secondaries p l)).
Proof. rewrite with_secondaries_run. apply kr_run_nodup, keyring_new_nodup. Qed.
Lemma with_secondaries_keys p l k :
  In k (ring_keys (with_secondaries p l)) <-> k = p \/ In k l.
Proof.
  rewrite with_secondaries_run. unfold kr_run.
  assert (forall l kr, In k (ring_keys (fold_left kr_step (map KInsert l) kr)) <-> In k (ring_keys kr) \/ In k l) as G.
  { clear l. induction l as [|x l IH]; intros kr; cbn [map fold_left kr_step In]; [tauto|].
    rewrite IH. destruct (insert_keys kr x) as [[Hin ->]|(Hn & -> & _)].
    - split; [tauto|]. intros [H|[<-|H]]; auto.
    - rewrite in_app_iff. cbn [In]. tauto. }
  rewrite G. cbn [ring_keys keyring_new primary secondaries In]. intuition congruence.
Qed.

(** Which keys survive a history: a key leaves the ring only through a
    successful removal naming its bytes. *)
Lemma kr_step_keeps kr o k : In k (ring_keys kr) ->
  (forall b, o = KRemove b -> b <> key_bytes k) -> In k (ring_keys (kr_step kr o)).
Proof.
  intros Hin Hr. destruct o as [x|b|b]; cbn [kr_step].
  - destruct (insert_keys kr x) as [[_ ->]|(_ & -> & _)]; [exact Hin|]. apply in_app_iff. auto.
  - destruct (remove_secondary kr b) as [kr' [[]|e]] eqn:R; cbn [fst].
    + apply remove_ok in R as (_ & _ & x & Ex & P). rewrite P in Hin.
      destruct Hin as [->|Hin]; [|exact Hin]. exfalso. apply (Hr b eq_refl). congruence.
    + apply remove_err in R as [-> _]. exact Hin.
  - destruct (promote kr b) as [kr' [[]|e]] eqn:R; cbn [fst].
    + apply promote_ok in R as [P _]. rewrite <- P. exact Hin.
    + apply promote_err in R as [-> _]. exact Hin.
Qed.
Lemma kr_run_keeps ops : forall kr k, In k (ring_keys kr) -> ~ In (KRemove (key_bytes k)) ops ->
  In k (ring_keys (kr_run kr ops)).
Proof.
  unfold kr_run. induction ops as [|o ops IH]; intros kr k Hin Hr; [exact Hin|]. cbn [fold_left].
  apply IH; [apply kr_step_keeps; [exact Hin|]|].
  - intros b -> ->. apply Hr. left. reflexivity.
  - intros H. apply Hr. right. exact H.
Qed.
(** No key appears that was not inserted. *)
Lemma kr_run_origin ops : forall kr k, In k (ring_keys (kr_run kr ops)) ->
  In k (ring_keys kr) \/ In (KInsert k) ops.
Proof.
  unfold kr_run. induction ops as [|o ops IH]; intros kr k Hin; [left; exact Hin|]. cbn [fold_left] in Hin.
  apply IH in Hin as [Hin|Hin]; [|right; right; exact Hin].
  destruct o as [x|b|b]; cbn [kr_step] in Hin.
  - destruct (insert_keys kr x) as [[_ E]|(_ & E & _)]; rewrite E in Hin; [auto|].
    apply in_app_iff in Hin as [|[<-|[]]]; [auto|]. right. left. reflexivity.
  - destruct (remove_secondary kr b) as [kr' [[]|e]] eqn:R; cbn [fst] in Hin.
    + apply remove_ok in R as (_ & _ & x & _ & P). left. rewrite P. right. exact Hin.
    + apply remove_err in R as [-> _]. auto.
  - destruct (promote kr b) as [kr' [[]|e]] eqn:R; cbn [fst] in Hin.
    + apply promote_ok in R as [P _]. left. rewrite P. exact Hin.
    + apply promote_err in R as [-> _]. auto.
Qed.
(** Only promotion changes the primary. *)
Lemma kr_primary_stable ops : forall kr, (forall b, ~ In (KPromote b) ops) ->
  primary (kr_run kr ops) = primary kr.
Proof.
  unfold kr_run. induction ops as [|o ops IH]; intros kr H; [reflexivity|]. cbn [fold_left].
  rewrite IH by (intros b Hb; apply (H b); right; exact Hb).
  destruct o as [k|b|b]; cbn [kr_step].
  - destruct (insert_keys kr k) as [[_ ->]|(_ & _ & ->)]; reflexivity.
  - destruct (remove_secondary kr b) as [kr' [[]|e]] eqn:R; cbn [fst].
    + apply remove_ok in R as (-> & _). reflexivity.
    + apply remove_err in R as [-> _]. reflexivity.
  - exfalso. apply (H b). left. reflexivity.
Qed.
(** Two keys of one ring with the same bytes: the calls that name a key by its
    bytes always mean the first. *)
Lemma same_bytes_witness : exists p s,
  wf_key p /\ wf_key s /\ p <> s /\
  In s (secondaries (with_secondaries p [s])) /\
  promote (with_secondaries p [s]) (key_bytes s) = (with_secondaries p [s], Ok tt) /\
  remove_secondary (with_secondaries p [s]) (key_bytes s) = (with_secondaries p [s], Err IsPrimary).
Proof.
  exists (Aes256 (repeat 7 32)), (ChaChaKey (repeat 7 32)).
  assert (wf_bytes (repeat 7 32)) by (apply Forall_forall; intros x Hx; apply repeat_spec in Hx; subst; reflexivity).
  repeat split; try assumption; try discriminate. left. reflexivity.
Qed.
