(** Proofs about health awareness. *)
From Coq Require Import ZArith.
From Verif Require Import Base TimeModel AwarenessModel.
Local Open Scope N_scope.

Definition aw_inv (m : N) (a : awareness) : Prop := aw_max a = m /\ aw_score a <= m - 1.

Lemma aw_step_inv m a o : aw_inv m a -> aw_inv m (aw_step a o).
Proof.
  intros [E B]. destruct o as [|s]; unfold aw_inv; cbn; (split; [assumption|]); rewrite ?E; lia.
Qed.
Lemma aw_run_inv m ops : forall a, aw_inv m a -> aw_inv m (aw_run a ops).
Proof.
  unfold aw_run. induction ops as [|o ops IH]; intros a H; [exact H|]. cbn [fold_left]. apply IH, aw_step_inv, H.
Qed.
Lemma aw_new_inv m a : aware_new m = Some a -> aw_inv m a /\ 1 <= m.
Proof.
  unfold aware_new. destruct (N.eqb_spec m 0); [discriminate|]. intros [= <-]. unfold aw_inv. cbn. lia.
Qed.
Lemma aw_bounded m a ops : aware_new m = Some a ->
  aw_max (aw_run a ops) = m /\ aw_score (aw_run a ops) <= m - 1 /\ aw_score (aw_run a ops) < m.
Proof.
  intros H. apply aw_new_inv in H as [H Hm]. apply (aw_run_inv m ops) in H as [E B]. split; [exact E|]. lia.
Qed.
(** The specification: a counter clamped to [0, m-1] in unbounded integers. *)
Definition clamp_step (m : Z) (s : Z) (o : aw_op) : Z :=
  match o with
  | Success => Z.max 0 (s - 1)
  | Failure k => Z.min (m - 1) (s + Z.of_N k)
  end.
Lemma aw_refines m ops : m <= u32_max -> forall a, aw_inv m a -> 1 <= m ->
  Z.of_N (aw_score (aw_run a ops)) = fold_left (clamp_step (Z.of_N m)) ops (Z.of_N (aw_score a)).
Proof.
  intros Hm. unfold aw_run. induction ops as [|o ops IH]; intros a H H1; [reflexivity|]. cbn [fold_left].
  rewrite IH by (auto using aw_step_inv). f_equal. destruct H as [E B].
  destruct o as [|s]; cbn [aw_step record_success record_failure aw_score clamp_step]; rewrite ?E; unfold sadd32;
  unfold u32_max in *; lia.
Qed.
Lemma scale_ge a t : t <= scale_timeout a t.
Proof.
  unfold scale_timeout, dmul. destruct (N.ltb_spec DUR_MAX (t * (aw_score a + 1))); [lia|]. nia.
Qed.
Lemma scale_exact a t : t * (aw_score a + 1) <= DUR_MAX -> scale_timeout a t = t * (aw_score a + 1).
Proof.
  intros H. unfold scale_timeout, dmul. destruct (N.ltb_spec DUR_MAX (t * (aw_score a + 1))); lia.
Qed.
Lemma scale_range a t : t <= DUR_MAX -> scale_timeout a t <= DUR_MAX.
Proof.
  intros H. unfold scale_timeout, dmul. destruct (N.ltb_spec DUR_MAX (t * (aw_score a + 1))); lia.
Qed.
