(** Property C17: health awareness. *)
From Coq Require Import ZArith.
From Verif Require Import Base TimeModel AwarenessModel AwarenessFacts.
Local Open Scope N_scope.

(** C17: the score stays between 0 and the maximum minus one. *)
Theorem C17_score_bounded : forall m a ops, aware_new m = Some a ->
  aw_max (aw_run a ops) = m /\ aw_score (aw_run a ops) <= m - 1 /\ aw_score (aw_run a ops) < m.
Proof. exact aw_bounded. Qed.
Print Assumptions C17_score_bounded.
Example C17_score_bounded_ex : exists a, aware_new 8 = Some a /\
  aw_score (aw_run a [Failure 4294967295; Failure 4294967295; Success; Failure 0]) = 6.
Proof. eexists. split; reflexivity. Qed.

(** C17: it is the clamped running sum of the recorded signals: successes
    lower it by one down to 0, failures raise it by their severity up to the
    maximum minus one, and machine arithmetic never shows. *)
Theorem C17_score_is_clamped_sum : forall m a ops, m <= u32_max -> aware_new m = Some a ->
  Z.of_N (aw_score (aw_run a ops)) = fold_left (clamp_step (Z.of_N m)) ops 0%Z.
Proof.
  intros m a ops Hm H. pose proof H as H0. apply aw_new_inv in H as [H H1].
  rewrite (aw_refines m ops Hm a H H1). unfold aware_new in H0. destruct (m =? 0); [discriminate|].
  injection H0 as <-. reflexivity.
Qed.
Print Assumptions C17_score_is_clamped_sum.
Example C17_score_is_clamped_sum_ex :
  fold_left (clamp_step 8) [Failure 3; Success; Failure 100; Success] 0%Z = 6%Z.
Proof. reflexivity. Qed.

(** C17: scaling multiplies by score plus one when that is representable, never
    shortens, and never leaves the range of durations. *)
Theorem C17_scale_never_shortens : forall a t, t <= scale_timeout a t.
Proof. exact scale_ge. Qed.
Print Assumptions C17_scale_never_shortens.
Theorem C17_scale_exact : forall a t, t * (aw_score a + 1) <= DUR_MAX ->
  scale_timeout a t = t * (aw_score a + 1).
Proof. exact scale_exact. Qed.
Print Assumptions C17_scale_exact.
Theorem C17_scale_in_range : forall a t, t <= DUR_MAX -> scale_timeout a t <= DUR_MAX.
Proof. exact scale_range. Qed.
Print Assumptions C17_scale_in_range.
Example C17_scale_ex : scale_timeout (mkAware 8 3) SEC = 4 * SEC /\ SEC * (3 + 1) <= DUR_MAX /\
  scale_timeout (mkAware 8 3) DUR_MAX = DUR_MAX.
Proof. repeat split; vm_compute; congruence. Qed.

(** C17, finding: scaling is not monotone in the score.  Where the product
    leaves the range of durations the unscaled timeout is used, so a less
    healthy node can wait less. *)
Theorem C17_scale_monotone_refuted : exists a b t, aw_score a < aw_score b /\ t <= DUR_MAX /\
  scale_timeout b t < scale_timeout a t.
Proof. exists (mkAware 8 1), (mkAware 8 2), (DUR_MAX / 2). repeat split. vm_compute. congruence. Qed.
Print Assumptions C17_scale_monotone_refuted.
