(** Property C19: the Lifeguard formula over the reals. *)
From Coq Require Import Reals Lra.
From Verif Require Import Base TimeModel SuspicionModel SuspicionSpec SuspicionReal.
Local Open Scope R_scope.

(** C19: starts at max. *)
Theorem C19_starts_at_max : forall k min max, raw_timeout 0 k min max = max.
Proof. intros. unfold raw_timeout. rewrite frac_0. lra. Qed.
Print Assumptions C19_starts_at_max.
(** C19: ends at min after k confirmations. *)
Theorem C19_ends_at_min : forall k min max, (1 <= k)%N -> raw_timeout k k min max = min.
Proof. intros k min max Hk. unfold raw_timeout. rewrite (frac_k k Hk). lra. Qed.
Print Assumptions C19_ends_at_min.
(** C19: always between min and max. *)
Theorem C19_bounded : forall n k min max, (1 <= k)%N -> (n <= k)%N -> min <= max ->
  min <= raw_timeout n k min max <= max.
Proof. exact raw_bounds. Qed.
Print Assumptions C19_bounded.
(** C19: strictly decreasing in the number of confirmations. *)
Theorem C19_strictly_decreasing : forall n m k min max, (1 <= k)%N -> (n < m)%N -> min < max ->
  raw_timeout m k min max < raw_timeout n k min max.
Proof. exact raw_strict. Qed.
Print Assumptions C19_strictly_decreasing.
Example C19_ex : (1 <= 3)%N /\ (1 < 2)%N /\ (2 <= 3)%N /\ 4 < 24.
Proof. repeat split; try lia; lra. Qed.
(** C19: the floored formula meets what the timer theorems (C18) assume. *)
Theorem C19_meets_timer_assumptions : forall k min max, (1 <= k)%N -> (min <= max)%N ->
  lg_ok lg_real k min max.
Proof. exact lg_real_ok. Qed.
Print Assumptions C19_meets_timer_assumptions.
Example C19_meets_timer_assumptions_ex : (1 <= 2)%N /\ (4000 * MS <= 24000 * MS)%N.
Proof. split; vm_compute; congruence. Qed.
