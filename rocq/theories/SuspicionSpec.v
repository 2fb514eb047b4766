(** Specification vocabulary for suspicion timers. *)
From Verif Require Import Base TimeModel SuspicionModel.
Local Open Scope N_scope.

(** What is assumed of the floored Lifeguard formula for one [k], [min], [max]
    (all in nanoseconds; the formula's value is in milliseconds): never above
    max, never rising with more confirmations, and down at min after [k].
    SuspicionReal.v proves it of the exact formula. *)
Definition lg_ok (lg : lifeguard) (k min max : N) : Prop :=
  (forall n, 1 <= n <= k -> (lg n k min max <= Z.of_N (max / MS))%Z) /\
  (forall n m, 1 <= n -> n <= m -> m <= k -> (lg m k min max <= lg n k min max)%Z) /\
  (lg k k min max <= Z.of_N (min / MS))%Z.
(** Times never decrease along a history, start at [t] or later, and are
    representable. *)
Fixpoint clock (t : N) (l : list (N * N)) : Prop :=
  match l with
  | [] => True
  | (_, u) :: r => t <= u <= DUR_MAX /\ clock u r
  end.
(** Every accusation comes while the timer is still running. *)
Fixpoint in_time (lg : lifeguard) (s : suspicion) (l : list (N * N)) : Prop :=
  match l with
  | [] => True
  | (from, u) :: r => u <= s_deadline s /\ in_time lg (fst (susp_confirm lg s from u)) r
  end.
(** The distinct accusers of a history, in order of first appearance, other
    than those in [seen]. *)
Fixpoint distinct_accusers (seen : list N) (l : list (N * N)) : list N :=
  match l with
  | [] => []
  | (from, _) :: r =>
    if existsb (N.eqb from) seen then distinct_accusers seen r
    else from :: distinct_accusers (from :: seen) r
  end.
