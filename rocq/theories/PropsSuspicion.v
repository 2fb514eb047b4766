(** Property C18: suspicion timers.  [min] is a whole number of milliseconds,
    as the endpoint's own timeouts are (endpoint/mod.rs:1243-1244); the
    floating-point formula is the oracle [lg], of which only [lg_ok] is
    assumed (proved of the exact formula in PropsSuspicionReal.v). *)
From Verif Require Import Base BaseFacts TimeModel SuspicionModel SuspicionSpec SuspicionFacts.
Local Open Scope N_scope.

(** A crude instance: linear interpolation. *)
Definition lg_lin : lifeguard := fun n k min max =>
  (Z.of_N (max / MS) - Z.of_N n * (Z.of_N (max / MS) - Z.of_N (min / MS)) / Z.of_N k)%Z.
Definition ex_s := susp_new 1 3 (4000 * MS) (24000 * MS) 100.
Definition ex_hist : list (N * N) := [(2, 200); (1, 300); (2, 400); (3, 5000 * MS); (4, 6000 * MS); (5, 6000 * MS)].

(** C18: never earlier than start+min; never later than start+max as long as
    accusations arrive before the timer fires. *)
Theorem C18_deadline_bounds : forall lg from k m max start hist,
  lg_ok lg k (m * MS) max -> m * MS <= max -> m <= u64_max -> start <= DUR_MAX -> clock start hist ->
  let s := susp_run lg (susp_new from k (m * MS) max start) hist in
  tadd start (m * MS) <= s_deadline s /\
  (in_time lg (susp_new from k (m * MS) max start) hist -> s_deadline s <= tadd start max).
Proof. exact susp_bounds. Qed.
Print Assumptions C18_deadline_bounds.
Example C18_deadline_bounds_ex :
  lg_ok lg_lin 3 (4000 * MS) (24000 * MS) /\ clock 100 ex_hist /\ in_time lg_lin ex_s ex_hist /\
  s_deadline (susp_run lg_lin ex_s ex_hist) = 6000 * MS.
Proof.
  split.
  { unfold lg_ok, lg_lin. change (24000 * MS / MS) with 24000. change (4000 * MS / MS) with 4000.
    change (Z.of_N 24000 - Z.of_N 4000)%Z with 20000%Z. change (Z.of_N 3) with 3%Z. repeat split.
    - intros n Hn. pose proof (Z.div_pos (Z.of_N n * 20000) 3). lia.
    - intros n n' H1 H2 H3. pose proof (Z.div_le_mono (Z.of_N n * 20000) (Z.of_N n' * 20000) 3). lia.
    - vm_compute. congruence. }
  split; [vm_compute; intuition congruence|]. split; [vm_compute; intuition congruence|]. reflexivity.
Qed.

(** C18: an accusation while the timer runs never moves it later. *)
Theorem C18_pending_only_shortens : forall lg from k m max start hist from' u,
  lg_ok lg k (m * MS) max -> m * MS <= max -> m <= u64_max -> start <= DUR_MAX ->
  clock start (hist ++ [(from', u)]) ->
  let s := susp_run lg (susp_new from k (m * MS) max start) in
  u <= s_deadline (s hist) -> s_deadline (s (hist ++ [(from', u)])) <= s_deadline (s hist).
Proof. exact susp_only_shortens. Qed.
Print Assumptions C18_pending_only_shortens.
Example C18_pending_only_shortens_ex :
  s_deadline ex_s = 24000 * MS + 100 /\ s_deadline (fst (susp_confirm lg_lin ex_s 2 200)) = 17334 * MS + 100.
Proof. split; reflexivity. Qed.

(** C18: every accuser counts at most once, the first not at all, and no more
    than [k] are counted. *)
Theorem C18_each_accuser_once : forall lg from k min max start hist,
  s_n (susp_run lg (susp_new from k min max start) hist)
  = N.min k (blen (distinct_accusers [from] hist)).
Proof. intros. rewrite susp_count by (cbn; lia). reflexivity. Qed.
Print Assumptions C18_each_accuser_once.
Example C18_each_accuser_once_ex : distinct_accusers [1] ex_hist = [2; 3; 4; 5] /\ s_n (susp_run lg_lin ex_s ex_hist) = 3.
Proof. split; reflexivity. Qed.

(** C18: after [k] confirmations the deadline is start+min, or the moment of
    an accusation that came later than that. *)
Theorem C18_accelerated_to_min : forall lg from k m max start hist,
  lg_ok lg k (m * MS) max -> m <= u64_max -> start <= DUR_MAX -> clock start hist ->
  let s := susp_run lg (susp_new from k (m * MS) max start) hist in
  k <= blen (distinct_accusers [from] hist) ->
  s_deadline s = tadd start (m * MS) \/
  exists u, In u (map snd hist) /\ tadd start (m * MS) <= u /\ s_deadline s = u.
Proof. exact susp_accelerated. Qed.
Print Assumptions C18_accelerated_to_min.
Example C18_accelerated_to_min_ex :
  3 <= blen (distinct_accusers [1] [(2, 200); (3, 300); (4, 400)]) /\
  s_deadline (susp_run lg_lin ex_s [(2, 200); (3, 300); (4, 400)]) = 4000 * MS + 100.
Proof. split; [vm_compute; congruence|reflexivity]. Qed.

(** C18, finding: once the timer has run out, an accusation that arrives
    before the node is declared dead does move the deadline later. *)
Theorem C18_only_shortens_refuted : exists lg k min max from u,
  lg_ok lg k min max /\ min <= max /\ clock 100 [(from, u)] /\
  s_deadline (susp_new 1 k min max 100) < s_deadline (susp_run lg (susp_new 1 k min max 100) [(from, u)]).
Proof.
  exists (fun _ _ min _ => Z.of_N (min / MS)), 2, (4 * MS), (8 * MS), 2, (9 * MS).
  repeat split; intros; vm_compute; try exact I; congruence.
Qed.
Print Assumptions C18_only_shortens_refuted.
(** C18, finding: with a [min] that is not a whole number of milliseconds the
    accelerated deadline undercuts start+min (the formula is floored to
    milliseconds).  The endpoint itself never configures such a [min]. *)
Theorem C18_submillisecond_min_refuted : exists lg k min max hist,
  lg_ok lg k min max /\ min <= max /\ clock 0 hist /\
  s_deadline (susp_run lg (susp_new 1 k min max 0) hist) < tadd 0 min.
Proof.
  exists (fun _ _ min _ => Z.of_N (min / MS)), 1, (MS + 500000), (2 * MS), [(2, 10)].
  repeat split; intros; vm_compute; try exact I; congruence.
Qed.
Print Assumptions C18_submillisecond_min_refuted.
