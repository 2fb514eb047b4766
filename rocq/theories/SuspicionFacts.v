(** Proofs about suspicion timers. *)
From Verif Require Import Base BaseFacts TimeModel SuspicionModel SuspicionSpec.
Local Open Scope N_scope.

(** The total timeout after [n] confirmations. *)
Definition susp_timeout (lg : lifeguard) (n k min max : N) : N :=
  if n =? 0 then (if k <? 1 then min else max)
  else if (lg n k min max <? Z.of_N (as_millis min))%Z then min
  else from_millis (N.min (Z.to_N (lg n k min max)) u64_max).

Lemma max_ms_u64 d : d <= DUR_MAX -> d / MS <= DUR_MAX / MS.
Proof. intros H. apply N.div_le_mono; [discriminate|exact H]. Qed.

Lemma timeout_bounds lg n k m max : lg_ok lg k (m * MS) max -> m * MS <= max ->
  n <= k -> m * MS <= susp_timeout lg n k (m * MS) max <= max \/ u64_max < m.
Proof.
  intros (Hu & Ha & Hk) Hm Hn. destruct (N.lt_ge_cases u64_max m) as [|Hm64]; [auto|]. left.
  unfold susp_timeout, as_millis. rewrite N.div_mul by discriminate.
  destruct (N.eqb_spec n 0); [destruct (k <? 1); lia|].
  destruct (Z.ltb_spec (lg n k (m * MS)%N max) (Z.of_N m)); [lia|].
  assert ((lg n k (m * MS)%N max <= Z.of_N (max / MS))%Z) as U by (apply Hu; lia).
  assert (max / MS * MS <= max) by (rewrite N.mul_comm; apply N.mul_div_le; discriminate).
  unfold from_millis. split.
  - apply N.mul_le_mono_r. lia.
  - transitivity (max / MS * MS); [|assumption]. apply N.mul_le_mono_r. lia.
Qed.
Lemma timeout_mono lg n n' k m max : lg_ok lg k (m * MS) max -> m * MS <= max -> m <= u64_max ->
  n <= n' -> n' <= k -> susp_timeout lg n' k (m * MS) max <= susp_timeout lg n k (m * MS) max.
Proof.
  intros HL Hm Hm64 Hn Hk. pose proof (timeout_bounds lg n' k m max HL Hm Hk) as B.
  pose proof (timeout_bounds lg n k m max HL Hm ltac:(lia)) as B0.
  destruct HL as (Hu & Ha & Hkk).
  destruct (N.eq_dec n 0) as [->|Hn0].
  { unfold susp_timeout at 2. change (0 =? 0) with true. cbv iota.
    destruct (N.ltb_spec k 1); [|lia]. assert (n' = 0) as -> by lia. unfold susp_timeout. cbn.
    destruct (N.ltb_spec k 1); lia. }
  pose proof (Ha n n' ltac:(lia) Hn Hk) as A.
  unfold susp_timeout, as_millis in *. rewrite N.div_mul in * by discriminate.
  destruct (N.eqb_spec n 0); [lia|]. destruct (N.eqb_spec n' 0); [lia|].
  destruct (Z.ltb_spec (lg n' k (m * MS)%N max) (Z.of_N m)) as [C|C].
  - lia.
  - destruct (Z.ltb_spec (lg n k (m * MS)%N max) (Z.of_N m)) as [C'|C']; [lia|].
    unfold from_millis. apply N.mul_le_mono_r. lia.
Qed.
Lemma timeout_last lg k m max : lg_ok lg k (m * MS) max -> m <= u64_max ->
  susp_timeout lg k k (m * MS) max = m * MS.
Proof.
  intros (Hu & Ha & Hk) Hm. unfold susp_timeout, as_millis. rewrite N.div_mul in * by discriminate.
  destruct (N.eqb_spec k 0) as [->|]; [reflexivity|].
  destruct (Z.ltb_spec (lg k k (m * MS)%N max) (Z.of_N m)); [reflexivity|].
  unfold from_millis. f_equal. lia.
Qed.

Lemma deadline_form now start T : start <= now <= DUR_MAX -> tadd now (tsub T (tsub now start)) = N.max now (tadd start T).
Proof. unfold tadd, tsub. lia. Qed.

Lemma existsb_in x l : existsb (N.eqb x) l = true <-> In x l.
Proof.
  rewrite existsb_exists. split.
  - intros (y & Hy & E). apply N.eqb_eq in E. congruence.
  - intros H. exists x. rewrite N.eqb_refl. auto.
Qed.
(** The state after a history, computed forward. *)
Definition susp_state (lg : lifeguard) (k min max start t : N) (s : suspicion) : Prop :=
  s_k s = k /\ s_min s = min /\ s_max s = max /\ s_start s = start /\ start <= t <= DUR_MAX /\
  s_n s <= k /\ NoDup (s_confirmed s) /\ blen (s_confirmed s) = s_n s + 1 /\
  (s_deadline s = tadd start (susp_timeout lg (s_n s) k min max) \/
   (1 <= s_n s /\ exists u, start <= u <= t /\ s_deadline s = N.max u (tadd start (susp_timeout lg (s_n s) k min max)))).

Lemma susp_state_new lg from k min max now : now <= DUR_MAX ->
  susp_state lg k min max now now (susp_new from k min max now).
Proof.
  intros H. unfold susp_state, susp_new. cbn [s_k s_min s_max s_start s_n s_confirmed s_deadline].
  repeat split; try lia.
  - repeat constructor. intros [].
  - left. reflexivity.
Qed.
Lemma susp_state_step lg k min max start t s from u : t <= u <= DUR_MAX ->
  susp_state lg k min max start t s -> susp_state lg k min max start u (fst (susp_confirm lg s from u)).
Proof.
  intros Hu (Ek & Emin & Emax & Es & Ht & Hn & Hnd & Hlen & Hd). unfold susp_confirm.
  assert (susp_state lg k min max start u s) as Same.
  { unfold susp_state. repeat split; try assumption; try lia. destruct Hd as [Hd|(H1 & v & Hv & Hd)]; [auto|].
    right. split; [exact H1|]. exists v. split; [lia|exact Hd]. }
  destruct (N.leb_spec (s_k s) (s_n s)); [exact Same|].
  destruct (existsb (N.eqb from) (s_confirmed s)) eqn:X; [exact Same|].
  cbn [fst]. unfold susp_state. cbn [s_k s_min s_max s_start s_n s_confirmed s_deadline].
  repeat split; try assumption; try lia.
  - constructor; [|assumption]. rewrite <- existsb_in. congruence.
  - rewrite blen_cons. lia.
  - right. split; [lia|]. exists u. split; [lia|].
    unfold remaining_suspicion_time, susp_timeout. rewrite Ek, Emin, Emax, Es.
    destruct (N.eqb_spec (s_n s + 1) 0); [lia|].
    destruct (_ <? _)%Z; apply deadline_form; lia.
Qed.
Lemma susp_state_run lg k min max start hist : forall t s, clock t hist ->
  susp_state lg k min max start t s ->
  exists t', t <= t' /\ susp_state lg k min max start t' (susp_run lg s hist).
Proof.
  unfold susp_run. induction hist as [|[f u] hist IH]; intros t s Hc Hs; cbn [fold_left].
  - exists t. split; [lia|exact Hs].
  - destruct Hc as [Hu Hc]. destruct (IH u _ Hc (susp_state_step lg k min max start t s f u Hu Hs)) as (t' & Ht & H).
    exists t'. split; [lia|exact H].
Qed.

(** Counting: the number of confirmations is the number of distinct accusers
    other than the first, capped at [k]. *)
Lemma susp_count lg hist : forall s, s_n s <= s_k s ->
  s_n (susp_run lg s hist) = N.min (s_k s) (s_n s + blen (distinct_accusers (s_confirmed s) hist)).
Proof.
  unfold susp_run. induction hist as [|[f u] hist IH]; intros s Hn; cbn [fold_left distinct_accusers fst snd].
  - change (@blen N []) with 0. lia.
  - unfold susp_confirm at 2. destruct (N.leb_spec (s_k s) (s_n s)) as [L|L].
    + cbn [fst]. rewrite IH by assumption. destruct (existsb _ _); rewrite ?blen_cons; lia.
    + destruct (existsb (N.eqb f) (s_confirmed s)); cbn [fst].
      * apply IH, Hn.
      * rewrite IH by (cbn [s_n s_k]; lia). cbn [s_n s_k s_confirmed]. rewrite blen_cons. lia.
Qed.

Lemma susp_pending_mono lg k m max start t s from u : lg_ok lg k (m * MS) max ->
  m * MS <= max -> m <= u64_max -> susp_state lg k (m * MS) max start t s ->
  t <= u -> u <= s_deadline s -> u <= DUR_MAX ->
  s_deadline (fst (susp_confirm lg s from u)) <= s_deadline s.
Proof.
  intros HL Hm Hm64 Hs Ht Hd Hu.
  destruct Hs as (Ek & Emin & Emax & Es & Htr & Hn & Hnd & Hlen & Hdl). unfold susp_confirm.
  destruct (N.leb_spec (s_k s) (s_n s)); [cbn; lia|].
  destruct (existsb (N.eqb from) (s_confirmed s)); [cbn; lia|]. cbn [fst s_deadline].
  assert (remaining_suspicion_time lg (s_n s + 1) (s_k s) (tsub u (s_start s)) (s_min s) (s_max s)
          = tsub (susp_timeout lg (s_n s + 1) k (m * MS) max) (tsub u start)) as ->.
  { unfold remaining_suspicion_time, susp_timeout. rewrite Ek, Emin, Emax, Es.
    destruct (N.eqb_spec (s_n s + 1) 0); [lia|]. destruct (_ <? _)%Z; reflexivity. }
  rewrite deadline_form by lia.
  pose proof (timeout_mono lg (s_n s) (s_n s + 1) k m max HL Hm Hm64 ltac:(lia) ltac:(lia)) as M.
  assert (tadd start (susp_timeout lg (s_n s + 1) k (m * MS) max) <= tadd start (susp_timeout lg (s_n s) k (m * MS) max))
    by (unfold tadd; lia).
  destruct Hdl as [Hdl|(_ & v & Hv & Hdl)]; lia.
Qed.

Lemma susp_bounds lg from k m max start hist : lg_ok lg k (m * MS) max -> m * MS <= max -> m <= u64_max ->
  start <= DUR_MAX -> clock start hist ->
  let s := susp_run lg (susp_new from k (m * MS) max start) hist in
  tadd start (m * MS) <= s_deadline s /\
  (in_time lg (susp_new from k (m * MS) max start) hist -> s_deadline s <= tadd start max).
Proof.
  intros HL Hm Hm64 Hs Hc s. split.
  - destruct (susp_state_run lg k (m * MS) max start hist start _ Hc (susp_state_new lg from k (m * MS) max start Hs))
      as (t' & _ & S). fold s in S. destruct S as (_ & _ & _ & _ & _ & Hn & _ & _ & Hd).
    destruct (timeout_bounds lg (s_n s) k m max HL Hm Hn) as [[B _]|]; [|lia].
    assert (tadd start (m * MS) <= tadd start (susp_timeout lg (s_n s) k (m * MS) max)) by (unfold tadd; lia).
    destruct Hd as [->|(_ & u & _ & ->)]; lia.
  - unfold s. clear s.
    assert (forall hist t s0, clock t hist -> susp_state lg k (m * MS) max start t s0 -> in_time lg s0 hist ->
              s_deadline s0 <= tadd start max -> s_deadline (susp_run lg s0 hist) <= tadd start max) as G.
    { clear hist Hc. unfold susp_run. induction hist as [|[f u] hist IH]; intros t s0 Hc S I B; [exact B|].
      cbn [fold_left fst snd]. destruct Hc as [Hu Hc]. destruct I as [I1 I2].
      apply (IH u); auto.
      - apply (susp_state_step lg k (m * MS) max start t); auto.
      - pose proof (susp_pending_mono lg k m max start t s0 f u HL Hm Hm64 S ltac:(lia) I1 ltac:(lia)). lia. }
    intros I. apply (G hist start _ Hc (susp_state_new lg from k (m * MS) max start Hs) I).
    unfold susp_new. cbn [s_deadline]. destruct (k <? 1); unfold tadd; lia.
Qed.

Lemma susp_accelerated lg from k m max start hist : lg_ok lg k (m * MS) max -> m <= u64_max ->
  start <= DUR_MAX -> clock start hist ->
  let s := susp_run lg (susp_new from k (m * MS) max start) hist in
  k <= blen (distinct_accusers [from] hist) ->
  s_deadline s = tadd start (m * MS) \/
  exists u, In u (map snd hist) /\ tadd start (m * MS) <= u /\ s_deadline s = u.
Proof.
  intros HL Hm64 Hs Hc s Hk.
  assert (s_n s = k) as En.
  { unfold s. rewrite susp_count by (cbn; lia). cbn [susp_new s_k s_n s_confirmed]. lia. }
  assert (forall hist s0 dom, susp_state lg k (m * MS) max start dom s0 -> clock dom hist ->
     let s1 := susp_run lg s0 hist in
     (s_n s1 = s_n s0 /\ s_deadline s1 = s_deadline s0) \/
     exists u, In u (map snd hist) /\ s_deadline s1 = N.max u (tadd start (susp_timeout lg (s_n s1) k (m * MS) max))) as G.
  { clear. unfold susp_run. induction hist as [|[f u] hist IH]; intros s0 dom S Hc; [left; auto|].
    cbn [fold_left fst snd map]. destruct Hc as [Hu Hc].
    pose proof (susp_state_step lg k (m * MS) max start dom s0 f u Hu S) as S'.
    destruct (IH _ u S' Hc) as [[E1 E2]|(v & Hv & E)].
    - cbv zeta. rewrite E1, E2. unfold susp_confirm.
      destruct (N.leb_spec (s_k s0) (s_n s0)); [left; auto|].
      destruct (existsb (N.eqb f) (s_confirmed s0)); [left; auto|]. right. exists u. split; [left; reflexivity|].
      cbn [fst s_deadline s_n]. destruct S as (Ek & Emin & Emax & Es & Ht & Hn & _).
      unfold remaining_suspicion_time, susp_timeout. rewrite Ek, Emin, Emax, Es.
      destruct (N.eqb_spec (s_n s0 + 1) 0); [lia|].
      destruct (_ <? _)%Z; apply deadline_form; lia.
    - right. exists v. split; [right; exact Hv|exact E]. }
  destruct (G hist (susp_new from k (m * MS) max start) start) as [[E1 E2]|(u & Hu & E)]; auto.
  - apply susp_state_new, Hs.
  - fold s in E1, E2. left. rewrite E2. cbn [susp_new s_deadline s_n] in *.
    assert (k = 0) as -> by lia. reflexivity.
  - fold s in E. rewrite En, (timeout_last lg k m max HL Hm64) in E.
    destruct (N.le_gt_cases (tadd start (m * MS)) u).
    + right. exists u. split; [exact Hu|]. split; [assumption|lia].
    + left. lia.
Qed.

Lemma clock_app t l l' : clock t (l ++ l') -> clock t l.
Proof. revert t. induction l as [|[f u] l IH]; intros t; cbn; [auto|]. intros [A B]. split; [exact A|]. apply IH, B. Qed.
Lemma susp_state_run_last lg k min max start hist from u : forall t s, clock t (hist ++ [(from, u)]) ->
  susp_state lg k min max start t s ->
  exists t', t' <= u <= DUR_MAX /\ susp_state lg k min max start t' (susp_run lg s hist).
Proof.
  unfold susp_run. induction hist as [|[f v] hist IH]; intros t s Hc Hs; cbn [fold_left app clock] in *.
  - exists t. split; [lia|exact Hs].
  - destruct Hc as [Hu Hc]. apply (IH v _ Hc). exact (susp_state_step lg k min max start t s f v Hu Hs).
Qed.
Lemma susp_only_shortens lg from k m max start hist from' u : lg_ok lg k (m * MS) max ->
  m * MS <= max -> m <= u64_max -> start <= DUR_MAX -> clock start (hist ++ [(from', u)]) ->
  let s := susp_run lg (susp_new from k (m * MS) max start) in
  u <= s_deadline (s hist) -> s_deadline (s (hist ++ [(from', u)])) <= s_deadline (s hist).
Proof.
  intros HL Hm Hm64 Hs Hc s Hu.
  destruct (susp_state_run_last lg k (m * MS) max start hist from' u start _ Hc
              (susp_state_new lg from k (m * MS) max start Hs)) as (t & Ht & S).
  unfold s, susp_run in *. rewrite fold_left_app. cbn [fold_left fst snd].
  apply (susp_pending_mono lg k m max start t); auto; lia.
Qed.
