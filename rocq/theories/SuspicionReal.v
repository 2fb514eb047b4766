(** The Lifeguard formula over the real numbers (suspicion/mod.rs:24-26, exact
    instead of floating-point), and its floor as an instance of the oracle of
    SuspicionModel.v. *)
From Coq Require Import Reals Lra.
From Verif Require Import Base BaseFacts TimeModel SuspicionModel SuspicionSpec.
Local Open Scope R_scope.

(** [n as f64], [k as f64]; durations in seconds *)
Definition Rn (n : N) : R := IZR (Z.of_N n).
(** suspicion/mod.rs:24 *)
Definition frac (n k : N) : R := ln (Rn n + 1) / ln (Rn k + 1).
(** suspicion/mod.rs:25 *)
Definition raw_timeout (n k : N) (min max : R) : R := max - frac n k * (max - min).
(** suspicion/mod.rs:26: [floor(raw * 1000)], durations given in nanoseconds *)
Definition lg_real : lifeguard := fun n k min max =>
  Int_part (raw_timeout n k (Rn min / 1000000000) (Rn max / 1000000000) * 1000).

Lemma Rn_pos n : 0 <= Rn n.
Proof. unfold Rn. apply IZR_le. lia. Qed.
Lemma Rn_le a b : (a <= b)%N -> Rn a <= Rn b.
Proof. intros H. unfold Rn. apply IZR_le. lia. Qed.
Lemma Rn_lt a b : (a < b)%N -> Rn a < Rn b.
Proof. intros H. unfold Rn. apply IZR_lt. lia. Qed.
Lemma ln_pos x : 1 < x -> 0 < ln x.
Proof. intros H. rewrite <- ln_1. apply ln_increasing; lra. Qed.
Lemma lnk_pos k : (1 <= k)%N -> 0 < ln (Rn k + 1).
Proof. intros H. apply ln_pos. pose proof (Rn_lt 0 k ltac:(lia)). change (Rn 0) with 0 in *. lra. Qed.

Lemma frac_0 k : frac 0 k = 0.
Proof. unfold frac. change (Rn 0) with 0. rewrite Rplus_0_l, ln_1. unfold Rdiv. apply Rmult_0_l. Qed.
Lemma frac_k k : (1 <= k)%N -> frac k k = 1.
Proof. intros H. unfold frac. apply Rinv_r. pose proof (lnk_pos k H). lra. Qed.
Lemma frac_lt n m k : (1 <= k)%N -> (n < m)%N -> frac n k < frac m k.
Proof.
  intros Hk H. unfold frac. apply Rmult_lt_compat_r.
  - apply Rinv_0_lt_compat, lnk_pos, Hk.
  - pose proof (Rn_lt n m H). pose proof (Rn_pos n). apply ln_increasing; lra.
Qed.
Lemma frac_le n m k : (1 <= k)%N -> (n <= m)%N -> frac n k <= frac m k.
Proof.
  intros Hk H. destruct (N.eq_dec n m) as [->|]; [lra|]. left. apply frac_lt; [exact Hk|lia].
Qed.
Lemma frac_range n k : (1 <= k)%N -> (n <= k)%N -> 0 <= frac n k <= 1.
Proof.
  intros Hk H. split.
  - rewrite <- (frac_0 k). apply frac_le; [exact Hk|lia].
  - pose proof (frac_le n k k Hk H). rewrite (frac_k k Hk) in *. assumption.
Qed.
Lemma raw_bounds n k min max : (1 <= k)%N -> (n <= k)%N -> min <= max ->
  min <= raw_timeout n k min max <= max.
Proof.
  intros Hk Hn Hm. unfold raw_timeout. pose proof (frac_range n k Hk Hn) as [F0 F1]. nra.
Qed.
Lemma raw_strict n m k min max : (1 <= k)%N -> (n < m)%N -> min < max ->
  raw_timeout m k min max < raw_timeout n k min max.
Proof.
  intros Hk Hn Hm. unfold raw_timeout. pose proof (frac_lt n m k Hk Hn). nra.
Qed.
Lemma raw_mono n m k min max : (1 <= k)%N -> (n <= m)%N -> min <= max ->
  raw_timeout m k min max <= raw_timeout n k min max.
Proof.
  intros Hk Hn Hm. unfold raw_timeout. pose proof (frac_le n m k Hk Hn). nra.
Qed.

Lemma Int_part_mono x y : x <= y -> (Int_part x <= Int_part y)%Z.
Proof.
  intros H. destruct (base_Int_part x) as [A _], (base_Int_part y) as [_ B].
  assert (IZR (Int_part x) < IZR (Int_part y + 1)) by (rewrite plus_IZR; lra).
  apply lt_IZR in H0. lia.
Qed.
Lemma Int_part_unique x z : IZR z <= x < IZR z + 1 -> Int_part x = z.
Proof.
  intros [A B]. destruct (base_Int_part x) as [C D].
  assert (IZR (Int_part x) < IZR (z + 1)) as H1 by (rewrite plus_IZR; lra).
  assert (IZR z < IZR (Int_part x + 1)) as H2 by (rewrite plus_IZR; lra).
  apply lt_IZR in H1, H2. lia.
Qed.
(** Flooring a duration to milliseconds. *)
Lemma floor_ms d : Int_part (Rn d / 1000000000 * 1000) = Z.of_N (d / MS)%N.
Proof.
  apply Int_part_unique.
  pose proof (N.div_mod d MS ltac:(discriminate)) as E.
  pose proof (N.mod_lt d MS ltac:(discriminate)) as L.
  assert (Rn d = 1000000 * IZR (Z.of_N (d / MS)) + IZR (Z.of_N (d mod MS))) as R1.
  { unfold Rn. rewrite <- mult_IZR, <- plus_IZR. f_equal. unfold MS in *. lia. }
  assert (0 <= IZR (Z.of_N (d mod MS)) < 1000000) as [R2 R3].
  { split; [apply IZR_le; lia|]. apply (IZR_lt _ 1000000). unfold MS in *. lia. }
  rewrite R1. split; lra.
Qed.

Lemma lg_real_ok k min max : (1 <= k)%N -> (min <= max)%N -> lg_ok lg_real k min max.
Proof.
  intros Hk Hm. assert (Rn min / 1000000000 <= Rn max / 1000000000) as Hr.
  { pose proof (Rn_le min max Hm). lra. }
  unfold lg_ok, lg_real. repeat split.
  - intros n Hn. rewrite <- floor_ms. apply Int_part_mono.
    pose proof (raw_bounds n k _ _ Hk (proj2 Hn) Hr). lra.
  - intros n m H1 H2 H3. apply Int_part_mono. pose proof (raw_mono n m k _ _ Hk H2 Hr). lra.
  - rewrite <- floor_ms. apply Int_part_mono. unfold raw_timeout. rewrite (frac_k k Hk). lra.
Qed.
Lemma lg_real_ge_min n k min max : (1 <= k)%N -> (n <= k)%N -> (min <= max)%N ->
  (Z.of_N (min / MS) <= lg_real n k min max)%Z.
Proof.
  intros Hk Hn Hm. assert (Rn min / 1000000000 <= Rn max / 1000000000) as Hr.
  { pose proof (Rn_le min max Hm). lra. }
  unfold lg_real. rewrite <- floor_ms. apply Int_part_mono. pose proof (raw_bounds n k _ _ Hk Hn Hr). lra.
Qed.
