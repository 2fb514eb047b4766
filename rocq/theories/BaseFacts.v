(** Lemmas about byte strings, slicing and bit arithmetic. *)
From Verif Require Import Base.
Local Open Scope N_scope.

Lemma blen_nil {A} : @blen A [] = 0.
Proof. reflexivity. Qed.
Lemma blen_cons {A} (x : A) l : blen (x :: l) = 1 + blen l.
Proof. unfold blen. cbn [length]. lia. Qed.
Lemma blen_app {A} (l1 l2 : list A) : blen (l1 ++ l2) = blen l1 + blen l2.
Proof. unfold blen. rewrite app_length. lia. Qed.
Lemma blen_0_nil {A} (l : list A) : blen l = 0 -> l = [].
Proof. destruct l; [reflexivity|]. rewrite blen_cons. lia. Qed.

Lemma btake_app_exact {A} (l1 l2 : list A) n : n = blen l1 -> btake n (l1 ++ l2) = l1.
Proof.
  intros ->. unfold btake, blen. rewrite Nat2N.id.
  rewrite firstn_app, Nat.sub_diag, firstn_all. simpl. apply app_nil_r.
Qed.
Lemma bdrop_app_exact {A} (l1 l2 : list A) n : n = blen l1 -> bdrop n (l1 ++ l2) = l2.
Proof.
  intros ->. unfold bdrop, blen. rewrite Nat2N.id.
  rewrite skipn_app, Nat.sub_diag, skipn_all. reflexivity.
Qed.
Lemma btake_all {A} (l : list A) n : blen l <= n -> btake n l = l.
Proof. intros H. unfold btake, blen in *. apply firstn_all2. lia. Qed.
Lemma bdrop_all {A} (l : list A) n : blen l <= n -> bdrop n l = [].
Proof. intros H. unfold bdrop, blen in *. apply skipn_all2. lia. Qed.
Lemma bdrop_0 {A} (l : list A) : bdrop 0 l = l.
Proof. reflexivity. Qed.
Lemma btake_0 {A} (l : list A) : btake 0 l = [].
Proof. reflexivity. Qed.
Lemma btake_bdrop {A} n (l : list A) : btake n l ++ bdrop n l = l.
Proof. apply firstn_skipn. Qed.
Lemma bdrop_bdrop {A} n m (l : list A) : bdrop n (bdrop m l) = bdrop (m + n) l.
Proof.
  unfold bdrop. rewrite N2Nat.inj_add.
  remember (N.to_nat m) as a. remember (N.to_nat n) as b. clear.
  revert a; induction l as [|x l IH]; intros [|a]; simpl; try reflexivity.
  - destruct b; reflexivity.
  - apply IH.
Qed.
Lemma blen_btake {A} n (l : list A) : blen (btake n l) = N.min n (blen l).
Proof. unfold blen, btake. rewrite firstn_length. lia. Qed.
Lemma blen_bdrop {A} n (l : list A) : blen (bdrop n l) = blen l - n.
Proof. unfold blen, bdrop. rewrite skipn_length. lia. Qed.
Lemma bdrop_cons {A} n (x : A) l : 0 < n -> bdrop n (x :: l) = bdrop (n - 1) l.
Proof.
  intros H. unfold bdrop. replace (N.to_nat n) with (S (N.to_nat (n - 1))) by lia.
  reflexivity.
Qed.
Lemma btake_cons {A} n (x : A) l : 0 < n -> btake n (x :: l) = x :: btake (n - 1) l.
Proof.
  intros H. unfold btake. replace (N.to_nat n) with (S (N.to_nat (n - 1))) by lia.
  reflexivity.
Qed.
Lemma bdrop_app {A} n (l1 l2 : list A) : bdrop n (l1 ++ l2) = bdrop n l1 ++ bdrop (n - blen l1) l2.
Proof.
  unfold bdrop, blen. rewrite skipn_app. do 2 f_equal. lia.
Qed.
Lemma btake_app {A} n (l1 l2 : list A) : btake n (l1 ++ l2) = btake n l1 ++ btake (n - blen l1) l2.
Proof.
  unfold btake, blen. rewrite firstn_app. do 2 f_equal. lia.
Qed.

Lemma wf_bytes_app l1 l2 : wf_bytes (l1 ++ l2) <-> wf_bytes l1 /\ wf_bytes l2.
Proof. apply Forall_app. Qed.
Lemma wf_bytes_cons b l : wf_bytes (b :: l) <-> b < 256 /\ wf_bytes l.
Proof. apply Forall_cons_iff. Qed.
Lemma wf_btake n l : wf_bytes l -> wf_bytes (btake n l).
Proof. rewrite <- (btake_bdrop n l) at 1. rewrite wf_bytes_app. tauto. Qed.
Lemma wf_bdrop n l : wf_bytes l -> wf_bytes (bdrop n l).
Proof. rewrite <- (btake_bdrop n l) at 1. rewrite wf_bytes_app. tauto. Qed.

(** Disjoint-bits [or] is addition. *)
Lemma lor_shiftl_add a b s : a < 2 ^ s -> N.lor a (N.shiftl b s) = a + b * 2 ^ s.
Proof.
  intros H.
  rewrite <- N.shiftl_mul_pow2.
  rewrite <- N.lxor_lor.
  - rewrite N.add_nocarry_lxor; [reflexivity|].
    apply N.bits_inj. intros k. rewrite N.land_spec, N.bits_0.
    destruct (N.ltb_spec k s) as [Hk|Hk].
    + rewrite N.shiftl_spec_low by assumption. apply andb_false_r.
    + assert (N.testbit a k = false) as ->; [|reflexivity].
      destruct (N.eq_dec a 0) as [->|Ha]; [apply N.bits_0|].
      apply N.bits_above_log2.
      apply N.log2_lt_pow2; [lia|].
      eapply N.lt_le_trans; [exact H|]. apply N.pow_le_mono_r; lia.
  - apply N.bits_inj. intros k. rewrite N.land_spec, N.bits_0.
    destruct (N.ltb_spec k s) as [Hk|Hk].
    + rewrite N.shiftl_spec_low by assumption. apply andb_false_r.
    + assert (N.testbit a k = false) as ->; [|reflexivity].
      destruct (N.eq_dec a 0) as [->|Ha]; [apply N.bits_0|].
      apply N.bits_above_log2.
      apply N.log2_lt_pow2; [lia|].
      eapply N.lt_le_trans; [exact H|]. apply N.pow_le_mono_r; lia.
Qed.

(** Exhaustive check of a boolean fact about bytes. *)
Fixpoint all_below (n : nat) (f : N -> bool) : bool :=
  match n with O => true | S k => f (N.of_nat k) && all_below k f end.
Lemma all_below_spec n f : all_below n f = true -> forall b, b < N.of_nat n -> f b = true.
Proof.
  induction n as [|n IH]; intros H b Hb; [lia|].
  cbn [all_below] in H. apply andb_prop in H as [H1 H2].
  destruct (N.eq_dec b (N.of_nat n)) as [->|]; [assumption|].
  apply IH; [assumption|lia].
Qed.
Lemma byte_forall (f : N -> bool) : all_below 256 f = true -> forall b, b < 256 -> f b = true.
Proof. intros H b Hb. apply (all_below_spec 256 f H). lia. Qed.

Lemma land127_mod b : N.land b 127 = b mod 128.
Proof. change 127 with (N.ones 7). rewrite N.land_ones. reflexivity. Qed.
Lemma land255_mod b : N.land b 255 = b mod 256.
Proof. change 255 with (N.ones 8). rewrite N.land_ones. reflexivity. Qed.
Lemma land128_byte b : b < 256 -> (N.land b 128 =? 0) = (b <? 128).
Proof.
  intros H. apply (byte_forall (fun b => Bool.eqb (N.land b 128 =? 0) (b <? 128))) in H.
  - apply eqb_prop. exact H.
  - vm_compute. reflexivity.
Qed.
Lemma lor128_mod v : N.lor (N.land v 127) 128 = v mod 128 + 128.
Proof.
  rewrite land127_mod.
  change 128 with (N.shiftl 1 7) at 2. rewrite lor_shiftl_add.
  - reflexivity.
  - change (2 ^ 7) with 128. apply N.mod_upper_bound. lia.
Qed.
Lemma shiftr7_div v : N.shiftr v 7 = v / 128.
Proof. rewrite N.shiftr_div_pow2. reflexivity. Qed.
