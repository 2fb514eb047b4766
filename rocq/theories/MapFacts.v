(** Laws of association-list maps. *)
From Verif Require Import Base BaseFacts MapModel.
Local Open Scope N_scope.

Section Facts.
Context {A : Type}.
Implicit Types (m : amap A) (a : A).

Lemma aget_adel_eq k m : aget k (adel k m) = None.
Proof.
  induction m as [|[k' a] m IH]; [reflexivity|]. cbn [adel]. destruct (N.eqb_spec k k'); [exact IH|].
  cbn [aget]. destruct (N.eqb_spec k k'); [congruence|exact IH].
Qed.
Lemma aget_adel_ne k k' m : k <> k' -> aget k (adel k' m) = aget k m.
Proof.
  intros H. induction m as [|[j a] m IH]; [reflexivity|]. cbn [adel aget].
  destruct (N.eqb_spec k' j) as [<-|].
  - destruct (N.eqb_spec k k'); [congruence|exact IH].
  - cbn [aget]. destruct (k =? j); [reflexivity|exact IH].
Qed.
Lemma aget_adel k k' m : aget k (adel k' m) = if k =? k' then None else aget k m.
Proof. destruct (N.eqb_spec k k') as [->|H]; [apply aget_adel_eq|apply aget_adel_ne, H]. Qed.
Lemma aget_aset k k' a m : aget k (aset k' a m) = if k =? k' then Some a else aget k m.
Proof.
  unfold aset. cbn [aget]. destruct (N.eqb_spec k k'); [reflexivity|]. apply aget_adel_ne; assumption.
Qed.
Lemma aget_aset_eq k a m : aget k (aset k a m) = Some a.
Proof. rewrite aget_aset, N.eqb_refl. reflexivity. Qed.
Lemma aget_aset_ne k k' a m : k <> k' -> aget k (aset k' a m) = aget k m.
Proof. intros H. rewrite aget_aset. destruct (N.eqb_spec k k'); congruence. Qed.
Lemma aget_none k m : aget k m = None <-> ~ In k (akeys m).
Proof.
  induction m as [|[j a] m IH]; cbn; [intuition|]. destruct (N.eqb_spec k j) as [->|].
  - split; [discriminate|intuition].
  - rewrite IH. intuition congruence.
Qed.
Lemma aget_in k a m : aget k m = Some a -> In (k, a) m.
Proof.
  induction m as [|[j b] m IH]; cbn; [discriminate|]. destruct (N.eqb_spec k j) as [->|]; [intros [= ->]; auto|auto].
Qed.
Lemma aget_some_key k a m : aget k m = Some a -> In k (akeys m).
Proof. intros H. apply aget_in in H. apply (in_map fst) in H. exact H. Qed.
Lemma in_akeys_adel k j m : In k (akeys (adel j m)) <-> In k (akeys m) /\ k <> j.
Proof.
  induction m as [|[i a] m IH]; cbn [adel akeys map In fst]; [intuition|].
  destruct (N.eqb_spec j i) as [->|].
  - unfold akeys in IH. rewrite IH. intuition congruence.
  - cbn [map fst In]. unfold akeys in IH. rewrite IH. intuition congruence.
Qed.
Lemma in_adel k j a m : In (k, a) (adel j m) <-> In (k, a) m /\ k <> j.
Proof.
  induction m as [|[i b] m IH]; cbn [adel In]; [intuition|].
  destruct (N.eqb_spec j i) as [->|].
  - rewrite IH. intuition congruence.
  - cbn [In]. rewrite IH. intuition congruence.
Qed.
Lemma nodup_adel k m : NoDup (akeys m) -> NoDup (akeys (adel k m)).
Proof.
  induction m as [|[i a] m IH]; cbn [adel akeys map]; [auto|]. intros H. inversion H; subst.
  destruct (k =? i); [apply IH; assumption|]. cbn [map fst]. constructor; [|apply IH; assumption].
  intros C. apply in_akeys_adel in C. destruct C. contradiction.
Qed.
Lemma nodup_aset k a m : NoDup (akeys m) -> NoDup (akeys (aset k a m)).
Proof.
  intros H. unfold aset. cbn [akeys map fst]. constructor; [|apply nodup_adel, H].
  intros C. apply in_akeys_adel in C. intuition.
Qed.
Lemma aget_of_in k a m : NoDup (akeys m) -> In (k, a) m -> aget k m = Some a.
Proof.
  induction m as [|[i b] m IH]; cbn; [intuition|]. intros H HI. inversion H; subst.
  destruct HI as [[= -> ->]|HI]; [rewrite N.eqb_refl; reflexivity|].
  destruct (N.eqb_spec k i) as [->|]; [|apply IH; assumption].
  exfalso. apply H2. apply (in_map fst) in HI. exact HI.
Qed.
Lemma ahas_true k m : ahas k m = true <-> exists a, aget k m = Some a.
Proof. unfold ahas. destruct (aget k m); split; eauto; try discriminate. intros [? [=]]. Qed.
Lemma ahas_false k m : ahas k m = false <-> aget k m = None.
Proof. unfold ahas. destruct (aget k m); split; congruence. Qed.
Lemma adel_none k m : aget k m = None -> adel k m = m.
Proof.
  induction m as [|[i a] m IH]; cbn; [auto|]. destruct (N.eqb_spec k i); [discriminate|].
  intros H. f_equal. auto.
Qed.
Lemma blen_adel k m : blen (adel k m) <= blen m.
Proof. induction m as [|[i a] m IH]; cbn [adel]; [lia|]. destruct (k =? i); rewrite ?blen_cons; lia. Qed.
End Facts.
