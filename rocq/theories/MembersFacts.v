(** Proofs about the member table. *)
From Coq Require Import Sorting.Permutation.
From Verif Require Import Base BaseFacts MapModel MapFacts MembersModel.
Local Open Scope N_scope.

Section L.
Context {A : Type}.
Lemma list_set_length i (v : A) l : length (list_set i v l) = length l.
Proof. revert i. induction l as [|x l IH]; intros [|i]; cbn; auto. Qed.
Lemma list_set_nth i (v : A) l j : (i < length l)%nat ->
  nth_error (list_set i v l) j = if (j =? i)%nat then Some v else nth_error l j.
Proof.
  revert i j. induction l as [|x l IH]; intros i j H; [cbn in H; lia|].
  destruct i as [|i], j as [|j]; cbn [list_set nth_error Nat.eqb]; try reflexivity.
  apply IH. cbn in H. lia.
Qed.
Lemma list_remove_nth i (l : list A) j :
  nth_error (list_remove i l) j = if (j <? i)%nat then nth_error l j else nth_error l (S j).
Proof.
  revert i j. induction l as [|x l IH]; intros i j.
  - destruct i, j; cbn [list_remove nth_error]; match goal with |- context [if ?b then _ else _] => destruct b end; reflexivity.
  - destruct i as [|i]; [reflexivity|]. destruct j as [|j]; [reflexivity|]. cbn [list_remove nth_error].
    rewrite IH. destruct (Nat.ltb_spec j i), (Nat.ltb_spec (S j) (S i)); try lia; reflexivity.
Qed.
Lemma nodup_nth (l : list A) i j a : NoDup l -> nth_error l i = Some a -> nth_error l j = Some a -> i = j.
Proof.
  intros ND Hi Hj. rewrite NoDup_nth_error in ND. apply ND; [|congruence].
  apply nth_error_Some. congruence.
Qed.
Lemma list_remove_perm i (l : list A) a : nth_error l i = Some a -> Permutation l (a :: list_remove i l).
Proof.
  revert i. induction l as [|x l IH]; intros [|i]; cbn; try discriminate.
  - intros [= ->]. reflexivity.
  - intros H. rewrite (IH i H) at 1. apply perm_swap.
Qed.
End L.
Lemma map_list_set {A B} (f : A -> B) i v l : map f (list_set i v l) = list_set i (f v) (map f l).
Proof. revert i. induction l as [|x l IH]; intros [|i]; cbn; auto. f_equal. apply IH. Qed.
Lemma map_list_remove {A B} (f : A -> B) i l : map f (list_remove i l) = list_remove i (map f l).
Proof. revert i. induction l as [|x l IH]; intros [|i]; cbn; auto. f_equal. apply IH. Qed.
Lemma list_set_same {A} i (v : A) l : nth_error l i = Some v -> list_set i v l = l.
Proof.
  revert i. induction l as [|x l IH]; intros [|i]; cbn; try discriminate; [intros [= ->]; reflexivity|].
  intros H. f_equal. auto.
Qed.

Section M.
Context {V : Type}.
Implicit Types (M : members V).

Definition ms_ids M : list N := map fst (ms_nodes M).
Record ms_ok M : Prop := {
  ok_nodup : NoDup (ms_ids M);
  ok_map : forall id i, aget id (ms_map M) = Some i <-> nth_error (ms_ids M) (N.to_nat i) = Some id }.

Lemma ms_ok_new : ms_ok (@ms_new V).
Proof.
  constructor; cbn; [constructor|]. intros id i. split; [discriminate|]. destruct (N.to_nat i); discriminate.
Qed.
Lemma ids_nth M i x : nth_error (ms_nodes M) i = Some x -> nth_error (ms_ids M) i = Some (fst x).
Proof. intros H. unfold ms_ids. apply map_nth_error, H. Qed.
Lemma ids_nth_inv M i id : nth_error (ms_ids M) i = Some id -> exists v, nth_error (ms_nodes M) i = Some (id, v).
Proof.
  unfold ms_ids. rewrite nth_error_map. destruct (nth_error (ms_nodes M) i) as [[a v]|]; [|discriminate].
  intros [= <-]. eauto.
Qed.
Lemma get_in M id x : ms_ok M -> ms_get id M = Some x <-> In x (ms_nodes M) /\ fst x = id.
Proof.
  intros [ND HM]. unfold ms_get. split.
  - destruct (aget id (ms_map M)) as [i|] eqn:E; [|discriminate]. intros H. split.
    + eapply nth_error_In, H.
    + apply HM in E. apply ids_nth in H. congruence.
  - intros [Hx <-]. apply In_nth_error in Hx. destruct Hx as [i Hi].
    assert (aget (fst x) (ms_map M) = Some (N.of_nat i)) as ->.
    { apply HM. rewrite Nat2N.id. apply ids_nth, Hi. }
    rewrite Nat2N.id. exact Hi.
Qed.
Lemma has_in M id : ms_ok M -> ahas id (ms_map M) = true <-> In id (ms_ids M).
Proof.
  intros [ND HM]. rewrite ahas_true. split.
  - intros [i E]. apply HM in E. eapply nth_error_In, E.
  - intros H. apply In_nth_error in H. destruct H as [i Hi]. exists (N.of_nat i). apply HM. rewrite Nat2N.id. exact Hi.
Qed.
Lemma aget_none_ids M id : ms_ok M -> aget id (ms_map M) = None <-> ~ In id (ms_ids M).
Proof. intros O. rewrite <- (has_in M id O), <- ahas_false. destruct (ahas id (ms_map M)); intuition congruence. Qed.

(** Replacing a payload in place *)
Lemma set_ok M id i v : ms_ok M -> aget id (ms_map M) = Some i ->
  let M' := mkMs (list_set (N.to_nat i) (id, v) (ms_nodes M)) (ms_map M) in
  ms_ok M' /\ forall x, In x (ms_nodes M') <-> x = (id, v) \/ (In x (ms_nodes M) /\ fst x <> id).
Proof.
  intros O E M'. pose proof O as [ND HM]. pose proof E as E'. apply HM in E'.
  assert (ms_ids M' = ms_ids M) as EI.
  { unfold ms_ids, M'. cbn [ms_nodes]. rewrite map_list_set. cbn [fst]. apply list_set_same. exact E'. }
  assert (N.to_nat i < length (ms_nodes M))%nat as LT.
  { rewrite <- (map_length fst). apply nth_error_Some. unfold ms_ids in E'. congruence. }
  split.
  - constructor; rewrite EI; assumption.
  - intros x. unfold M'. cbn [ms_nodes]. split.
    + intros Hx. apply In_nth_error in Hx. destruct Hx as [j Hj]. rewrite list_set_nth in Hj by exact LT.
      destruct (Nat.eqb_spec j (N.to_nat i)) as [Hej|Hn]; [left; congruence|].
      right. split; [eapply nth_error_In, Hj|]. intros C. apply Hn. apply ids_nth in Hj. rewrite C in Hj.
      exact (nodup_nth _ _ _ _ ND Hj E').
    + intros [->|[Hx Hn]].
      * apply (nth_error_In _ (N.to_nat i)). rewrite list_set_nth by exact LT. rewrite Nat.eqb_refl. reflexivity.
      * apply In_nth_error in Hx. destruct Hx as [j Hj]. apply (nth_error_In _ j).
        rewrite list_set_nth by exact LT. destruct (Nat.eqb_spec j (N.to_nat i)) as [Hej|]; [|exact Hj].
        exfalso. apply Hn. apply ids_nth in Hj. congruence.
Qed.
Lemma push_ok M id v : ms_ok M -> aget id (ms_map M) = None ->
  let M' := mkMs (ms_nodes M ++ [(id, v)]) (aset id (blen (ms_nodes M)) (ms_map M)) in
  ms_ok M' /\ forall x, In x (ms_nodes M') <-> x = (id, v) \/ In x (ms_nodes M).
Proof.
  intros O E M'. pose proof O as [ND HM]. apply (aget_none_ids M id O) in E.
  assert (ms_ids M' = ms_ids M ++ [id]) as EI by (unfold ms_ids, M'; cbn; rewrite map_app; reflexivity).
  assert (length (ms_ids M) = length (ms_nodes M)) as EL by apply map_length.
  split.
  - constructor; rewrite EI.
    + rewrite <- (rev_involutive (ms_ids M ++ [id])), rev_app_distr. apply NoDup_rev. cbn [rev app].
      constructor; [rewrite <- in_rev; exact E|apply NoDup_rev, ND].
    + intros k j. unfold M'. cbn [ms_map]. rewrite aget_aset. destruct (N.eqb_spec k id) as [->|Hk].
      * split.
        -- intros [= <-]. unfold blen. rewrite Nat2N.id, <- EL, nth_error_app2, Nat.sub_diag by lia. reflexivity.
        -- intros H. destruct (Nat.lt_ge_cases (N.to_nat j) (length (ms_ids M))) as [L|L].
           ++ rewrite nth_error_app1 in H by exact L. exfalso. apply E. eapply nth_error_In, H.
           ++ assert (N.to_nat j < length (ms_ids M ++ [id]))%nat by (apply nth_error_Some; congruence).
              rewrite app_length in *. cbn in *. unfold blen. f_equal. lia.
      * rewrite HM. destruct (Nat.lt_ge_cases (N.to_nat j) (length (ms_ids M))) as [L|L].
        -- rewrite nth_error_app1 by exact L. reflexivity.
        -- rewrite nth_error_app2 by exact L. split.
           ++ intros H. assert (N.to_nat j < length (ms_ids M))%nat by (apply nth_error_Some; congruence). lia.
           ++ destruct (N.to_nat j - length (ms_ids M))%nat as [|d]; cbn; [congruence|destruct d; discriminate].
  - intros x. unfold M'. cbn [ms_nodes]. rewrite in_app_iff. cbn. intuition.
Qed.
Lemma aget_map_snd (f : N -> N) (m : amap N) k : aget k (map (fun p => (fst p, f (snd p))) m) = option_map f (aget k m).
Proof. induction m as [|[a b] m IH]; cbn; [reflexivity|]. destruct (k =? a); [reflexivity|exact IH]. Qed.
Lemma remove_ok M id : ms_ok M ->
  let '(M', r) := ms_remove id M in
  ms_ok M' /\ r = ms_get id M /\ forall x, In x (ms_nodes M') <-> In x (ms_nodes M) /\ fst x <> id.
Proof.
  intros O. unfold ms_remove, ms_get. destruct (aget id (ms_map M)) as [i|] eqn:E.
  2:{ split; [exact O|]. split; [reflexivity|]. intros x. split; [|tauto]. intros Hx. split; [exact Hx|].
      intros C. apply (aget_none_ids M id O) in E. apply E. rewrite <- C. apply in_map, Hx. }
  pose proof O as [ND HM]. pose proof E as E'. apply HM in E'.
  destruct (ids_nth_inv M _ _ E') as [v Hv].
  set (M' := mkMs _ _).
  assert (ms_ids M' = list_remove (N.to_nat i) (ms_ids M)) as EI by (unfold ms_ids, M'; cbn [ms_nodes]; apply map_list_remove).
  pose proof (list_remove_perm _ _ _ E') as P.
  assert (NoDup (id :: list_remove (N.to_nat i) (ms_ids M))) as ND' by (apply (Permutation_NoDup P), ND).
  split; [|split].
  - constructor; rewrite EI.
    + inversion ND'; assumption.
    + intros k j. unfold M'. cbn [ms_map]. rewrite (aget_map_snd (fun n => if i <? n then n - 1 else n)), aget_adel, list_remove_nth.
      destruct (N.eqb_spec k id) as [->|Hk].
      * split; [discriminate|]. intros H. exfalso.
        assert (In id (list_remove (N.to_nat i) (ms_ids M))) as C.
        { apply (nth_error_In _ (N.to_nat j)). rewrite list_remove_nth. exact H. }
        inversion ND'; contradiction.
      * split.
        -- destruct (aget k (ms_map M)) as [n|] eqn:G; [|discriminate]. apply HM in G. cbn [option_map].
           assert (n <> i) by (intros ->; congruence). intros [= <-].
           destruct (N.ltb_spec i n).
           ++ destruct (Nat.ltb_spec (N.to_nat (n - 1)) (N.to_nat i)); [lia|].
              replace (S (N.to_nat (n - 1))) with (N.to_nat n) by lia. exact G.
           ++ destruct (Nat.ltb_spec (N.to_nat n) (N.to_nat i)); [exact G|lia].
        -- destruct (Nat.ltb_spec (N.to_nat j) (N.to_nat i)) as [L|L]; intros H.
           ++ apply HM in H. rewrite H. cbn [option_map]. destruct (N.ltb_spec i j); [lia|reflexivity].
           ++ assert (aget k (ms_map M) = Some (j + 1)) as ->.
              { apply HM. replace (N.to_nat (j + 1)) with (S (N.to_nat j)) by lia. exact H. }
              cbn [option_map]. destruct (N.ltb_spec i (j + 1)); [|lia]. f_equal. lia.
  - reflexivity.
  - intros x. unfold M'. cbn [ms_nodes]. pose proof (list_remove_perm _ _ _ Hv) as PV. split.
    + intros Hx. split.
      * apply (Permutation_in x (Permutation_sym PV)). right. exact Hx.
      * intros C. apply NoDup_cons_iff in ND'. destruct ND' as [Hn _]. apply Hn. unfold ms_ids. rewrite <- (map_list_remove fst).
        rewrite <- C. apply in_map, Hx.
    + intros [Hx Hn]. apply (Permutation_in x PV) in Hx. destruct Hx as [<-|Hx]; [cbn in Hn; congruence|exact Hx].
Qed.

Lemma swap_ok M i j : ms_ok M -> (i < length (ms_nodes M))%nat -> (j < length (ms_nodes M))%nat ->
  exists M', ms_swap i j M = Some M' /\ ms_ok M' /\ length (ms_nodes M') = length (ms_nodes M) /\
  forall x, In x (ms_nodes M') <-> In x (ms_nodes M).
Proof.
  intros O Li Lj. unfold ms_swap. destruct (Nat.eqb_spec i j) as [->|Hij].
  { exists M. repeat split; auto; apply O. }
  destruct (nth_error (ms_nodes M) i) as [[idi vi]|] eqn:Ei; [|apply nth_error_None in Ei; lia].
  destruct (nth_error (ms_nodes M) j) as [[idj vj]|] eqn:Ej; [|apply nth_error_None in Ej; lia].
  unfold list_swap. rewrite Ei, Ej. pose proof O as [ND HM].
  pose proof (ids_nth M i _ Ei) as Ii. pose proof (ids_nth M j _ Ej) as Ij. cbn [fst] in *.
  assert (idi <> idj) as Hid by (intros ->; apply Hij; exact (nodup_nth _ _ _ _ ND Ii Ij)).
  assert (aget idi (ms_map M) = Some (N.of_nat i)) as Ai by (apply HM; rewrite Nat2N.id; exact Ii).
  assert (aget idj (ms_map M) = Some (N.of_nat j)) as Aj by (apply HM; rewrite Nat2N.id; exact Ij).
  unfold map_put. rewrite Ai. rewrite aget_aset_ne by congruence. rewrite Aj.
  eexists. split; [reflexivity|].
  set (nodes := list_set j (idi, vi) (list_set i (idj, vj) (ms_nodes M))).
  assert (forall n, nth_error nodes n = if (n =? j)%nat then Some (idi, vi) else if (n =? i)%nat then Some (idj, vj) else nth_error (ms_nodes M) n) as EN.
  { intros n. unfold nodes. rewrite list_set_nth by (rewrite list_set_length; exact Lj).
    rewrite list_set_nth by exact Li. reflexivity. }
  assert (forall x, In x nodes <-> In x (ms_nodes M)) as EIn.
  { intros x. split; intros Hx; apply In_nth_error in Hx; destruct Hx as [n Hn].
    - rewrite EN in Hn. destruct (n =? j)%nat; [injection Hn as <-; eapply nth_error_In, Ei|].
      destruct (n =? i)%nat; [injection Hn as <-; eapply nth_error_In, Ej|eapply nth_error_In, Hn].
    - destruct (Nat.eq_dec n j) as [->|]; [|destruct (Nat.eq_dec n i) as [->|]].
      + apply (nth_error_In _ i). rewrite EN. destruct (Nat.eqb_spec i j); [lia|]. rewrite Nat.eqb_refl. congruence.
      + apply (nth_error_In _ j). rewrite EN, Nat.eqb_refl. congruence.
      + apply (nth_error_In _ n). rewrite EN. destruct (Nat.eqb_spec n j); [lia|]. destruct (Nat.eqb_spec n i); [lia|]. exact Hn. }
  split; [|split].
  - assert (forall n, nth_error (map fst nodes) n = if (n =? j)%nat then Some idi else if (n =? i)%nat then Some idj else nth_error (ms_ids M) n) as EI.
    { intros n. rewrite nth_error_map, EN. unfold ms_ids. rewrite nth_error_map.
      destruct (n =? j)%nat; [reflexivity|]. destruct (n =? i)%nat; reflexivity. }
    constructor; unfold ms_ids; cbn [ms_nodes ms_map].
    + apply (NoDup_nth_error (map fst nodes)). intros a b La Hab.
      assert (length (map fst nodes) = length (ms_ids M)) as EL.
      { unfold nodes, ms_ids. rewrite !map_length, !list_set_length. reflexivity. }
      rewrite !EI in Hab. pose proof (proj1 (NoDup_nth_error (ms_ids M)) ND) as INJ.
      rewrite EL in La.
      destruct (Nat.eqb_spec a j) as [->|]; destruct (Nat.eqb_spec b j) as [->|]; try congruence.
      * destruct (Nat.eqb_spec b i) as [->|Hb]; [congruence|]. exfalso. apply Hb. exact (nodup_nth _ _ _ _ ND (eq_sym Hab) Ii).
      * destruct (Nat.eqb_spec a i) as [->|Ha]; [congruence|]. exfalso. apply Ha. exact (nodup_nth _ _ _ _ ND Hab Ii).
      * destruct (Nat.eqb_spec a i) as [->|Ha], (Nat.eqb_spec b i) as [->|Hb]; try congruence.
        -- exfalso. apply n0. exact (nodup_nth _ _ _ _ ND (eq_sym Hab) Ij).
        -- exfalso. apply n. exact (nodup_nth _ _ _ _ ND Hab Ij).
        -- apply INJ; assumption.
    + intros k m. rewrite !aget_aset, EI.
      destruct (N.eqb_spec k idj) as [->|Hkj].
      * split.
        -- intros [= <-]. rewrite Nat2N.id. destruct (Nat.eqb_spec i j); [lia|]. rewrite Nat.eqb_refl. reflexivity.
        -- destruct (Nat.eqb_spec (N.to_nat m) j); [congruence|].
           destruct (Nat.eqb_spec (N.to_nat m) i); [intros _; f_equal; lia|].
           intros H. exfalso. apply n. exact (nodup_nth _ _ _ _ ND H Ij).
      * destruct (N.eqb_spec k idi) as [->|Hki].
        -- split.
           ++ intros [= <-]. rewrite Nat2N.id, Nat.eqb_refl. reflexivity.
           ++ destruct (Nat.eqb_spec (N.to_nat m) j); [intros _; f_equal; lia|].
              destruct (Nat.eqb_spec (N.to_nat m) i); [congruence|].
              intros H. exfalso. apply n0. exact (nodup_nth _ _ _ _ ND H Ii).
        -- rewrite HM. destruct (Nat.eqb_spec (N.to_nat m) j) as [->|].
           ++ rewrite Ij. split; congruence.
           ++ destruct (Nat.eqb_spec (N.to_nat m) i) as [->|]; [rewrite Ii; split; congruence|reflexivity].
  - cbn [ms_nodes]. unfold nodes. rewrite !list_set_length. reflexivity.
  - exact EIn.
Qed.
Lemma shuffle_ok i : forall draws M, ms_ok M -> (i < length (ms_nodes M) \/ i = 0)%nat ->
  exists M', ms_shuffle_loop i draws M = Some M' /\ ms_ok M' /\ forall x, In x (ms_nodes M') <-> In x (ms_nodes M).
Proof.
  induction i as [|i IH]; intros draws M O L; cbn [ms_shuffle_loop].
  { exists M. split; [reflexivity|]. split; [exact O|reflexivity]. }
  set (j := N.to_nat (hd 0 draws mod (N.of_nat (S i) + 1))).
  assert (j <= S i)%nat as Lj.
  { unfold j. pose proof (N.mod_lt (hd 0 draws) (N.of_nat (S i) + 1) ltac:(lia)). lia. }
  destruct (swap_ok M (S i) j O ltac:(lia) ltac:(lia)) as (M1 & -> & O1 & L1 & I1).
  destruct (IH (tl draws) M1 O1 ltac:(lia)) as (M2 & E2 & O2 & I2).
  exists M2. split; [exact E2|]. split; [exact O2|]. intros x. rewrite I2. apply I1.
Qed.
Lemma insert_at_ok M id v t : ms_ok M -> ~ In id (ms_ids M) -> t <= ms_len M ->
  exists M', ms_insert_at id v t M = Some M' /\ ms_ok M' /\
  forall x, In x (ms_nodes M') <-> x = (id, v) \/ In x (ms_nodes M).
Proof.
  intros O Hn Lt. unfold ms_insert_at.
  destruct (ahas id (ms_map M)) eqn:Eh; [exfalso; apply Hn, (has_in M id O), Eh|].
  apply ahas_false in Eh. destruct (push_ok M id v O Eh) as [O1 I1].
  unfold ms_len in Lt. destruct (N.ltb_spec (blen (ms_nodes M)) t); [lia|].
  destruct (N.eqb_spec t (blen (ms_nodes M))) as [->|Hne].
  { eexists. split; [reflexivity|]. split; [exact O1|exact I1]. }
  set (M1 := mkMs (ms_nodes M ++ [(id, v)]) (aset id (blen (ms_nodes M)) (ms_map M))) in *.
  assert (length (ms_nodes M1) = S (length (ms_nodes M))) as L1 by (unfold M1; cbn [ms_nodes]; rewrite app_length; cbn; lia).
  assert (N.to_nat (blen (ms_nodes M)) = length (ms_nodes M)) as EB by (unfold blen; lia).
  destruct (swap_ok M1 (N.to_nat (blen (ms_nodes M))) (N.to_nat t) O1 ltac:(lia) ltac:(lia)) as (M2 & E2 & O2 & _ & I2).
  unfold ms_swap in E2. destruct (Nat.eqb_spec (N.to_nat (blen (ms_nodes M))) (N.to_nat t)); [lia|].
  change (ms_nodes M1) with (ms_nodes M ++ [(id, v)]) in *. change (ms_map M1) with (aset id (blen (ms_nodes M)) (ms_map M)) in *.
  assert (nth_error (ms_nodes M ++ [(id, v)]) (N.to_nat (blen (ms_nodes M))) = Some (id, v)) as EN.
  { rewrite EB, nth_error_app2, Nat.sub_diag by lia. reflexivity. }
  rewrite EN in E2.
  destruct (nth_error (ms_nodes M ++ [(id, v)]) (N.to_nat t)) as [[dj vj]|] eqn:ET; [|discriminate].
  destruct (list_swap _ _ _) as [nodes'|] eqn:ES; [|discriminate].
  assert (nth_error nodes' (N.to_nat (blen (ms_nodes M))) = Some (dj, vj)) as ->.
  { unfold list_swap in ES. rewrite EN, ET in ES. injection ES as <-.
    rewrite list_set_nth by (rewrite list_set_length, app_length; cbn; lia).
    rewrite list_set_nth by (rewrite app_length; cbn; lia).
    destruct (Nat.eqb_spec (N.to_nat (blen (ms_nodes M))) (N.to_nat t)); [lia|].
    rewrite Nat.eqb_refl. reflexivity. }
  rewrite !N2Nat.id in E2. rewrite E2.
  exists M2. split; [reflexivity|]. split; [exact O2|]. intros x. rewrite I2. apply I1.
Qed.

(** The table as a map. *)
Definition ms_spec_step (f : N -> option V) (o : ms_op V) : N -> option V :=
  match o with
  | MInsert id v => fun k => if k =? id then Some v else f k
  | MInsertAt id v _ => match f id with Some _ => f | None => fun k => if k =? id then Some v else f k end
  | MUpdate id v => match f id with Some _ => fun k => if k =? id then Some v else f k | None => f end
  | MRemove id => fun k => if k =? id then None else f k
  | MShuffle _ => f
  end.
Definition repr M (f : N -> option V) : Prop := forall id v, In (id, v) (ms_nodes M) <-> f id = Some v.

Lemma repr_in M f id : ms_ok M -> repr M f -> In id (ms_ids M) <-> f id <> None.
Proof.
  intros O R. unfold ms_ids. rewrite in_map_iff. split.
  - intros ([k v] & <- & Hx). apply R in Hx. cbn. congruence.
  - destruct (f id) as [v|] eqn:E; [|congruence]. intros _. exists (id, v). split; [reflexivity|]. apply R, E.
Qed.
Lemma step_ok M f o : ms_ok M -> repr M f -> exists M', ms_step M o = Some M' /\ ms_ok M' /\ repr M' (ms_spec_step f o).
Proof.
  intros O R. destruct o as [id v|id v t|id v|id|d]; cbn [ms_step ms_spec_step].
  - eexists. split; [reflexivity|]. unfold ms_insert. destruct (aget id (ms_map M)) as [i|] eqn:E.
    + destruct (set_ok M id i v O E) as [O' I']. split; [exact O'|]. intros k w. rewrite I'. cbn [fst].
      destruct (N.eqb_spec k id) as [->|Hk]; [intuition congruence|]. rewrite <- (R k w). intuition congruence.
    + destruct (push_ok M id v O E) as [O' I']. split; [exact O'|]. intros k w. rewrite I'.
      apply (aget_none_ids M id O) in E. destruct (N.eqb_spec k id) as [->|Hk].
      * split; [|intuition congruence]. intros [[= ->]|Hx]; [reflexivity|]. exfalso. apply E. apply (in_map fst) in Hx. exact Hx.
      * rewrite <- (R k w). intuition congruence.
  - destruct (ahas id (ms_map M)) eqn:E.
    + exists M. split; [reflexivity|]. split; [exact O|]. apply (has_in M id O), (repr_in M f id O R) in E.
      destruct (f id) eqn:F; [exact R|congruence].
    + assert (~ In id (ms_ids M)) as Hn by (intros C; apply (has_in M id O) in C; congruence).
      destruct (insert_at_ok M id v (t mod (ms_len M + 1)) O Hn) as (M' & E' & O' & I').
      { pose proof (N.mod_lt t (ms_len M + 1) ltac:(lia)). lia. }
      exists M'. split; [exact E'|]. split; [exact O'|].
      assert (f id = None) as F by (destruct (f id) eqn:F; [exfalso; apply Hn, (repr_in M f id O R); congruence|reflexivity]).
      rewrite F. intros k w. rewrite I'. destruct (N.eqb_spec k id) as [->|Hk].
      * rewrite (R id w), F. intuition congruence.
      * rewrite <- (R k w). intuition congruence.
  - eexists. split; [reflexivity|]. unfold ms_update. destruct (aget id (ms_map M)) as [i|] eqn:E.
    + destruct (set_ok M id i v O E) as [O' I']. split; [exact O'|].
      assert (f id <> None) as F.
      { apply (repr_in M f id O R), (has_in M id O). unfold ahas. rewrite E. reflexivity. }
      destruct (f id) as [u|] eqn:Fi; [|congruence]. intros k w. rewrite I'. cbn [fst].
      destruct (N.eqb_spec k id) as [->|Hk]; [intuition congruence|]. rewrite <- (R k w). intuition congruence.
    + split; [exact O|]. apply (aget_none_ids M id O) in E. destruct (f id) eqn:F; [|exact R].
      exfalso. apply E, (repr_in M f id O R). congruence.
  - eexists. split; [reflexivity|]. pose proof (remove_ok M id O) as RM. destruct (ms_remove id M) as [M' r].
    destruct RM as (O' & _ & I'). cbn [fst]. split; [exact O'|]. intros k w. rewrite I'. cbn [fst].
    destruct (N.eqb_spec k id) as [->|Hk]; [intuition congruence|]. rewrite <- (R k w). intuition congruence.
  - unfold ms_shuffle. destruct (shuffle_ok (Nat.pred (length (ms_nodes M))) d M O ltac:(lia)) as (M' & E' & O' & I').
    exists M'. split; [exact E'|]. split; [exact O'|]. intros k w. rewrite I'. apply R.
Qed.
Lemma run_ok os : forall M f, ms_ok M -> repr M f ->
  exists M', ms_run M os = Some M' /\ ms_ok M' /\ repr M' (fold_left ms_spec_step os f).
Proof.
  induction os as [|o os IH]; intros M f O R; cbn [ms_run fold_left]; [eauto|].
  destruct (step_ok M f o O R) as (M1 & -> & O1 & R1). apply IH; assumption.
Qed.
End M.
