(** The member table of members/mod.rs (a vector and an index map) acts on its
    vector as the list functions of [CoreModel] do. *)
From Verif Require Import Base BaseFacts MapModel MapFacts MembersModel MembersFacts MsgModel CoreModel.
Local Open Scope N_scope.

Implicit Types (M : members member) (l : list (N * member)).

Lemma get_list M id : ms_ok M -> ms_get id M = option_map (pair id) (aget id (ms_nodes M)).
Proof.
  intros O. destruct (ms_get id M) as [[k v]|] eqn:G.
  - apply (get_in M id _ O) in G. cbn [fst] in G. destruct G as [G ->].
    destruct O as [ND _]. unfold ms_ids in ND. revert ND G. induction (ms_nodes M) as [|[k w] l IH]; intros ND [].
    + injection H as -> ->. cbn [aget]. rewrite N.eqb_refl. reflexivity.
    + cbn [map fst] in ND. inversion_clear ND as [|? ? Hn ND']. cbn [aget]. destruct (N.eqb_spec id k) as [->|_]; [|auto].
      exfalso. apply Hn. apply in_map_iff. exists (k, v). auto.
  - destruct (aget id (ms_nodes M)) as [v|] eqn:A; [|reflexivity]. apply aget_in in A.
    assert (ms_get id M = Some (id, v)) by (apply (get_in M id _ O); auto). congruence.
Qed.
Lemma upd_absent id f l : ~ In id (map fst l) -> mt_upd id f l = l.
Proof.
  induction l as [|[k w] l IH]; intros H; cbn; [reflexivity|]. cbn in H.
  destruct (N.eqb_spec k id) as [->|_]; [tauto|]. f_equal. apply IH. tauto.
Qed.
Lemma set_upd l : forall i id v w, NoDup (map fst l) -> nth_error l i = Some (id, w) ->
  list_set i (id, v) l = mt_upd id (fun _ => v) l.
Proof.
  induction l as [|[k u] l IH]; intros [|i] id v w ND E; cbn in E; try discriminate; cbn [map fst] in ND;
    inversion_clear ND as [|? ? Hn ND']; cbn [list_set mt_upd map fst].
  - injection E as -> ->. rewrite N.eqb_refl. f_equal. symmetry. apply (upd_absent id (fun _ => v) l Hn).
  - destruct (N.eqb_spec k id) as [->|_].
    + exfalso. apply Hn, in_map_iff. exists (id, w). split; [reflexivity|]. eapply nth_error_In, E.
    + f_equal. apply (IH i id v w ND' E).
Qed.
Lemma del_absent id l : ~ In id (map fst l) -> adel id l = l.
Proof.
  induction l as [|[k w] l IH]; intros H; cbn; [reflexivity|]. cbn in H.
  destruct (N.eqb_spec id k) as [->|_]; [tauto|]. f_equal. apply IH. tauto.
Qed.
Lemma remove_del l : forall i id w, NoDup (map fst l) -> nth_error l i = Some (id, w) -> list_remove i l = adel id l.
Proof.
  induction l as [|[k u] l IH]; intros [|i] id w ND E; cbn in E; try discriminate; cbn [map fst] in ND;
    inversion_clear ND as [|? ? Hn ND']; cbn [list_remove adel].
  - injection E as -> ->. rewrite N.eqb_refl. symmetry. apply del_absent, Hn.
  - destruct (N.eqb_spec id k) as [->|_].
    + exfalso. apply Hn, in_map_iff. exists (k, w). split; [reflexivity|]. eapply nth_error_In, E.
    + f_equal. apply (IH i id w ND' E).
Qed.
Lemma map_some_nth M id i : ms_ok M -> aget id (ms_map M) = Some i -> exists w, nth_error (ms_nodes M) (N.to_nat i) = Some (id, w).
Proof. intros O E. apply (ok_map M O) in E. apply ids_nth_inv, E. Qed.
Lemma update_list M id v : ms_ok M -> ms_nodes (ms_update id v M) = mt_upd id (fun _ => v) (ms_nodes M).
Proof.
  intros O. unfold ms_update. destruct (aget id (ms_map M)) as [i|] eqn:E.
  - destruct (map_some_nth M id i O E) as [w H]. apply (set_upd _ _ _ _ w); [apply O|exact H].
  - symmetry. apply upd_absent. apply (aget_none_ids M id O), E.
Qed.
Lemma remove_list M id : ms_ok M -> ms_nodes (fst (ms_remove id M)) = adel id (ms_nodes M).
Proof.
  intros O. unfold ms_remove. destruct (aget id (ms_map M)) as [i|] eqn:E; cbn [fst ms_nodes].
  - destruct (map_some_nth M id i O E) as [w H]. apply (remove_del _ _ _ w); [apply O|exact H].
  - symmetry. apply del_absent. apply (aget_none_ids M id O), E.
Qed.
Lemma set_app_l {A} (l r : list A) i v : (i < length l)%nat -> list_set i v (l ++ r) = list_set i v l ++ r.
Proof.
  revert i. induction l as [|x l IH]; intros [|i] H; cbn in *; [lia|lia|reflexivity|]. f_equal. apply IH. lia.
Qed.
Lemma set_app_at {A} (l : list A) x v r : list_set (length l) v (l ++ x :: r) = l ++ v :: r.
Proof. induction l; cbn; [reflexivity|f_equal; assumption]. Qed.
Lemma insert_list M id v off : ms_ok M -> ~ In id (map fst (ms_nodes M)) -> off <= ms_len M ->
  option_map ms_nodes (ms_insert_at id v off M) = Some (mt_insert off id v (ms_nodes M)).
Proof.
  intros O Hn L. destruct (insert_at_ok M id v off O Hn L) as (M' & E & _ & _). revert E.
  unfold ms_insert_at. destruct (ahas id (ms_map M)); [discriminate|]. unfold ms_len in L.
  destruct (N.ltb_spec (blen (ms_nodes M)) off); [discriminate|]. unfold mt_insert.
  destruct (N.eqb_spec off (blen (ms_nodes M))) as [->|Hne].
  { intros _. rewrite bdrop_all by reflexivity. reflexivity. }
  pose proof (btake_bdrop off (ms_nodes M)) as S. pose proof (blen_btake off (ms_nodes M)) as SL.
  pose proof (blen_bdrop off (ms_nodes M)) as DL.
  destruct (bdrop off (ms_nodes M)) as [|d r]; [cbn in DL; unfold blen in *; cbn in DL; lia|].
  set (p := btake off (ms_nodes M)) in *. assert (length p = N.to_nat off) as Lp by (unfold blen in SL, L, Hne, DL; lia).
  rewrite <- S. replace (N.to_nat (blen (p ++ d :: r))) with (length (p ++ d :: r)) by (unfold blen; rewrite Nat2N.id; reflexivity).
  assert (list_swap (length (p ++ d :: r)) (N.to_nat off) ((p ++ d :: r) ++ [(id, v)])
          = Some (p ++ (id, v) :: r ++ [d])) as ->.
  { unfold list_swap. rewrite nth_error_app2, Nat.sub_diag by lia. cbn [nth_error].
    rewrite <- Lp, <- app_assoc. rewrite nth_error_app2, Nat.sub_diag by lia. cbn [app nth_error]. f_equal.
    replace (p ++ d :: r ++ [(id, v)]) with ((p ++ d :: r) ++ [(id, v)]) by (rewrite <- app_assoc; reflexivity).
    rewrite set_app_at. rewrite <- app_assoc. cbn [app]. rewrite set_app_at. reflexivity. }
  destruct (nth_error _ _) as [[did w]|]; [|discriminate].
  destruct (map_put id _ _); [|discriminate]. destruct (map_put did _ _); [|discriminate]. intros _. reflexivity.
Qed.
Lemma swap_same {A} i (l : list A) : (i < length l)%nat -> list_swap i i l = Some l.
Proof.
  intros H. unfold list_swap. destruct (nth_error l i) as [a|] eqn:E; [|apply nth_error_None in E; lia].
  rewrite (list_set_same i a l E). rewrite list_set_same; auto.
Qed.
Lemma swap_nodes i j M M' : ms_ok M -> (i < length (ms_nodes M))%nat -> (j < length (ms_nodes M))%nat ->
  ms_swap i j M = Some M' -> list_swap i j (ms_nodes M) = Some (ms_nodes M').
Proof.
  intros O Li Lj. unfold ms_swap. destruct (Nat.eqb_spec i j) as [->|_]; [intros [= <-]; apply swap_same, Lj|].
  destruct (nth_error (ms_nodes M) i) as [[a b]|]; [|discriminate]. destruct (nth_error (ms_nodes M) j) as [[c e]|]; [|discriminate].
  destruct (list_swap i j (ms_nodes M)); [|discriminate]. destruct (map_put a _ _); [|discriminate].
  destruct (map_put c _ _); [|discriminate]. intros [= <-]. reflexivity.
Qed.
(** the draws of [random_range] in the order the loop makes them: [i] from the top down to 1 *)
Fixpoint draws_from (draw : nat -> N) (i : nat) : list N :=
  match i with O => [] | S i' => draw i :: draws_from draw i' end.
Lemma shuffle_loop_list draw i : forall M, ms_ok M -> (i < length (ms_nodes M) \/ i = 0)%nat ->
  option_map ms_nodes (ms_shuffle_loop i (draws_from draw i) M) = Some (shuffle_loop i draw (ms_nodes M)).
Proof.
  induction i as [|i IH]; intros M O L; [reflexivity|]. cbn [ms_shuffle_loop shuffle_loop draws_from hd tl].
  set (j := N.to_nat (draw (S i) mod (N.of_nat (S i) + 1))).
  assert (j <= S i)%nat as Lj.
  { unfold j. pose proof (N.mod_lt (draw (S i)) (N.of_nat (S i) + 1) ltac:(lia)). lia. }
  destruct (swap_ok M (S i) j O ltac:(lia) ltac:(lia)) as (M1 & E1 & O1 & L1 & I1). rewrite E1.
  rewrite (swap_nodes (S i) j M M1 O ltac:(lia) ltac:(lia) E1). apply IH; [exact O1|]. rewrite L1. lia.
Qed.
Lemma shuffle_list draw M : ms_ok M ->
  option_map ms_nodes (ms_shuffle (draws_from draw (Nat.pred (length (ms_nodes M)))) M) = Some (shuffle draw (ms_nodes M)).
Proof. intros O. apply shuffle_loop_list; [exact O|]. destruct (length (ms_nodes M)); cbn; lia. Qed.
