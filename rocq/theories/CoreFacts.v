(** Table lemmas, the elementary steps of the membership core, and the core
    invariant. *)
From Coq Require Import Permutation.
From Verif Require Import CoreModel MapFacts BaseFacts DeadlineFacts MembersFacts LabelFacts.
Local Open Scope N_scope.
#[global] Arguments di_set : simpl never.
#[global] Arguments queue_broadcast : simpl never.
#[global] Arguments mt_upd : simpl never.
#[global] Arguments akeys : simpl never.
#[global] Arguments mt_insert : simpl never.
#[global] Arguments shuffle : simpl never.
#[global] Arguments bq_step : simpl never.
#[global] Arguments susp_confirm : simpl never.
#[global] Arguments susp_new : simpl never.
#[global] Arguments wadd32 : simpl never.
#[global] Arguments wadd64 : simpl never.

(** ** Tables *)
Lemma pstate_eqb_spec a b : reflect (a = b) (pstate_eqb a b).
Proof.
  destruct a, b; cbn; try (constructor; congruence).
  destruct (N.eqb_spec v v0); constructor; congruence.
Qed.
Lemma akeys_mt_upd id f t : akeys (mt_upd id f t) = akeys t.
Proof.
  unfold akeys, mt_upd. rewrite map_map. apply map_ext. intros [j m]. cbn. destruct (j =? id); reflexivity.
Qed.
Lemma aget_mt_upd id f t j : aget j (mt_upd id f t) = if j =? id then option_map f (aget j t) else aget j t.
Proof.
  induction t as [|[i m] t IH]; unfold mt_upd; cbn [map aget fst snd]; [destruct (j =? id); reflexivity|].
  fold (mt_upd id f t).
  destruct (N.eqb_spec i id) as [Hi|Hi]; cbn [aget fst snd].
  - rewrite Hi. destruct (N.eqb_spec j id) as [Hj|Hj]; [reflexivity|exact IH].
  - destruct (N.eqb_spec j i) as [Hj|Hj]; [|exact IH].
    destruct (N.eqb_spec j id); [congruence|reflexivity].
Qed.
Lemma mt_upd_id id f t m : NoDup (akeys t) -> aget id t = Some m -> f m = m -> mt_upd id f t = t.
Proof.
  intros ND G E. unfold mt_upd. transitivity (map (fun p : N * member => p) t); [|apply map_id].
  apply map_ext_in. intros [j n] H. cbn. destruct (N.eqb_spec j id) as [->|]; [|reflexivity].
  assert (n = m) as -> by (apply (aget_of_in _ _ _ ND) in H; congruence). rewrite E. reflexivity.
Qed.
Lemma blen_mt_upd id f t : blen (mt_upd id f t) = blen t.
Proof. unfold blen, mt_upd. rewrite map_length. reflexivity. Qed.
Lemma mt_insert_perm off id m t : Permutation ((id, m) :: t) (mt_insert off id m t).
Proof.
  unfold mt_insert, btake. rewrite <- (firstn_skipn (N.to_nat off) t) at 1. change (skipn (N.to_nat off) t) with (bdrop off t).
  destruct (bdrop off t) as [|d r] eqn:E.
  - rewrite app_nil_r. assert (firstn (N.to_nat off) t = t) as ->.
    { rewrite <- (firstn_skipn (N.to_nat off) t) at 2. change (skipn (N.to_nat off) t) with (bdrop off t). rewrite E, app_nil_r. reflexivity. }
    apply Permutation_cons_append.
  - apply Permutation_trans with (firstn (N.to_nat off) t ++ (id, m) :: d :: r); [apply Permutation_middle|].
    apply Permutation_app_head. constructor. apply Permutation_cons_append.
Qed.
Lemma list_swap_perm {A} i j (l l' : list A) : list_swap i j l = Some l' -> Permutation l l'.
Proof.
  unfold list_swap. destruct (nth_error l i) as [a|] eqn:Ei; [|discriminate].
  destruct (nth_error l j) as [b|] eqn:Ej; [|discriminate]. intros [= <-].
  assert (i < length l)%nat as Li by (apply nth_error_Some; congruence).
  assert (j < length l)%nat as Lj by (apply nth_error_Some; congruence).
  apply Permutation_nth_error. split; [rewrite !list_set_length; reflexivity|].
  exists (fun n => if (n =? j)%nat then i else if (n =? i)%nat then j else n). split.
  - intros x y H. destruct (Nat.eqb_spec x j), (Nat.eqb_spec y j), (Nat.eqb_spec x i), (Nat.eqb_spec y i); lia.
  - intros n. rewrite list_set_nth by (rewrite list_set_length; exact Lj). rewrite list_set_nth by exact Li.
    destruct (Nat.eqb_spec n j) as [->|]; [congruence|]. destruct (Nat.eqb_spec n i) as [->|]; congruence.
Qed.
Lemma shuffle_perm {A} d (l : list A) : Permutation l (shuffle d l).
Proof.
  unfold shuffle. generalize (Nat.pred (length l)). intros i. revert l.
  induction i as [|i IH]; intros l; cbn [shuffle_loop]; [reflexivity|].
  set (j := N.to_nat _). destruct (list_swap (S i) j l) as [l'|] eqn:E; [|apply IH].
  apply Permutation_trans with l'; [exact (list_swap_perm _ _ _ _ E)|apply IH].
Qed.
Lemma perm_nodup_keys {A} (t t' : amap A) : Permutation t t' -> NoDup (akeys t) -> NoDup (akeys t').
Proof. intros P. unfold akeys. apply Permutation_NoDup. apply Permutation_map, P. Qed.
Lemma perm_aget {A} (t t' : amap A) k : Permutation t t' -> NoDup (akeys t) -> aget k t' = aget k t.
Proof.
  intros P ND. pose proof (perm_nodup_keys _ _ P ND) as ND'.
  destruct (aget k t) as [a|] eqn:E.
  - apply (aget_of_in _ _ _ ND'). apply (Permutation_in _ P). apply aget_in, E.
  - apply aget_none. intros H. apply aget_none in E. apply E.
    unfold akeys in *. apply (Permutation_in k (Permutation_map fst (Permutation_sym P))). exact H.
Qed.
Lemma aget_mt_insert off id m t j : NoDup (akeys t) -> aget id t = None ->
  aget j (mt_insert off id m t) = if j =? id then Some m else aget j t.
Proof.
  intros ND E. rewrite (perm_aget ((id, m) :: t)); [reflexivity|apply mt_insert_perm|].
  constructor; [apply aget_none, E|exact ND].
Qed.
Lemma nodup_mt_insert off id m t : NoDup (akeys t) -> aget id t = None -> NoDup (akeys (mt_insert off id m t)).
Proof.
  intros ND E. apply (perm_nodup_keys ((id, m) :: t)); [apply mt_insert_perm|].
  constructor; [apply aget_none, E|exact ND].
Qed.
Lemma blen_mt_insert off id m t : blen (mt_insert off id m t) = blen t + 1.
Proof. unfold blen. rewrite <- (Permutation_length (mt_insert_perm off id m t)). cbn. lia. Qed.
Lemma blen_shuffle {A} d (l : list A) : blen (shuffle d l) = blen l.
Proof. unfold blen. rewrite <- (Permutation_length (shuffle_perm d l)). reflexivity. Qed.

(** The list-level table functions are what the vector-and-index container
    does (used in PropsCore). *)
Lemma ms_insert_list {V} (M M' : members V) id v off :
  ms_ok M -> ms_insert_at id v off M = Some M' ->
  ms_nodes M' = match bdrop off (ms_nodes M) with
                | [] => ms_nodes M ++ [(id, v)]
                | d :: r => btake off (ms_nodes M) ++ (id, v) :: r ++ [d]
                end.
Proof.
  intros O. unfold ms_insert_at. destruct (ahas id (ms_map M)); [discriminate|].
  destruct (N.ltb_spec (blen (ms_nodes M)) off) as [|L]; [discriminate|].
  destruct (N.eqb_spec off (blen (ms_nodes M))) as [->|Ne].
  - intros [= <-]. cbn. unfold bdrop, blen. rewrite Nat2N.id, skipn_all. reflexivity.
  - destruct (list_swap _ _ _) as [nodes'|] eqn:Es; [|discriminate].
    destruct (nth_error nodes' _) as [[did dv]|]; [|discriminate].
    destruct (map_put id off _) as [m2|]; [|discriminate]. destruct (map_put did _ m2); [|discriminate].
    intros [= <-]. cbn [ms_nodes]. revert Es. unfold bdrop, btake, list_swap, blen in *.
    set (t := ms_nodes M) in *. set (o := N.to_nat off). assert (o < length t)%nat as Lo by lia.
    rewrite Nat2N.id. rewrite nth_error_app2 by lia. rewrite Nat.sub_diag. cbn [nth_error].
    rewrite nth_error_app1 by exact Lo. destruct (nth_error t o) as [d|] eqn:En; [|discriminate]. intros [= <-].
    pose proof (nth_error_split t o En) as (t1 & t2 & Et & Lt1). rewrite Et.
    rewrite <- Lt1. rewrite firstn_app, firstn_all, Nat.sub_diag, app_nil_r.
    rewrite skipn_app, skipn_all, Nat.sub_diag. cbn [skipn app].
    rewrite app_length. cbn [length].
    assert (forall (u : N * V) (x : list (N * V)) y (w : N * V), list_set (length x) u (x ++ w :: y) = x ++ u :: y) as LS.
    { intros u x y w. induction x as [|z x IH]; cbn; [reflexivity|]. rewrite IH. reflexivity. }
    replace (length t1 + S (length t2))%nat with (length (t1 ++ d :: t2)) by (rewrite app_length; reflexivity).
    rewrite LS. rewrite <- (app_assoc t1 (d :: t2) [d]). cbn [app]. rewrite LS.
    reflexivity.
Qed.
