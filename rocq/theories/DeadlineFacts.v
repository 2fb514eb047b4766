(** Proofs about the deadline index. *)
From Coq Require Import Sorting.Sorted Sorting.Permutation FinFun.
From Verif Require Import Base BaseFacts MapModel MapFacts DeadlineModel.
Local Open Scope N_scope.

Definition klt (a b : N * N) : Prop := fst a < fst b \/ (fst a = fst b /\ snd a < snd b).
Definition elt (a b : (N * N) * N) : Prop := klt (fst a) (fst b).
Lemma dk_cmp_spec a b : CompareSpec (a = b) (klt a b) (klt b a) (dk_cmp a b).
Proof.
  destruct a as [a1 a2], b as [b1 b2]. unfold dk_cmp, klt. cbn [fst snd].
  destruct (N.compare_spec a1 b1) as [->| |]; [|constructor; lia..].
  destruct (N.compare_spec a2 b2) as [->| |]; constructor; [reflexivity|lia..].
Qed.
Lemma klt_trans a b c : klt a b -> klt b c -> klt a c.
Proof. unfold klt. lia. Qed.
Lemma klt_irrefl a : ~ klt a a.
Proof. unfold klt. lia. Qed.

Notation dsorted := (StronglySorted elt).
Lemma dsorted_key l k v w : dsorted l -> In (k, v) l -> In (k, w) l -> v = w.
Proof.
  induction 1 as [|[k' u] l S IH F]; [intros []|]. rewrite Forall_forall in F.
  intros [[= -> ->]|Hv] [E|Hw].
  - congruence.
  - exfalso. apply (klt_irrefl k). exact (F _ Hw).
  - injection E as -> ->. exfalso. apply (klt_irrefl k). exact (F _ Hv).
  - auto.
Qed.
Lemma bt_insert_in key v l : (forall w, ~ In (key, w) l) -> forall x, In x (bt_insert key v l) <-> x = (key, v) \/ In x l.
Proof.
  induction l as [|[k w] l IH]; intros H x; cbn [bt_insert]; [cbn; intuition|].
  destruct (dk_cmp_spec key k) as [->|L|G].
  - exfalso. apply (H w). left. reflexivity.
  - cbn [In]. intuition.
  - cbn [In]. rewrite IH by (intros u Hu; apply (H u); right; exact Hu). intuition.
Qed.
Lemma bt_insert_sorted key v l : dsorted l -> (forall w, ~ In (key, w) l) -> dsorted (bt_insert key v l).
Proof.
  induction 1 as [|[k w] l S IH F]; intros H; cbn [bt_insert]; [repeat constructor|].
  destruct (dk_cmp_spec key k) as [->|L|G].
  - exfalso. apply (H w). left. reflexivity.
  - constructor; [constructor; assumption|]. constructor; [exact L|]. revert F. apply Forall_impl.
    intros a. apply klt_trans. exact L.
  - assert (forall u, ~ In (key, u) l) as H' by (intros u Hu; apply (H u); right; exact Hu).
    constructor; [apply IH, H'|]. rewrite Forall_forall in *. intros x Hx.
    apply (bt_insert_in key v l H') in Hx. destruct Hx as [->|Hx]; [exact G|auto].
Qed.
Lemma bt_remove_in key l : dsorted l -> forall x, In x (bt_remove key l) <-> In x l /\ fst x <> key.
Proof.
  induction 1 as [|[k w] l S IH F]; intros x; cbn [bt_remove]; [cbn; intuition|].
  rewrite Forall_forall in F. destruct (dk_cmp_spec key k) as [->|L|G].
  - cbn [In]. split.
    + intros Hx. split; [auto|]. intros E. apply (klt_irrefl k). specialize (F x Hx). unfold elt in F. rewrite E in F. exact F.
    + intros [[<-|Hx] Hn]; [cbn in Hn; congruence|exact Hx].
  - cbn [In]. rewrite IH. split; [|intuition]. intros [<-|Hx]; [|intuition]. split; [auto|]. cbn. intros ->. exact (klt_irrefl _ L).
  - cbn [In]. rewrite IH. split; [|intuition]. intros [<-|Hx]; [|intuition]. split; [auto|]. cbn. intros ->. exact (klt_irrefl _ G).
Qed.
Lemma bt_remove_sorted key l : dsorted l -> dsorted (bt_remove key l).
Proof.
  induction 1 as [|[k w] l S IH F]; cbn [bt_remove]; [constructor|].
  assert (dsorted ((k, w) :: bt_remove key l)).
  { constructor; [exact IH|]. rewrite Forall_forall in *. intros x Hx. apply F, (bt_remove_in key l S), Hx. }
  destruct (dk_cmp key k); auto.
Qed.

Record dinv (D : dindex) : Prop := {
  dv_sorted : dsorted (di_by D);
  dv_agree : forall k d s, aget k (di_cur D) = Some (d, s) <-> In ((d, s), k) (di_by D);
  dv_seq : forall d s k, In ((d, s), k) (di_by D) -> s <= di_seq D }.
Lemma dinv_new : dinv di_new.
Proof. constructor; cbn; [constructor|intuition discriminate|tauto]. Qed.
Lemma dinv_clear D : dinv (di_clear D).
Proof. constructor; cbn; [constructor|intuition discriminate|tauto]. Qed.

Lemma dinv_del k D : dinv D -> forall d s, aget k (di_cur D) = Some (d, s) ->
  dinv (mkDI (bt_remove (d, s) (di_by D)) (adel k (di_cur D)) (di_seq D)).
Proof.
  intros [S A Q] d s E. constructor; cbn [di_by di_cur di_seq].
  - apply bt_remove_sorted, S.
  - intros k' d' s'. rewrite aget_adel, (bt_remove_in _ _ S). cbn [fst].
    destruct (N.eqb_spec k' k) as [->|Hk].
    + split; [discriminate|]. intros [Hi Hn]. apply A in Hi. congruence.
    + rewrite A. split; [|tauto]. intros Hi. split; [exact Hi|]. intros [= -> ->].
      apply A in E. apply Hk. exact (dsorted_key _ _ _ _ S Hi E).
  - intros d' s' k' Hi. apply (bt_remove_in _ _ S) in Hi. apply (Q d' s' k'), Hi.
Qed.
Lemma dinv_add k d D : dinv D -> aget k (di_cur D) = None ->
  dinv (mkDI (bt_insert (d, di_seq D + 1) k (di_by D)) (aset k (d, di_seq D + 1) (di_cur D)) (di_seq D + 1)).
Proof.
  intros [S A Q] E.
  assert (forall w, ~ In ((d, di_seq D + 1), w) (di_by D)) as Fr by (intros w Hw; apply Q in Hw; lia).
  constructor; cbn [di_by di_cur di_seq].
  - apply bt_insert_sorted; assumption.
  - intros k' d' s'. rewrite aget_aset, (bt_insert_in _ _ _ Fr). destruct (N.eqb_spec k' k) as [->|Hk].
    + split; [intros [= <- <-]; auto|]. intros [[= <- <-]|Hi]; [reflexivity|]. apply A in Hi. congruence.
    + rewrite A. split; [auto|]. intros [[= -> -> ->]|Hi]; [congruence|exact Hi].
  - intros d' s' k' Hi. apply (bt_insert_in _ _ _ Fr) in Hi. destruct Hi as [[= -> -> ->]|Hi]; [lia|].
    apply Q in Hi. lia.
Qed.
Lemma adel_adel {A} k (m : amap A) : adel k (adel k m) = adel k m.
Proof. apply adel_none, aget_adel_eq. Qed.
Lemma dinv_set k d D : dinv D -> dinv (di_set k d D).
Proof.
  intros V. unfold di_set. destruct d as [d|].
  - destruct (aget k (di_cur D)) as [[od os]|] eqn:E.
    + destruct (od =? d); [exact V|].
      pose proof (dinv_del k D V od os E) as V1.
      pose proof (dinv_add k d _ V1 (aget_adel_eq k (di_cur D))) as V2. cbn [di_by di_cur di_seq] in V2.
      unfold aset in *. rewrite adel_adel in V2. exact V2.
    + apply dinv_add; assumption.
  - destruct (aget k (di_cur D)) as [[od os]|] eqn:E; [|exact V]. apply dinv_del; assumption.
Qed.
Lemma dinv_run os : dinv (di_run os).
Proof.
  unfold di_run. assert (forall D, dinv D -> dinv (fold_left di_step os D)) as G.
  { induction os as [|o os IH]; intros D V; cbn [fold_left]; [exact V|]. apply IH.
    destruct o; [apply dinv_set, V|apply dinv_clear]. }
  apply G, dinv_new.
Qed.

(** What was last set for a key and not cleared since; latest operation first. *)
Fixpoint last_set (rev_os : list di_op) (k : N) : option N :=
  match rev_os with
  | [] => None
  | DClear :: _ => None
  | DSet k' d :: r => if k =? k' then d else last_set r k
  end.
Lemma set_cur k d D k' : dinv D ->
  option_map fst (aget k' (di_cur (di_set k d D))) = if k' =? k then d else option_map fst (aget k' (di_cur D)).
Proof.
  intros V. unfold di_set. destruct d as [d|].
  - destruct (aget k (di_cur D)) as [[od os]|] eqn:E.
    + destruct (N.eqb_spec od d) as [->|].
      * destruct (N.eqb_spec k' k) as [->|]; [rewrite E; reflexivity|reflexivity].
      * cbn [di_cur]. rewrite aget_aset. destruct (k' =? k); reflexivity.
    + cbn [di_cur]. rewrite aget_aset. destruct (k' =? k); reflexivity.
  - destruct (aget k (di_cur D)) as [[od os]|] eqn:E.
    + cbn [di_cur]. rewrite aget_adel. destruct (k' =? k); reflexivity.
    + destruct (N.eqb_spec k' k) as [->|]; [rewrite E; reflexivity|reflexivity].
Qed.
Lemma run_cur os k : option_map fst (aget k (di_cur (di_run os))) = last_set (rev os) k.
Proof.
  induction os as [|o os IH] using rev_ind; [reflexivity|].
  unfold di_run in *. rewrite fold_left_app, rev_app_distr. cbn [fold_left rev app last_set].
  destruct o as [k' d|]; cbn [di_step]; [|reflexivity].
  pose proof (set_cur k' d _ k (dinv_run os)) as E. unfold di_run in E. rewrite E, <- IH. reflexivity.
Qed.
Lemma earliest_min D : dinv D ->
  match di_earliest D with
  | Some d => (exists k s, aget k (di_cur D) = Some (d, s)) /\
              forall k d' s, aget k (di_cur D) = Some (d', s) -> d <= d'
  | None => forall k, aget k (di_cur D) = None
  end.
Proof.
  intros [S A Q]. unfold di_earliest. destruct (di_by D) as [|[[d s] k] l] eqn:E.
  - intros k. destruct (aget k (di_cur D)) as [[d s]|] eqn:G; [|reflexivity]. apply A in G. destruct G.
  - split.
    + exists k, s. apply A. left. reflexivity.
    + intros k' d' s' G. apply A in G. inversion S as [|? ? S' F]; subst. rewrite Forall_forall in F.
      destruct G as [[= -> -> ->]|G]; [lia|]. specialize (F _ G). unfold elt, klt in F. cbn in F. lia.
Qed.
Lemma earliest_exact os :
  match di_earliest (di_run os) with
  | Some d => (exists k, last_set (rev os) k = Some d) /\ forall k d', last_set (rev os) k = Some d' -> d <= d'
  | None => forall k, last_set (rev os) k = None
  end.
Proof.
  pose proof (earliest_min _ (dinv_run os)) as H. destruct (di_earliest (di_run os)) as [d|].
  - destruct H as [(k & s & E) M]. split.
    + exists k. rewrite <- run_cur, E. reflexivity.
    + intros k' d'. rewrite <- run_cur. destruct (aget k' (di_cur (di_run os))) as [[d0 s0]|] eqn:G; [|discriminate].
      intros [= <-]. exact (M k' d0 s0 G).
  - intros k. rewrite <- run_cur, H. reflexivity.
Qed.
Lemma nodup_cur os : NoDup (akeys (di_cur (di_run os))).
Proof.
  induction os as [|o os IH] using rev_ind; [constructor|]. unfold di_run in *. rewrite fold_left_app. cbn [fold_left].
  set (D := fold_left di_step os di_new) in *. destruct o as [k d|]; cbn [di_step]; [|constructor].
  unfold di_set. destruct d as [d|]; destruct (aget k (di_cur D)) as [[od s]|]; [destruct (od =? d)|..];
    cbn [di_cur]; auto using nodup_aset, nodup_adel.
Qed.
Lemma sorted_nodup l : dsorted l -> NoDup l.
Proof.
  induction 1 as [|x l S IH F]; constructor; [|exact IH]. intros C. rewrite Forall_forall in F.
  exact (klt_irrefl _ (F _ C)).
Qed.
Lemma no_tombstones os : blen (di_by (di_run os)) = blen (di_cur (di_run os)).
Proof.
  pose proof (dinv_run os) as [S A Q]. pose proof (nodup_cur os) as ND. set (D := di_run os) in *.
  assert (Permutation (map (fun e => (snd e, fst e)) (di_by D)) (di_cur D)) as P.
  { apply NoDup_Permutation.
    - apply FinFun.Injective_map_NoDup; [|apply sorted_nodup, S]. intros [a b] [c d] [= -> ->]. reflexivity.
    - apply (NoDup_map_inv fst), ND.
    - intros [k [d s]]. rewrite in_map_iff. split.
      + intros ([ds k'] & [= -> ->] & Hi). apply A in Hi. apply aget_in, Hi.
      + intros Hi. exists ((d, s), k). split; [reflexivity|]. apply A, aget_of_in; assumption. }
  apply Permutation_length in P. rewrite map_length in P. unfold blen. rewrite P. reflexivity.
Qed.
