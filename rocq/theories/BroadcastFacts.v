(** Proofs about the gossip queue. *)
From Coq Require Import Sorting.Sorted Sorting.Permutation.
From Verif Require Import Base BaseFacts MapModel MapFacts BroadcastModel.
Local Open Scope N_scope.

(** * The order and the set *)
Section SetFacts.
Context {B : Type}.
Implicit Types (x y : item B) (l : list (item B)).

Definition ilt x y : Prop :=
  i_tr x < i_tr y \/ (i_tr x = i_tr y /\ (i_len y < i_len x \/ (i_len x = i_len y /\ i_id y < i_id x))).
Definition ieq x y : Prop := i_tr x = i_tr y /\ i_len x = i_len y /\ i_id x = i_id y.

Lemma item_cmp_spec x y : CompareSpec (ieq x y) (ilt x y) (ilt y x) (item_cmp x y).
Proof.
  unfold item_cmp, ieq, ilt. destruct (N.compare_spec (i_tr x) (i_tr y)); [|constructor; lia|constructor; lia].
  destruct (N.compare_spec (i_len y) (i_len x)); [|constructor; lia|constructor; lia].
  destruct (N.compare_spec (i_id y) (i_id x)); constructor; lia.
Qed.
Lemma ilt_trans x y z : ilt x y -> ilt y z -> ilt x z.
Proof. unfold ilt. lia. Qed.
Lemma ilt_irrefl x : ~ ilt x x.
Proof. unfold ilt. lia. Qed.
Lemma ilt_ieq x y : ilt x y -> ieq x y -> False.
Proof. unfold ilt, ieq. lia. Qed.

Definition sorted l := StronglySorted ilt l.

Lemma sorted_nodup l : sorted l -> NoDup l.
Proof.
  induction 1 as [|x l _ IH F]; constructor; auto. intros HI. rewrite Forall_forall in F.
  exact (ilt_irrefl x (F x HI)).
Qed.
Lemma sorted_ieq l x y : sorted l -> In x l -> In y l -> ieq x y -> x = y.
Proof.
  induction 1 as [|z l _ IH F]; [intros []|]. rewrite Forall_forall in F.
  intros [->|Hx] [->|Hy] E; auto.
  - exfalso. apply (ilt_ieq x y); auto.
  - exfalso. apply (ilt_ieq y x); [auto|]. unfold ieq in *. lia.
Qed.

Lemma set_insert_in x l y : In y (fst (set_insert x l)) <->
  (y = x /\ snd (set_insert x l) = true) \/ In y l.
Proof.
  induction l as [|z l IH]; cbn [set_insert].
  - cbn. intuition.
  - destruct (item_cmp x z).
    + cbn. intuition discriminate.
    + cbn. intuition.
    + destruct (set_insert x l) as [l' b]. cbn [fst snd] in *. cbn [In]. rewrite IH. intuition.
Qed.
Lemma set_insert_sorted x l : sorted l -> sorted (fst (set_insert x l)).
Proof.
  induction 1 as [|z l S IH F]; cbn [set_insert].
  - repeat constructor.
  - destruct (item_cmp_spec x z) as [E|L|G]; cbn [fst].
    + constructor; assumption.
    + constructor; [constructor; assumption|]. constructor; [assumption|].
      revert F. apply Forall_impl. intros a. apply ilt_trans, L.
    + destruct (set_insert x l) as [l' b] eqn:E. cbn [fst] in *. constructor; [exact IH|].
      rewrite Forall_forall in *. intros y Hy.
      pose proof (set_insert_in x l y) as HI. rewrite E in HI. cbn [fst snd] in HI.
      apply HI in Hy. destruct Hy as [[-> _]|Hy]; auto.
Qed.
Lemma set_insert_fresh x l : (forall y, In y l -> ~ ieq x y) -> snd (set_insert x l) = true.
Proof.
  induction l as [|z l IH]; intros H; cbn [set_insert]; [reflexivity|].
  destruct (item_cmp_spec x z) as [E|L|G].
  - exfalso. apply (H z); [left; reflexivity|exact E].
  - reflexivity.
  - destruct (set_insert x l) as [l' b]. cbn [snd] in *. apply IH. intros y Hy. apply H. right. exact Hy.
Qed.
Lemma set_insert_perm x l : snd (set_insert x l) = true -> Permutation (fst (set_insert x l)) (x :: l).
Proof.
  induction l as [|z l IH]; cbn [set_insert]; [reflexivity|].
  destruct (item_cmp x z); cbn [fst snd]; [discriminate|reflexivity|].
  destruct (set_insert x l) as [l' b]. cbn [fst snd] in *. intros H. rewrite (IH H). apply perm_swap.
Qed.
Lemma set_remove_id x l : (forall y, In y l -> ~ ieq x y) -> set_remove x l = l.
Proof.
  induction l as [|z l IH]; intros H; cbn [set_remove]; [reflexivity|].
  destruct (item_cmp_spec x z) as [E|L|G].
  - exfalso. apply (H z); [left; reflexivity|exact E].
  - f_equal. apply IH. intros y Hy. apply H. right. exact Hy.
  - f_equal. apply IH. intros y Hy. apply H. right. exact Hy.
Qed.
Lemma set_remove_split x a b : sorted (a ++ x :: b) -> set_remove x (a ++ x :: b) = a ++ b.
Proof.
  induction a as [|z a IH]; cbn [app set_remove]; intros S.
  - destruct (item_cmp_spec x x) as [E|L|G]; [reflexivity|exfalso..]; eapply ilt_irrefl; eassumption.
  - inversion S as [|? ? S' F]; subst. rewrite Forall_forall in F.
    assert (ilt z x) as Z by (apply F, in_elt).
    destruct (item_cmp_spec x z) as [E|L|G].
    + exfalso. apply (ilt_ieq z x Z). unfold ieq in *. lia.
    + exfalso. unfold ilt in *. lia.
    + f_equal. apply IH, S'.
Qed.
Lemma sorted_remove_elt x a b : sorted (a ++ x :: b) -> sorted (a ++ b).
Proof.
  induction a as [|z a IH]; cbn [app]; intros S; inversion S as [|? ? S' F]; subst.
  - exact S'.
  - constructor; [apply IH, S'|]. rewrite Forall_forall in *. intros y Hy. apply F.
    rewrite in_app_iff in *. cbn [In]. intuition.
Qed.
Lemma set_remove_sorted x l : sorted l -> sorted (set_remove x l).
Proof.
  induction 1 as [|z l S IH F]; cbn [set_remove]; [constructor|].
  assert (sorted (z :: set_remove x l)).
  { constructor; [exact IH|]. rewrite Forall_forall in *. intros y Hy. apply F.
    clear - Hy. induction l as [|w l IHl]; cbn [set_remove] in *; [destruct Hy|].
    destruct (item_cmp x w); cbn [In] in *; intuition. }
  destruct (item_cmp x z); auto.
Qed.
Lemma set_remove_in x l y : sorted l -> In x l -> In y (set_remove x l) <-> In y l /\ y <> x.
Proof.
  intros S Hx. destruct (in_split x l Hx) as (a & b & ->). rewrite (set_remove_split x a b S).
  pose proof (sorted_nodup _ S) as ND. apply NoDup_remove_2 in ND.
  rewrite !in_app_iff in *. cbn [In]. split.
  - intros H. split; [intuition|]. intros ->. contradiction.
  - intros [[H|[H|H]] Hn]; intuition congruence.
Qed.
Lemma set_remove_incl x l y : In y (set_remove x l) -> In y l.
Proof.
  induction l as [|w l IHl]; cbn [set_remove]; [auto|].
  destruct (item_cmp x w); cbn [In] in *; intuition.
Qed.
End SetFacts.

(** * The greedy reading of a batch *)
Section Greedy.
Context {B : Type}.
Implicit Types (x y : item B) (l : list (item B)).

(** One pass over the queue in order: take what fits, skip what does not. *)
Fixpoint greedy (ov limit used : N) l : list (item B) * list (item B) :=
  match l with
  | [] => ([], [])
  | x :: r =>
    if used + (i_len x + ov) <=? limit
    then let '(t, lf) := greedy ov limit (used + (i_len x + ov)) r in (x :: t, lf)
    else let '(t, lf) := greedy ov limit used r in (t, x :: lf)
  end.
Definition charges (ov : N) l : N := fold_right (fun x n => i_len x + ov + n) 0 l.
Lemma charges_cons ov x l : charges ov (x :: l) = i_len x + ov + charges ov l.
Proof. reflexivity. Qed.
Lemma charges_app ov l l' : charges ov (l ++ l') = charges ov l + charges ov l'.
Proof. induction l as [|x l IH]; [reflexivity|]. cbn [app]. rewrite !charges_cons, IH. lia. Qed.

Lemma greedy_skip ov limit used a : forall b, (forall y, In y a -> limit < used + (i_len y + ov)) ->
  greedy ov limit used (a ++ b) =
  let '(t, lf) := greedy ov limit used b in (t, a ++ lf).
Proof.
  induction a as [|x a IH]; intros b H; cbn [app greedy].
  - destruct (greedy ov limit used b); reflexivity.
  - destruct (N.leb_spec (used + (i_len x + ov)) limit) as [L|L].
    + specialize (H x ltac:(left; reflexivity)). lia.
    + rewrite IH by (intros y Hy; apply H; right; exact Hy). destruct (greedy ov limit used b). reflexivity.
Qed.
Lemma greedy_none ov limit used l : (forall y, In y l -> limit < used + (i_len y + ov)) ->
  greedy ov limit used l = ([], l).
Proof.
  intros H. rewrite <- (app_nil_r l) at 1. rewrite greedy_skip by exact H. cbn. rewrite app_nil_r. reflexivity.
Qed.
Lemma greedy_perm ov limit l : forall used, 
  Permutation l (fst (greedy ov limit used l) ++ snd (greedy ov limit used l)).
Proof.
  induction l as [|x l IH]; intros used; cbn [greedy]; [reflexivity|].
  destruct (_ <=? _).
  - specialize (IH (used + (i_len x + ov))). destruct (greedy _ _ _ l) as [t lf]. cbn [fst snd] in *.
    cbn [app]. constructor. exact IH.
  - specialize (IH used). destruct (greedy _ _ _ l) as [t lf]. cbn [fst snd] in *.
    transitivity (x :: t ++ lf); [constructor; exact IH|]. apply Permutation_middle.
Qed.
Lemma greedy_budget ov limit l : forall used, used <= limit ->
  used + charges ov (fst (greedy ov limit used l)) <= limit.
Proof.
  induction l as [|x l IH]; intros used H; cbn [greedy].
  - cbn. lia.
  - destruct (N.leb_spec (used + (i_len x + ov)) limit) as [L|L].
    + specialize (IH _ L). destruct (greedy _ _ _ l) as [t lf]. cbn [fst] in *. rewrite charges_cons. lia.
    + specialize (IH _ H). destruct (greedy _ _ _ l) as [t lf]. cbn [fst] in *. exact IH.
Qed.
Lemma greedy_incl ov limit l : forall used y,
  (In y (fst (greedy ov limit used l)) -> In y l) /\ (In y (snd (greedy ov limit used l)) -> In y l).
Proof.
  intros used y. pose proof (greedy_perm ov limit l used) as P. split; intros H;
    apply (Permutation_in y (Permutation_sym P)), in_app_iff; auto.
Qed.
Lemma greedy_sorted ov limit l : sorted l -> forall used,
  sorted (fst (greedy ov limit used l)) /\ sorted (snd (greedy ov limit used l)).
Proof.
  induction 1 as [|x l S IH F]; intros used; cbn [greedy]; [split; constructor|].
  rewrite Forall_forall in F. destruct (_ <=? _).
  - destruct (IH (used + (i_len x + ov))) as [I1 I2].
    pose proof (greedy_incl ov limit l (used + (i_len x + ov))) as G.
    destruct (greedy _ _ _ l) as [t lf]. cbn [fst snd] in *. split; [|exact I2].
    constructor; [exact I1|]. apply Forall_forall. intros y Hy. apply F, (proj1 (G y)), Hy.
  - destruct (IH used) as [I1 I2]. pose proof (greedy_incl ov limit l used) as G.
    destruct (greedy _ _ _ l) as [t lf]. cbn [fst snd] in *. split; [exact I1|].
    constructor; [exact I2|]. apply Forall_forall. intros y Hy. apply F, (proj2 (G y)), Hy.
Qed.
(** Whatever is left did not fit next to what was taken before it. *)
Lemma greedy_left ov limit l : sorted l -> forall used y, In y (snd (greedy ov limit used l)) ->
  exists t1 t2, fst (greedy ov limit used l) = t1 ++ t2 /\
    (forall x, In x t1 -> ilt x y) /\ (forall x, In x t2 -> ilt y x) /\
    limit < used + charges ov t1 + (i_len y + ov).
Proof.
  induction 1 as [|x l S IH F]; intros used y; cbn [greedy]; [intros []|].
  rewrite Forall_forall in F. destruct (N.leb_spec (used + (i_len x + ov)) limit) as [L|L].
  - specialize (IH (used + (i_len x + ov)) y).
    pose proof (greedy_incl ov limit l (used + (i_len x + ov)) y) as G.
    destruct (greedy _ _ _ l) as [t lf]. cbn [fst snd] in *. intros Hy.
    destruct (IH Hy) as (t1 & t2 & -> & H1 & H2 & HB).
    exists (x :: t1), t2. repeat split; auto.
    + intros z [<-|Hz]; auto. apply F, G, Hy.
    + rewrite charges_cons. lia.
  - specialize (IH used y). pose proof (greedy_incl ov limit l used) as G.
    destruct (greedy _ _ _ l) as [t lf]. cbn [fst snd] in *. intros [<-|Hy]; [|apply IH, Hy].
    exists [], t. repeat split; auto.
    + intros z [].
    + intros z Hz. apply F, (proj1 (G z)), Hz.
    + cbn. lia.
Qed.
End Greedy.

(** * The loop is the greedy pass *)
Section Loop.
Context {B : Type} (I : bcast_impl B).
Implicit Types (x y : item B) (q : list (item B)).

Definition item_ok x : Prop := i_len x <= u64_max /\ i_id x <= u64_max.

Lemma in_tier_spec tr fit x : item_ok x -> in_tier tr fit x = (i_tr x =? tr) && (i_len x <=? fit).
Proof.
  intros [HL HI]. unfold in_tier.
  destruct (item_cmp_spec (mkItem tr fit u64_max (i_b x)) x) as [E|E|E],
    (item_cmp_spec (mkItem (tr + 1) u64_max u64_max (i_b x)) x) as [D|D|D];
  unfold ieq, ilt in *; cbn [i_tr i_len i_id i_b andb] in *;
  destruct (N.eqb_spec (i_tr x) tr), (N.leb_spec (i_len x) fit); cbn [andb]; try reflexivity; lia.
Qed.
Lemma find_filter {A} (p f : A -> bool) (l : list A) : find p (filter f l) = find (fun a => f a && p a) l.
Proof. induction l as [|a l IH]; cbn; [reflexivity|]. destruct (f a); cbn; [destruct (p a); auto|exact IH]. Qed.
Lemma find_ext {A} (p p' : A -> bool) (l : list A) : (forall a, In a l -> p a = p' a) -> find p l = find p' l.
Proof.
  induction l as [|a l IH]; intros H; cbn; [reflexivity|].
  rewrite <- (H a) by (left; reflexivity). destruct (p a); [reflexivity|]. apply IH. intros. apply H. right. assumption.
Qed.
Lemma tier_candidate_eq tr fit q : Forall item_ok q ->
  tier_candidate tr fit q = find (fun x => (i_tr x =? tr) && (i_len x <=? fit)) q.
Proof.
  intros H. unfold tier_candidate. rewrite find_filter. apply find_ext. intros a Ha.
  rewrite Forall_forall in H. rewrite in_tier_spec by auto.
  destruct (i_tr a =? tr), (i_len a <=? fit); reflexivity.
Qed.
Lemma find_some_split {A} (p : A -> bool) (l : list A) a : find p l = Some a ->
  exists l1 l2, l = l1 ++ a :: l2 /\ p a = true /\ forall b, In b l1 -> p b = false.
Proof.
  induction l as [|b l IH]; cbn; [discriminate|]. destruct (p b) eqn:E.
  - intros [= ->]. exists [], l. repeat split; auto. intros ? [].
  - intros H. destruct (IH H) as (l1 & l2 & -> & Ha & Hb). exists (b :: l1), l2. repeat split; auto.
    intros c [<-|Hc]; auto.
Qed.
Lemma last_in {A} (l : list A) d : l <> [] -> In (last l d) l.
Proof.
  induction l as [|a l IH]; [congruence|]. intros _. destruct l; [left; reflexivity|].
  right. apply IH. discriminate.
Qed.
Lemma sorted_range q x : sorted q -> In x q -> fst (transmit_range q) <= i_tr x <= snd (transmit_range q).
Proof.
  intros S Hx. destruct q as [|y q]; [destruct Hx|]. cbn [transmit_range fst snd]. split.
  - inversion S as [|? ? S' F]; subst. rewrite Forall_forall in F. destruct Hx as [->|Hx]; [lia|].
    specialize (F x Hx). unfold ilt in F. lia.
  - assert (q = [] \/ q <> []) as [->|Hq] by (destruct q; [left|right]; congruence).
    + cbn. destruct Hx as [->|[]]. lia.
    + clear -S Hx.
      assert (forall (l : list (item B)) d, sorted l -> In x l -> i_tr x <= i_tr (last l d)) as G.
      { induction l as [|a l IH]; intros d S'; [intros []|]. intros [->|H]; inversion S' as [|? ? S'' F]; subst.
        - destruct l as [|b l]; [cbn; lia|]. rewrite Forall_forall in F.
          assert (In (last (b :: l) d) (b :: l)) as HI by (apply last_in; discriminate).
          apply F in HI. change (last (x :: b :: l) d) with (last (b :: l) d). unfold ilt in HI. lia.
        - destruct l as [|b l]; [destruct H|]. change (last (a :: b :: l) d) with (last (b :: l) d).
          apply IH; assumption. }
      apply G; assumption.
Qed.

Lemma take_loop_greedy lim ov limit max_tr : forall fuel tr used Q sent re,
  sorted (bq_q Q) -> Forall item_ok (bq_q Q) ->
  (forall y, In y (bq_q Q) -> i_tr y <= max_tr) ->
  (forall y, In y (bq_q Q) -> i_tr y < tr -> limit < used + (i_len y + ov)) ->
  used <= limit ->
  (length (bq_q Q) + N.to_nat (max_tr + 1 - tr) <= fuel)%nat ->
  let '(t, lf) := greedy ov limit used (bq_q Q) in
  take_loop I fuel lim ov limit max_tr tr used Q sent re =
  (mkQ lf (fold_left (fun m x => m_forget I x m) t (bq_m Q)) (bq_gen Q)
       (bq_fin Q ++ map i_b (filter (fun x => spent x lim) t)),
   sent ++ map i_b t, used + charges ov t,
   re ++ map bump (filter (fun x => negb (spent x lim)) t)).
Proof.
  induction fuel as [|fuel IH]; intros tr used Q sent re HS HO HM HT HU HF.
  - assert (bq_q Q = []) as E by (destruct (bq_q Q); [reflexivity|cbn in HF; lia]).
    rewrite E. cbn [greedy take_loop]. destruct Q; cbn in *. subst. cbn. rewrite !app_nil_r. 
    replace (used + 0) with used by lia. reflexivity.
  - assert (forall (Hn : forall y, In y (bq_q Q) -> limit < used + (i_len y + ov)),
      let '(t, lf) := greedy ov limit used (bq_q Q) in
      (Q, sent, used, re) =
      (mkQ lf (fold_left (fun m x => m_forget I x m) t (bq_m Q)) (bq_gen Q)
           (bq_fin Q ++ map i_b (filter (fun x => spent x lim) t)),
       sent ++ map i_b t, used + charges ov t,
       re ++ map bump (filter (fun x => negb (spent x lim)) t))) as Stop.
    { intros Hn. rewrite (greedy_none ov limit used (bq_q Q) Hn). destruct Q. cbn.
      rewrite !app_nil_r. replace (used + 0) with used by lia. reflexivity. }
    cbn [take_loop]. destruct (N.ltb_spec max_tr tr) as [Lm|Lm].
    { apply Stop. intros y Hy. apply HT; [exact Hy|]. specialize (HM y Hy). lia. }
    cbv zeta. destruct (N.ltb_spec (limit - used) ov) as [Lo|Lo].
    { apply Stop. intros y Hy. lia. }
    rewrite (tier_candidate_eq tr _ _ HO).
    destruct (find _ (bq_q Q)) as [keep|] eqn:Efind.
    + apply find_some_split in Efind. destruct Efind as (a & b & Eq & Hk & Ha).
      apply andb_true_iff in Hk. destruct Hk as [Hk1 Hk2]. apply N.eqb_eq in Hk1. apply N.leb_le in Hk2.
      assert (forall y, In y a -> limit < used + (i_len y + ov)) as HA.
      { intros y Hy. assert (In y (bq_q Q)) as HyQ by (rewrite Eq, in_app_iff; auto).
        destruct (N.lt_ge_cases (i_tr y) tr) as [L|L]; [apply HT; assumption|].
        specialize (Ha y Hy). apply andb_false_iff in Ha.
        assert (i_tr y <= i_tr keep) as LT.
        { clear - HS Eq Hy. rewrite Eq in HS. clear Eq. induction a as [|z a IH]; [destruct Hy|].
          cbn [app] in HS. inversion HS as [|? ? S' F]; subst. destruct Hy as [->|Hy]; [|auto].
          rewrite Forall_forall in F. specialize (F keep (in_elt _ _ _)). unfold ilt in F. lia. }
        destruct Ha as [Ha|Ha]; [apply N.eqb_neq in Ha; lia|]. apply N.leb_gt in Ha. lia. }
      rewrite Eq. rewrite greedy_skip by exact HA. cbn [greedy].
      destruct (N.leb_spec (used + (i_len keep + ov)) limit) as [Lf|Lf]; [|lia].
      specialize (IH tr (used + (i_len keep + ov))
        (mkQ (set_remove keep (bq_q Q)) (m_forget I keep (bq_m Q)) (bq_gen Q)
             (if spent keep lim then bq_fin Q ++ [i_b keep] else bq_fin Q))
        (sent ++ [i_b keep]) (if spent keep lim then re else re ++ [bump keep])).
      cbn [bq_q bq_m bq_gen bq_fin] in IH.
      rewrite Eq in IH. rewrite (set_remove_split keep a b) in IH by (rewrite <- Eq; exact HS).
      rewrite greedy_skip in IH by (intros y Hy; specialize (HA y Hy); lia).
      destruct (greedy ov limit (used + (i_len keep + ov)) b) as [t lf].
      rewrite (set_remove_split keep a b) by (rewrite <- Eq; exact HS).
      rewrite IH.
      * cbn [map filter fold_left]. rewrite charges_cons, <- !app_assoc. cbn [app].
        replace (used + (i_len keep + ov) + charges ov t) with (used + (i_len keep + ov + charges ov t)) by lia.
        destruct (spent keep lim); cbn [negb map]; rewrite <- ?app_assoc; reflexivity.
      * apply (sorted_remove_elt keep). rewrite <- Eq. exact HS.
      * rewrite Eq in HO. rewrite Forall_app in *. destruct HO as [O1 O2]. inversion O2; subst. auto.
      * intros y Hy. apply HM. rewrite Eq, in_app_iff in *. cbn [In]. intuition.
      * intros y Hy Hlt. assert (In y (bq_q Q)) as HyQ by (rewrite Eq, in_app_iff in *; cbn [In]; intuition).
        specialize (HT y HyQ Hlt). lia.
      * exact Lf.
      * rewrite Eq in HF. rewrite app_length in *. cbn [length] in HF. lia.
    + apply IH; auto.
      * intros y Hy Hlt. destruct (N.lt_ge_cases (i_tr y) tr) as [L|L]; [apply HT; assumption|].
        pose proof (find_none _ _ Efind y Hy) as Hn. cbn beta in Hn. apply andb_false_iff in Hn.
        destruct Hn as [Hn|Hn]; [apply N.eqb_neq in Hn; lia|]. apply N.leb_gt in Hn. lia.
      * lia.
Qed.

(** The whole of [take_broadcasts_measured] as the greedy pass. *)
Lemma take_greedy lim ov limit Q : sorted (bq_q Q) -> Forall item_ok (bq_q Q) -> 
  (bq_q Q = [] -> bq_gen Q = 0) ->
  let '(t, lf) := greedy ov limit 0 (bq_q Q) in
  let Q2 := fold_left (fun Q x => insert_into I x Q) (map bump (filter (fun x => negb (spent x lim)) t))
     (mkQ lf (fold_left (fun m x => m_forget I x m) t (bq_m Q)) (bq_gen Q)
          (bq_fin Q ++ map i_b (filter (fun x => spent x lim) t))) in
  take_broadcasts_measured I lim ov limit Q =
  (mkQ (bq_q Q2) (bq_m Q2) (idle_gen (bq_q Q2) (bq_gen Q2)) (bq_fin Q2), map i_b t, charges ov t).
Proof.
  intros HS HO HG. unfold take_broadcasts_measured. destruct (bq_q Q) as [|x q] eqn:E.
  - cbn. rewrite app_nil_r. destruct Q; cbn in *; subst. rewrite (HG eq_refl). reflexivity.
  - pose proof (sorted_range (x :: q)) as R. 
    destruct (transmit_range (x :: q)) as [mn mx] eqn:Er. cbn [fst snd] in R. rewrite <- E in *.
    pose proof (take_loop_greedy lim ov limit mx (length (bq_q Q) + N.to_nat (mx + 1 - mn)) mn 0 Q [] []) as L.
    destruct (greedy ov limit 0 (bq_q Q)) as [t lf]. rewrite L; auto; try lia.
    + intros y Hy. apply (R y HS Hy).
    + intros y Hy Hlt. specialize (R y HS Hy). lia.
Qed.

(** [take_one_broadcast] picks the first item that fits. *)
Lemma one_loop_first limit max_tr q : sorted q -> Forall item_ok q ->
  (forall y, In y q -> i_tr y <= max_tr) ->
  forall fuel tr, (N.to_nat (max_tr + 1 - tr) <= fuel)%nat ->
  (forall y, In y q -> i_tr y < tr -> limit < i_len y) ->
  one_loop fuel limit max_tr tr q = find (fun x => i_len x <=? limit) q.
Proof.
  intros HS HO HM. induction fuel as [|fuel IH]; intros tr HF HT.
  - cbn. symmetry. destruct (find _ q) as [y|] eqn:E; [|reflexivity].
    apply find_some in E. destruct E as [Hy Hl]. apply N.leb_le in Hl.
    specialize (HM y Hy). specialize (HT y Hy ltac:(lia)). lia.
  - cbn [one_loop]. destruct (N.ltb_spec max_tr tr) as [L|L].
    + symmetry. destruct (find _ q) as [y|] eqn:E; [|reflexivity].
      apply find_some in E. destruct E as [Hy Hl]. apply N.leb_le in Hl.
      specialize (HM y Hy). specialize (HT y Hy ltac:(lia)). lia.
    + rewrite (tier_candidate_eq tr limit q HO). destruct (find (fun x => _ && _) q) as [keep|] eqn:E.
      * apply find_some_split in E. destruct E as (a & b & Eq & Hk & Ha).
        apply andb_true_iff in Hk. destruct Hk as [Hk1 Hk2]. apply N.eqb_eq in Hk1. apply N.leb_le in Hk2.
        symmetry. rewrite Eq.
        assert (forall y, In y a -> (i_len y <=? limit) = false) as HA.
        { intros y Hy. apply N.leb_gt. assert (In y q) as HyQ by (rewrite Eq, in_app_iff; auto).
          destruct (N.lt_ge_cases (i_tr y) tr) as [L'|L']; [apply HT; assumption|].
          specialize (Ha y Hy). apply andb_false_iff in Ha.
          assert (i_tr y <= i_tr keep) as LT.
          { clear - HS Eq Hy. rewrite Eq in HS. clear Eq. induction a as [|z a IH]; [destruct Hy|].
            cbn [app] in HS. inversion HS as [|? ? S' F]; subst. destruct Hy as [->|Hy]; [|auto].
            rewrite Forall_forall in F. specialize (F keep (in_elt _ _ _)). unfold ilt in F. lia. }
          destruct Ha as [Ha|Ha]; [apply N.eqb_neq in Ha; lia|]. apply N.leb_gt in Ha. lia. }
        clear - HA Hk2. induction a as [|z a IH]; cbn [app find].
        -- destruct (N.leb_spec (i_len keep) limit); [reflexivity|lia].
        -- rewrite HA by (left; reflexivity). apply IH. intros. apply HA. right. assumption.
      * apply IH; [lia|]. intros y Hy Hlt. destruct (N.lt_ge_cases (i_tr y) tr) as [L'|L']; [apply HT; assumption|].
        pose proof (find_none _ _ E y Hy) as Hn. cbn beta in Hn. apply andb_false_iff in Hn.
        destruct Hn as [Hn|Hn]; [apply N.eqb_neq in Hn; lia|]. apply N.leb_gt in Hn. lia.
Qed.
End Loop.
