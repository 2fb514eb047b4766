(** Proofs about the CIDR policy. *)
From Verif Require Import Base CidrModel CidrSpec.
Local Open Scope N_scope.

Lemma net_eqb_spec x y : reflect (x = y) (net_eqb x y).
Proof.
  destruct x as [a p|a p], y as [b q|b q]; cbn [net_eqb]; try (constructor; congruence);
  destruct (N.eqb_spec a b), (N.eqb_spec p q); cbn [andb]; constructor; congruence.
Qed.
Lemma high_bits a x k : a / 2 ^ k = x / 2 ^ k <-> (forall b, k <= b -> N.testbit a b = N.testbit x b).
Proof.
  rewrite <- !N.shiftr_div_pow2. split.
  - intros E b Hb. replace b with ((b - k) + k) by lia. rewrite <- !N.shiftr_spec by lia. rewrite E. reflexivity.
  - intros H. apply N.bits_inj. intros j. rewrite !N.shiftr_spec by lia. apply H. lia.
Qed.
Lemma contains_iff n i : net_contains n i = true <-> in_net n i.
Proof.
  destruct n as [a p|a p], i as [x|x]; cbn [net_contains in_net]; try (split; [discriminate|contradiction]);
  rewrite N.eqb_eq; apply high_bits.
Qed.
Lemma existsb_net n l : existsb (net_eqb n) l = true <-> In n l.
Proof.
  rewrite existsb_exists. split.
  - intros (x & Hx & E). destruct (net_eqb_spec n x); congruence.
  - intros H. exists n. split; [exact H|]. destruct (net_eqb_spec n n); congruence.
Qed.
Lemma cidr_add_in c n m : exists l, cidr_add c n = Some l /\
  (In m l <-> (match c with Some l0 => In m l0 | None => False end \/ m = n)).
Proof.
  unfold cidr_add. eexists. split; [reflexivity|].
  destruct (existsb (net_eqb n) (match c with Some l => l | None => [] end)) eqn:E.
  - apply existsb_net in E. destruct c as [l|]; [|destruct E]. split; [auto|]. intros [H| ->]; assumption.
  - rewrite in_app_iff. cbn [In]. destruct c as [l|]; cbn [In]; intuition congruence.
Qed.
Definition nets (c : cidr_policy) : list ip_net := match c with Some l => l | None => [] end.

Lemma step_listed c o n :
  In n (nets (cidr_step c o)) <-> (In n (nets c) /\ ~ removes o n) \/ o = CAdd n.
Proof.
  destruct o as [m|m|i]; cbn [cidr_step removes].
  - destruct (cidr_add_in c m n) as (l & -> & H). cbn [nets]. rewrite H. destruct c; cbn [nets In]; intuition congruence.
  - destruct c as [l|]; cbn [cidr_remove nets In]; [|intuition congruence].
    rewrite filter_In. destruct (net_eqb_spec m n); cbn [negb]; intuition congruence.
  - destruct c as [l|]; cbn [cidr_remove_by_ip nets In]; [|intuition congruence].
    rewrite filter_In. destruct (net_contains n i) eqn:C; cbn [negb].
    + apply contains_iff in C. intuition congruence.
    + assert (~ in_net n i) by (rewrite <- contains_iff; congruence). intuition congruence.
Qed.
Lemma removes_dec o n : removes o n \/ ~ removes o n.
Proof.
  destruct o as [m|m|i]; cbn [removes]; [tauto| |].
  - destruct (net_eqb_spec m n); tauto.
  - rewrite <- contains_iff. destruct (net_contains n i); [left; reflexivity|right; discriminate].
Qed.
Lemma run_listed ops : forall c n, In n (nets (cidr_run c ops)) <-> listed (nets c) ops n.
Proof.
  unfold cidr_run. induction ops as [|o ops IH]; intros c n; cbn [fold_left].
  - unfold listed. split.
    + intros H. left. split; [exact H|intros o []].
    + intros [[H _]|(pre & post & E & _)]; [exact H|]. destruct pre; discriminate.
  - rewrite IH. unfold listed. rewrite step_listed. split.
    + intros [ [ [ [Hin Hr]| ->] Hops]|(pre & post & -> & H)].
      * left. split; [exact Hin|]. intros o' [<-|Ho']; auto.
      * right. exists [], ops. split; [reflexivity|exact Hops].
      * right. exists (o :: pre), post. split; [reflexivity|exact H].
    + intros [[Hin Hr]|(pre & post & E & H)].
      * left. split; [left; split; [exact Hin|apply Hr; left; reflexivity]|]. intros o' Ho'. apply Hr. right. exact Ho'.
      * destruct pre as [|o0 pre]; cbn [app] in E; injection E as -> ->.
        -- left. split; [right; reflexivity|exact H].
        -- right. exists pre, post. split; [reflexivity|exact H].
Qed.
Lemma run_unrestricted ops : forall c, cidr_run c ops = None <-> c = None /\ never_restricted ops.
Proof.
  unfold cidr_run, never_restricted. induction ops as [|o ops IH]; intros c; cbn [fold_left].
  - intuition.
  - rewrite IH. split.
    + intros [E H]. destruct o as [m|m|i]; cbn [cidr_step] in E.
      * discriminate.
      * destruct c; [discriminate|]. split; [reflexivity|]. intros n [X|X]; [discriminate X|exact (H n X)].
      * destruct c; [discriminate|]. split; [reflexivity|]. intros n [X|X]; [discriminate X|exact (H n X)].
    + intros [-> H]. split.
      * destruct o as [m|m|i]; try reflexivity. exfalso. apply (H m). left. reflexivity.
      * intros n X. apply (H n). right. exact X.
Qed.

Lemma allowed_iff c i : is_allowed c i = true <-> c = None \/ exists n, In n (nets c) /\ in_net n i.
Proof.
  destruct c as [l|]; cbn [is_allowed nets]; [|tauto].
  rewrite existsb_exists. split.
  - intros (n & Hn & C). right. exists n. rewrite <- contains_iff. auto.
  - intros [E|(n & Hn & C)]; [discriminate|]. exists n. rewrite contains_iff. auto.
Qed.
Lemma admission_iff c ops i : is_allowed (cidr_run c ops) i = true <->
  (c = None /\ never_restricted ops) \/ exists n, listed (nets c) ops n /\ in_net n i.
Proof.
  rewrite allowed_iff, run_unrestricted. split.
  - intros [H|(n & Hn & C)]; [auto|]. right. exists n. rewrite <- run_listed. auto.
  - intros [H|(n & Hn & C)]; [auto|]. right. exists n. rewrite run_listed. auto.
Qed.
Lemma from_in l n : In n (nets (cidr_from l)) <-> In n l.
Proof.
  unfold cidr_from. assert (forall l c, In n (nets (fold_left cidr_add l c)) <-> In n (nets c) \/ In n l) as G.
  { clear l. induction l as [|m l IH]; intros c; cbn [fold_left In]; [tauto|].
    rewrite IH. pose proof (step_listed c (CAdd m) n) as S. cbn [cidr_step removes] in S.
    rewrite S. intuition congruence. }
  rewrite G. cbn. tauto.
Qed.
Lemma from_some l : cidr_from l <> None.
Proof.
  unfold cidr_from. assert (forall l c, c <> None -> fold_left cidr_add l c <> None) as G.
  { clear l. induction l as [|m l IH]; intros c H; cbn [fold_left]; [exact H|]. apply IH. discriminate. }
  apply G. discriminate.
Qed.
Lemma fail_closed c ops : c <> None \/ ~ never_restricted ops ->
  (forall n, ~ listed (nets c) ops n) ->
  is_block_all (cidr_run c ops) = true /\ forall i, is_allowed (cidr_run c ops) i = false.
Proof.
  intros Hc Hl. assert (cidr_run c ops = Some []) as ->; [|split; reflexivity].
  destruct (cidr_run c ops) as [[|n l]|] eqn:E.
  - reflexivity.
  - exfalso. apply (Hl n). rewrite <- run_listed, E. left. reflexivity.
  - apply run_unrestricted in E as [-> H]. destruct Hc; contradiction.
Qed.
