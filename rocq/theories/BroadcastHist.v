(** What the gossip queue does over whole histories. *)
From Coq Require Import Sorting.Sorted Sorting.Permutation.
From Verif Require Import Base BaseFacts MapModel MapFacts BroadcastModel BroadcastFacts BroadcastInv.
Local Open Scope N_scope.

Section Hist.
Context {B : Type} (I : bcast_impl B).

Lemma ids_new : ids (@bq_new B).
Proof. constructor; cbn; [constructor|intros ? []]. Qed.

Lemma bq_run_app Q os os' : bq_run I Q (os ++ os') =
  let '(Q1, s1) := bq_run I Q os in let '(Q2, s2) := bq_run I Q1 os' in (Q2, s1 ++ s2).
Proof.
  revert Q. induction os as [|o os IH]; intros Q; cbn [bq_run app].
  - destruct (bq_run I Q os'). reflexivity.
  - destruct (bq_step I Q o) as [Q1 s]. rewrite IH. destruct (bq_run I Q1 os) as [Q2 s2].
    destruct (bq_run I Q2 os') as [Q3 s3]. rewrite app_assoc. reflexivity.
Qed.

Definition queued_in (os : list (bq_op B)) : list B := flat_map queued_by os.

Lemma run_summary os : len_ok I -> forall Q, wfq I Q -> ids Q -> bq_gen Q + blen os <= u64_max ->
  let Q' := fst (bq_run I Q os) in
  wfq I Q' /\ ids Q' /\ bq_gen Q' <= bq_gen Q + blen os /\
  Permutation (bq_fin Q' ++ map i_b (bq_q Q')) (queued_in os ++ bq_fin Q ++ map i_b (bq_q Q)).
Proof.
  intros HL. induction os as [|o os IH]; intros Q W D HG; cbn [bq_run].
  - cbn [fst]. split; [exact W|]. split; [exact D|]. split; [lia|reflexivity].
  - rewrite blen_cons in HG. pose proof (wfq_step I Q o HL W) as W1.
    destruct (step_summary I Q o HL W D ltac:(lia)) as (D1 & G1 & P1).
    destruct (bq_step I Q o) as [Q1 s]. cbn [fst] in *.
    destruct (IH Q1 W1 D1 ltac:(lia)) as (W2 & D2 & G2 & P2).
    destruct (bq_run I Q1 os) as [Q2 s2]. cbn [fst] in *. split; [exact W2|]. split; [exact D2|]. split.
    + rewrite blen_cons. lia.
    + rewrite P2, P1. unfold queued_in. cbn [flat_map]. rewrite !app_assoc. apply Permutation_app_tail, Permutation_app_tail, Permutation_app_comm.
Qed.

(** Only queued broadcasts are ever handed out. *)
Lemma step_from_queue Q o : wfq I Q ->
  (forall b, In b (snd (bq_step I Q o)) -> In b (map i_b (bq_q Q))) /\
  (forall b, In b (map i_b (bq_q (fst (bq_step I Q o)))) -> In b (map i_b (bq_q Q)) \/ o = OQueue b).
Proof.
  intros W. destruct o; cbn [bq_step].
  - split; [intros ? []|]. cbn [fst]. intros c. rewrite queue_pre, insert_into_q.
    rewrite !in_map_iff. intros (x & <- & Hx). apply set_insert_in in Hx. cbn [bq_q] in Hx.
    destruct Hx as [[-> _]|Hx]; [right; reflexivity|]. left. exists x. split; [reflexivity|].
    apply (pre_queue_wfl I b Q (wfq_wfl I Q W)), Hx.
  - pose proof (take_greedy I lim overhead limit Q (w_sorted I Q W) (w_ok I Q W) (w_idle I Q W)) as E.
    pose proof (greedy_incl overhead limit (bq_q Q) 0) as G.
    destruct (greedy overhead limit 0 (bq_q Q)) as [t lf]. cbn [fst snd] in *. rewrite E. cbn [fst snd bq_q].
    split.
    + intros b Hb. apply in_map_iff in Hb. destruct Hb as (x & <- & Hx). apply in_map, (proj1 (G x)), Hx.
    + intros b Hb. left. apply in_map_iff in Hb. destruct Hb as (x & <- & Hx). 
      assert (forall re Q0 y, In y (bq_q (fold_left (fun Q x => insert_into I x Q) re Q0)) -> In y re \/ In y (bq_q Q0)) as FI.
      { clear. induction re as [|z re IH]; intros Q0 y Hy; cbn [fold_left] in Hy; [auto|].
        apply IH in Hy. destruct Hy as [Hy|Hy]; [left; right; exact Hy|]. rewrite insert_into_q in Hy.
        apply set_insert_in in Hy. destruct Hy as [[-> _]|Hy]; [left; left; reflexivity|auto]. }
      apply FI in Hx. cbn [bq_q] in Hx. destruct Hx as [Hx|Hx].
      * apply in_map_iff in Hx. destruct Hx as (y & <- & Hy). apply filter_In in Hy.
        change (i_b (bump y)) with (i_b y). apply in_map, (proj1 (G y)), Hy.
      * apply in_map, (proj2 (G x)), Hx.
  - rewrite (take_one_first I lim limit Q W). destruct (find _ (bq_q Q)) as [keep|] eqn:E.
    2:{ cbn. split; [intros ? []|auto]. }
    apply find_some in E. destruct E as [Hk _]. cbv zeta. cbn [fst snd bq_q]. split.
    + intros b [<-|[]]. apply in_map, Hk.
    + intros b Hb. left. apply in_map_iff in Hb. destruct Hb as (x & <- & Hx).
      destruct (spent keep lim); cbn [bq_q] in Hx.
      * apply in_map, (set_remove_incl keep), Hx.
      * rewrite insert_into_q in Hx. apply set_insert_in in Hx. cbn [bq_q] in Hx.
        destruct Hx as [[-> _]|Hx]; [change (i_b (bump keep)) with (i_b keep); apply in_map, Hk|].
        apply in_map, (set_remove_incl keep), Hx.
  - split; [intros ? []|]. cbn. intros ? [].
  - split; [intros ? []|]. cbn [fst]. unfold bq_prune. cbn [bq_q]. intros b Hb. left.
    destruct (prune_loop_spec I max_retain (length (bq_q Q)) Q (wfq_wfl I Q W)) as (_ & d & E & _).
    rewrite E, map_app, in_app_iff. auto.
Qed.
Lemma run_from_queue os b : len_ok I -> forall Q, wfq I Q -> ~ In b (map i_b (bq_q Q)) ->
  ~ In (OQueue b) os -> ~ In b (snd (bq_run I Q os)) /\ ~ In b (map i_b (bq_q (fst (bq_run I Q os)))).
Proof.
  intros HL. induction os as [|o os IH]; intros Q W Hn Ho; cbn [bq_run]; [cbn; auto|].
  destruct (step_from_queue Q o W) as [S1 S2]. pose proof (wfq_step I Q o HL W) as W1.
  destruct (bq_step I Q o) as [Q1 s]. cbn [fst snd] in *.
  destruct (IH Q1 W1) as [H1 H2].
  - intros C. apply S2 in C. destruct C as [C| ->]; [contradiction|]. apply Ho. left. reflexivity.
  - intros C. apply Ho. right. exact C.
  - destruct (bq_run I Q1 os) as [Q2 s2]. cbn [fst snd] in *. split; [|exact H2].
    rewrite in_app_iff. intros [C|C]; [apply Hn, S1, C|contradiction].
Qed.

(** ** Counting hand-outs *)
Context (Beq : forall a b : B, {a = b} + {a <> b}).
Notation cnt := (count_occ Beq).

Definition op_lim (o : bq_op B) : N := match o with OTake l _ _ => l | OTakeOne l _ => l | _ => 0 end.

(** [n] is how often [b] has been handed out so far. *)
Definition J (b : B) (L n : N) (Q : bqueue B) : Prop :=
  (cnt (map i_b (bq_q Q)) b <= 1)%nat /\
  (forall x, In x (bq_q Q) -> i_b x = b -> i_tr x = n /\ n < L) /\ n <= L.

Lemma cnt_app l l' b : cnt (l ++ l') b = (cnt l b + cnt l' b)%nat.
Proof. apply count_occ_app. Qed.
Lemma cnt_perm l l' b : Permutation l l' -> cnt l b = cnt l' b.
Proof. intros P. apply (Permutation_count_occ Beq). exact P. Qed.
Lemma cnt_filter_le (f : item B -> bool) t b : (cnt (map i_b (filter f t)) b <= cnt (map i_b t) b)%nat.
Proof.
  induction t as [|x t IH]; cbn [filter map count_occ]; [lia|].
  destruct (f x); cbn [map count_occ]; destruct (Beq (i_b x) b); lia.
Qed.
Lemma cnt_zero l b : cnt l b = 0%nat <-> ~ In b l.
Proof. symmetry. apply count_occ_not_In. Qed.

Lemma spent_lt (x : item B) lim : i_tr x < two32 -> spent x lim = false -> i_tr x + 1 < lim.
Proof. unfold spent. intros H E. rewrite N.mod_small in E by exact H. apply N.leb_gt in E. exact E. Qed.

(** One hand-out step: taken items [t], the rest [lf]. *)
Lemma J_take b L n lim (q t lf q' : list (item B)) : 
  Permutation q (t ++ lf) -> Permutation q' (map bump (filter (fun x => negb (spent x lim)) t) ++ lf) ->
  1 <= L -> L <= u32_max -> lim <= L ->
  (cnt (map i_b q) b <= 1)%nat -> (forall x, In x q -> i_b x = b -> i_tr x = n /\ n < L) -> n <= L ->
  let n' := n + N.of_nat (cnt (map i_b t) b) in
  (cnt (map i_b q') b <= 1)%nat /\ (forall x, In x q' -> i_b x = b -> i_tr x = n' /\ n' < L) /\ n' <= L.
Proof.
  intros P P' HL1 HLu Hlim C T N n'.
  rewrite (cnt_perm _ _ b (Permutation_map i_b P)), map_app, cnt_app in C.
  assert (forall f, map i_b (map bump (filter f t)) = map i_b (filter f t)) as MB.
  { intros f. rewrite map_map. reflexivity. }
  split; [|split].
  - rewrite (cnt_perm _ _ b (Permutation_map i_b P')), map_app, cnt_app, MB.
    pose proof (cnt_filter_le (fun x => negb (spent x lim)) t b). lia.
  - intros x Hx Hb. apply (Permutation_in x P'), in_app_iff in Hx. destruct Hx as [Hx|Hx].
    + apply in_map_iff in Hx. destruct Hx as (y & <- & Hy). apply filter_In in Hy. destruct Hy as [Hy Hs].
      apply negb_true_iff in Hs. change (i_b (bump y)) with (i_b y) in Hb.
      assert (In y q) as Hq by (apply (Permutation_in y (Permutation_sym P)), in_app_iff; auto).
      destruct (T y Hq Hb) as [T1 T2].
      assert (0 < cnt (map i_b t) b)%nat as C1.
      { apply (count_occ_In Beq). rewrite <- Hb. apply in_map, Hy. }
      apply spent_lt in Hs; [|rewrite T1; unfold u32_max, two32 in *; lia].
      unfold n'. cbn [bump i_tr]. lia.
    + assert (In x q) as Hq by (apply (Permutation_in x (Permutation_sym P)), in_app_iff; auto).
      assert (0 < cnt (map i_b lf) b)%nat as C1.
      { apply (count_occ_In Beq). rewrite <- Hb. apply in_map, Hx. }
      destruct (T x Hq Hb) as [T1 T2]. unfold n'. lia.
  - destruct (cnt (map i_b t) b) as [|k] eqn:Ct; [unfold n'; lia|].
    assert (In b (map i_b t)) as Hb by (apply (count_occ_In Beq); lia).
    apply in_map_iff in Hb. destruct Hb as (x & Hb & Hx).
    assert (In x q) as Hq by (apply (Permutation_in x (Permutation_sym P)), in_app_iff; auto).
    destruct (T x Hq Hb) as [T1 T2]. unfold n'. lia.
Qed.

Lemma J_sub b L n Q Q' : (exists r, Permutation (map i_b (bq_q Q)) (map i_b (bq_q Q') ++ r)) ->
  incl (bq_q Q') (bq_q Q) -> J b L n Q -> J b L n Q'.
Proof.
  intros (r & P) HI (C & T & N). split; [|split]; auto.
  rewrite (cnt_perm _ _ b P), cnt_app in C. lia.
Qed.

Lemma J_step b L n Q o : len_ok I -> wfq I Q -> ids Q -> bq_gen Q < u64_max ->
  1 <= L -> L <= u32_max -> op_lim o <= L -> o <> OQueue b ->
  J b L n Q -> J b L (n + N.of_nat (cnt (snd (bq_step I Q o)) b)) (fst (bq_step I Q o)).
Proof.
  intros HL W D HG H1 Hu Hlim Ho HJ. destruct o as [c|lim ov limit|lim limit| |keep]; cbn [bq_step].
  - cbn [fst snd count_occ]. replace (n + N.of_nat 0) with n by lia.
    destruct (queue_summary I c Q W D HG) as (_ & _ & P & M).
    destruct HJ as (C & T & N). split; [|split]; auto.
    + destruct (pre_queue_conserve I c Q W) as (P1 & _ & _).
      assert (c <> b) as Hcb by congruence.
      rewrite queue_pre, insert_into_q. cbn [bq_q].
      assert (forall x q, i_b x <> b -> cnt (map i_b (fst (set_insert x q))) b = cnt (map i_b q) b) as SI.
      { clear. intros x q Hx. induction q as [|y q IH]; cbn [set_insert].
        - cbn. destruct (Beq (i_b x) b); [contradiction|reflexivity].
        - destruct (item_cmp x y); cbn [fst map count_occ].
          + reflexivity.
          + destruct (Beq (i_b x) b); [contradiction|reflexivity].
          + destruct (set_insert x q) as [q' ins]. cbn [fst map count_occ] in *. rewrite IH. reflexivity. }
      rewrite SI by exact Hcb.
      assert (exists r, Permutation (map i_b (bq_q Q)) (map i_b (bq_q (pre_queue I c Q)) ++ r)) as (r & PR).
      { clear - W. unfold pre_queue. destruct (b_id I c).
        - unfold invalidate_same_id. destruct (aget n (bq_m Q)) as [old|] eqn:E.
          + apply (w_agree I Q W) in E. destruct E as [Ho _]. cbn [bq_q]. exists [i_b old].
            rewrite (Permutation_map i_b (perm_sorted_remove old (bq_q Q) (w_sorted I Q W) Ho)). cbn [map]. apply Permutation_cons_append.
          + exists []. rewrite app_nil_r. reflexivity.
        - destruct (b_unique I c).
          + exists []. rewrite app_nil_r. reflexivity.
          + destruct (invalidate_scan_wfl I c Q (wfq_wfl I Q W)) as (_ & _ & P).
            exists (map i_b (filter (fun x => b_invalidates I c (i_b x)) (bq_q Q))). rewrite P at 1. apply Permutation_app_comm. }
      rewrite (cnt_perm _ _ b PR), cnt_app in C. lia.
    + intros x Hx Hb. apply M in Hx. destruct Hx as [->|[Hx _]]; [cbn in Hb; congruence|auto].
  - destruct (take_summary I lim ov limit Q W D) as (t & lf & E & H).
    destruct (take_broadcasts_measured I lim ov limit Q) as [[Q' sent] used]. cbn [fst snd].
    destruct H as (-> & _ & P & _ & _).
    pose proof (greedy_perm ov limit (bq_q Q) 0) as PG. rewrite E in PG. cbn [fst snd] in PG.
    destruct HJ as (C & T & N). apply (J_take b L n lim (bq_q Q) t lf (bq_q Q')); auto.
  - rewrite (take_one_first I lim limit Q W). destruct (find _ (bq_q Q)) as [keep|] eqn:E.
    2:{ cbn [fst snd count_occ]. replace (n + N.of_nat 0) with n by lia. exact HJ. }
    apply find_some in E. destruct E as [Hk _]. cbv zeta. cbn [fst snd].
    pose proof (perm_sorted_remove keep (bq_q Q) (w_sorted I Q W) Hk) as P.
    destruct HJ as (C & T & N).
    apply (J_take b L n lim (bq_q Q) [keep] (set_remove keep (bq_q Q)) (bq_q (mkQ _ _ _ _))); auto.
    cbn [bq_q filter]. destruct (spent keep lim); cbn [negb map app]; [reflexivity|].
    rewrite insert_into_q. cbn [bq_q]. apply set_insert_perm, ids_fresh. cbn [bump i_id].
    pose proof (Permutation_NoDup (Permutation_map i_id P) (d_nodup Q D)) as ND. cbn [map] in ND.
    inversion ND; assumption.
  - cbn [fst snd count_occ]. replace (n + N.of_nat 0) with n by lia. apply (J_sub b L n Q); auto.
    + exists (map i_b (bq_q Q)). reflexivity.
    + intros ? [].
  - cbn [fst snd count_occ]. replace (n + N.of_nat 0) with n by lia.
    destruct (prune_loop_spec I keep (length (bq_q Q)) Q (wfq_wfl I Q W)) as (_ & d & E & _).
    apply (J_sub b L n Q); auto; unfold bq_prune; cbn [bq_q].
    + exists (map i_b d). rewrite E at 1. rewrite map_app. reflexivity.
    + intros x Hx. rewrite E, in_app_iff. auto.
Qed.

Lemma J_run b L os : len_ok I -> 1 <= L -> L <= u32_max -> (forall o, In o os -> op_lim o <= L) ->
  ~ In (OQueue b) os -> forall Q n, wfq I Q -> ids Q -> bq_gen Q + blen os <= u64_max ->
  J b L n Q -> J b L (n + N.of_nat (cnt (snd (bq_run I Q os)) b)) (fst (bq_run I Q os)).
Proof.
  intros HL H1 Hu. induction os as [|o os IH]; intros Hlim Hno Q n W D HG HJ; cbn [bq_run].
  - cbn [fst snd count_occ]. replace (n + N.of_nat 0) with n by lia. exact HJ.
  - rewrite blen_cons in HG.
    pose proof (J_step b L n Q o HL W D ltac:(lia) H1 Hu (Hlim o ltac:(left; reflexivity))
                  ltac:(intros ->; apply Hno; left; reflexivity) HJ) as HJ1.
    pose proof (wfq_step I Q o HL W) as W1.
    destruct (step_summary I Q o HL W D ltac:(lia)) as (D1 & G1 & _).
    destruct (bq_step I Q o) as [Q1 s]. cbn [fst snd] in *.
    specialize (IH ltac:(intros o' Ho'; apply Hlim; right; exact Ho') ltac:(intros C; apply Hno; right; exact C)
                  Q1 _ W1 D1 ltac:(lia) HJ1).
    destruct (bq_run I Q1 os) as [Q2 s2]. cbn [fst snd] in *. rewrite cnt_app.
    replace (n + N.of_nat (cnt s b + cnt s2 b)) with (n + N.of_nat (cnt s b) + N.of_nat (cnt s2 b)) by lia. exact IH.
Qed.

Lemma handed_at_most b L os1 os2 : len_ok I -> 1 <= L -> L <= u32_max ->
  (forall o, In o (os1 ++ OQueue b :: os2) -> op_lim o <= L) ->
  ~ In (OQueue b) os1 -> ~ In (OQueue b) os2 ->
  blen (os1 ++ OQueue b :: os2) <= u64_max ->
  N.of_nat (cnt (snd (bq_run I bq_new (os1 ++ OQueue b :: os2))) b) <= L.
Proof.
  intros HL H1 Hu Hlim Hn1 Hn2 HG. rewrite blen_app, blen_cons in HG.
  rewrite bq_run_app.
  destruct (run_summary os1 HL bq_new (wfq_new I) ids_new ltac:(cbn [bq_new bq_gen]; lia)) as (W1 & D1 & G1 & _).
  destruct (run_from_queue os1 b HL bq_new (wfq_new I) (fun H => H) Hn1) as [F1 F2].
  destruct (bq_run I bq_new os1) as [Q1 s1]. cbn [fst snd] in *. cbn [bq_run bq_step].
  change (bq_gen bq_new) with 0 in G1.
  destruct (queue_summary I b Q1 W1 D1 ltac:(lia)) as (D2 & G2 & P2 & M2).
  pose proof (wfq_queue I b Q1 (HL b) W1) as W2.
  assert (J b L 0 (queue_broadcast I b Q1)) as HJ.
  { split; [|split].
    - destruct (pre_queue_wfl I b Q1 (wfq_wfl I Q1 W1)) as [_ MP].
      rewrite queue_pre, insert_into_q. cbn [bq_q].
      assert (forall x q, (cnt (map i_b (fst (set_insert x q))) b <= 1 + cnt (map i_b q) b)%nat) as SI.
      { clear. intros x q. induction q as [|y q IH]; cbn [set_insert].
        - cbn. destruct (Beq (i_b x) b); lia.
        - destruct (item_cmp x y); cbn [fst map count_occ].
          + destruct (Beq (i_b y) b); lia.
          + destruct (Beq (i_b x) b), (Beq (i_b y) b); lia.
          + destruct (set_insert x q) as [q' ins]. cbn [fst map count_occ] in *. destruct (Beq (i_b y) b); lia. }
      assert (cnt (map i_b (bq_q (pre_queue I b Q1))) b = 0%nat) as Z.
      { apply cnt_zero. intros C. apply F2. apply in_map_iff in C. destruct C as (x & <- & Hx). apply in_map, MP, Hx. }
      eapply Nat.le_trans; [apply SI|]. rewrite Z. lia.
    - intros x Hx Hb. apply M2 in Hx. destruct Hx as [->|[Hx _]]; [cbn; lia|].
      exfalso. apply F2. rewrite <- Hb. apply in_map, Hx.
    - lia. }
  pose proof (J_run b L os2 HL H1 Hu ltac:(intros o Ho; apply Hlim, in_app_iff; right; right; exact Ho)
     Hn2 (queue_broadcast I b Q1) 0 W2 D2 ltac:(lia) HJ) as (_ & _ & HF).
  destruct (bq_run I (queue_broadcast I b Q1) os2) as [Q2 s2]. cbn [fst snd app] in *. rewrite cnt_app.
  rewrite (proj2 (cnt_zero s1 b) F1). lia.
Qed.
End Hist.

(** ** Batches in terms of messages *)
Section Batch.
Context {B : Type} (I : bcast_impl B).

(** The bytes a list of messages is charged. *)
Definition cost (ov : N) (l : list B) : N := fold_right (fun b n => b_len I b + ov + n) 0 l.
Lemma cost_charges ov t : (forall x, In x t -> i_len x = b_len I (i_b x)) -> cost ov (map i_b t) = charges ov t.
Proof.
  induction t as [|x t IH]; intros H; [reflexivity|]. cbn [map cost fold_right]. rewrite charges_cons.
  unfold cost in IH. rewrite IH by (intros; apply H; right; assumption).
  rewrite <- (H x ltac:(left; reflexivity)). reflexivity.
Qed.

Lemma batch_spec lim ov limit Q : wfq I Q ->
  let '(Q', sent, used) := take_broadcasts_measured I lim ov limit Q in
  used = cost ov sent /\ used <= limit /\
  exists rest, Permutation (map i_b (bq_q Q)) (sent ++ rest) /\
    forall b, In b rest -> limit < used + (b_len I b + ov).
Proof.
  intros W. pose proof (take_greedy I lim ov limit Q (w_sorted I Q W) (w_ok I Q W) (w_idle I Q W)) as E.
  pose proof (greedy_perm ov limit (bq_q Q) 0) as P.
  pose proof (greedy_budget ov limit (bq_q Q) 0 ltac:(lia)) as HB.
  pose proof (greedy_left ov limit (bq_q Q) (w_sorted I Q W) 0) as GL.
  pose proof (greedy_incl ov limit (bq_q Q) 0) as GI.
  destruct (greedy ov limit 0 (bq_q Q)) as [t lf]. cbn [fst snd] in *. rewrite E.
  split; [|split].
  - symmetry. apply cost_charges. intros x Hx. apply (w_len I Q W), (proj1 (GI x)), Hx.
  - lia.
  - exists (map i_b lf). split; [rewrite <- map_app; apply Permutation_map, P|].
    intros b Hb. apply in_map_iff in Hb. destruct Hb as (y & <- & Hy).
    rewrite <- (w_len I Q W y (proj2 (GI y) Hy)).
    destruct (GL y Hy) as (t1 & t2 & -> & _ & _ & HX). rewrite charges_app. lia.
Qed.
Lemma batch_keeps lim ov limit Q : wfq I Q -> ids Q ->
  let '(Q', sent, used) := take_broadcasts_measured I lim ov limit Q in
  forall x, In x (bq_q Q) -> In x (bq_q Q') \/ In (i_b x) sent.
Proof.
  intros W D. destruct (take_summary I lim ov limit Q W D) as (t & lf & E & H).
  destruct (take_broadcasts_measured I lim ov limit Q) as [[Q' sent] used].
  destruct H as (-> & _ & P & _ & _). intros x Hx.
  pose proof (greedy_perm ov limit (bq_q Q) 0) as PG. rewrite E in PG. cbn [fst snd] in PG.
  apply (Permutation_in x PG), in_app_iff in Hx. destruct Hx as [Hx|Hx].
  - right. apply in_map, Hx.
  - left. apply (Permutation_in x (Permutation_sym P)), in_app_iff. auto.
Qed.
Lemma batch_order lim ov limit Q : wfq I Q ->
  let '(Q', sent, used) := take_broadcasts_measured I lim ov limit Q in
  exists t lf, sent = map i_b t /\ Permutation (bq_q Q) (t ++ lf) /\
    StronglySorted (fun x y => i_tr x <= i_tr y) t /\
    forall y, In y lf -> exists t1 t2, t = t1 ++ t2 /\
      (forall x, In x t1 -> i_tr x <= i_tr y) /\ (forall x, In x t2 -> i_tr y <= i_tr x) /\
      limit < cost ov (map i_b t1) + (b_len I (i_b y) + ov).
Proof.
  intros W. pose proof (take_greedy I lim ov limit Q (w_sorted I Q W) (w_ok I Q W) (w_idle I Q W)) as E.
  pose proof (greedy_perm ov limit (bq_q Q) 0) as P.
  pose proof (greedy_left ov limit (bq_q Q) (w_sorted I Q W) 0) as GL.
  pose proof (greedy_incl ov limit (bq_q Q) 0) as GI.
  destruct (greedy_sorted ov limit (bq_q Q) (w_sorted I Q W) 0) as [S _].
  destruct (greedy ov limit 0 (bq_q Q)) as [t lf]. cbn [fst snd] in *. rewrite E.
  exists t, lf. split; [reflexivity|]. split; [exact P|]. split.
  - clear - S. induction S as [|x t S IH F]; constructor; [exact IH|].
    revert F. apply Forall_impl. intros y. unfold ilt. lia.
  - intros y Hy. destruct (GL y Hy) as (t1 & t2 & -> & H1 & H2 & HB). exists t1, t2. repeat split.
    + intros x Hx. specialize (H1 x Hx). unfold ilt in H1. lia.
    + intros x Hx. specialize (H2 x Hx). unfold ilt in H2. lia.
    + rewrite cost_charges.
      * rewrite <- (w_len I Q W y (proj2 (GI y) Hy)). lia.
      * intros x Hx. apply (w_len I Q W), (proj1 (GI x)), in_app_iff. auto.
Qed.

(** ** Tiers *)
Lemma ub_wf lim ov limit : forall T used, Forall (wfq I) T ->
  let '(T', sent, used') := ub_take_loop I lim ov limit T used in
  length T' = length T /\ Forall (wfq I) T'.
Proof.
  induction T as [|Q T IH]; intros used W; cbn [ub_take_loop]; [auto|].
  destruct (limit <=? used); [auto|]. inversion W as [|? ? W1 W2]; subst.
  pose proof (wfq_take I lim ov (limit - used) Q W1) as WT.
  destruct (take_broadcasts_measured I lim ov (limit - used) Q) as [[Q' got] ch]. cbn [fst] in WT.
  specialize (IH (used + ch) W2). destruct (ub_take_loop I lim ov limit T (used + ch)) as [[T' sent] used'].
  destruct IH. split; [cbn; lia|constructor; assumption].
Qed.
Lemma ub_spec lim ov limit : (forall b, 1 <= b_len I b + ov) -> forall T used, Forall (wfq I) T -> used <= limit ->
  let '(T', sent, used') := ub_take_loop I lim ov limit T used in
  length T' = length T /\ Forall (wfq I) T' /\
  used' = used + cost ov sent /\ used' <= limit /\
  exists per, sent = concat per /\
    Forall2 (fun Q s => exists r, Permutation (map i_b (bq_q Q)) (s ++ r)) T per /\
    forall i Q b, nth_error T i = Some Q -> In b (map i_b (bq_q Q)) ->
      In b (nth i per []) \/ limit < used + cost ov (concat (firstn (S i) per)) + (b_len I b + ov).
Proof.
  intros HP. induction T as [|Q T IH]; intros used W HU; cbn [ub_take_loop].
  - split; [reflexivity|]. split; [constructor|]. split; [cbn; lia|]. split; [exact HU|].
    exists []. split; [reflexivity|]. split; [constructor|]. intros i Q b Hi. destruct i; discriminate.
  - destruct (N.leb_spec limit used) as [L|L].
    + split; [reflexivity|]. split; [exact W|]. split; [cbn; lia|]. split; [exact HU|].
      exists (map (fun _ => []) (Q :: T)). split; [|split].
      * generalize (Q :: T). induction l; [reflexivity|assumption].
      * generalize (Q :: T). induction l as [|Q0 l IHl]; cbn [map]; constructor; [|assumption]. exists (map i_b (bq_q Q0)). reflexivity.
      * intros i Q0 b _ _. right. specialize (HP b). lia.
    + inversion W as [|? ? W1 W2]; subst.
      pose proof (batch_spec lim ov (limit - used) Q W1) as HB.
      pose proof (wfq_take I lim ov (limit - used) Q W1) as WT.
      destruct (take_broadcasts_measured I lim ov (limit - used) Q) as [[Q' got] ch]. cbn [fst] in WT.
      destruct HB as (Ech & Hch & rest & PR & HR).
      specialize (IH (used + ch) W2 ltac:(lia)).
      destruct (ub_take_loop I lim ov limit T (used + ch)) as [[T' sent] used'].
      destruct IH as (Len & WF & EU & LU & per & Eper & F2 & HI).
      assert (forall l l', cost ov (l ++ l') = cost ov l + cost ov l') as CA.
      { clear. intros l l'. induction l as [|x l IH]; [reflexivity|]. unfold cost in *. cbn [app fold_right]. rewrite IH. lia. }
      split; [cbn; lia|]. split; [constructor; assumption|].
      split; [rewrite CA; lia|]. split; [exact LU|].
      exists (got :: per). split; [cbn; congruence|]. split.
      * constructor; [exists rest; exact PR|exact F2].
      * intros i Q0 b Hi Hb. destruct i as [|i]; cbn [nth_error nth firstn concat] in *.
        -- injection Hi as <-. apply (Permutation_in b PR), in_app_iff in Hb. destruct Hb as [Hb|Hb]; [auto|].
           right. specialize (HR b Hb). rewrite app_nil_r. lia.
        -- destruct (HI i Q0 b Hi Hb) as [H|H]; [auto|]. right. rewrite CA. cbn [firstn concat] in H. lia.
Qed.
End Batch.
