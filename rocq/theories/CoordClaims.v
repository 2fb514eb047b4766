(** Consequences of the invariant of the coordinator (CoordSteps.v) for what its
    driver sees. *)
From Verif Require Import CodecModel.
From Verif Require Import Base BaseFacts MapFacts CoreFacts KeyringFacts EndpointInv EndpointHist EndpointDetect EndpointOutcome CoordModel BridgeFacts CoordFacts CoordRuns CoordSteps CoordFrame.
Local Open Scope N_scope.

Section Claims.
Context (C : cfg) (Q : qcfg) (W : wcodec) (B : backends) (rnd : N -> N -> option bytes).
Notation step := (q_step C Q W B rnd).
Notation run := (q_run C Q W B rnd).
Notation qok := (qok C).

(** * Runs *)
Lemma run_app os1 : forall q os2, run q (os1 ++ os2) = (fst (run (fst (run q os1)) os2), snd (run q os1) ++ snd (run (fst (run q os1)) os2)).
Proof.
  induction os1 as [|o os1 IH]; intros q os2; cbn [app q_run fst snd]; [apply surjective_pairing|].
  destruct (step q o) as [q1 y1]. rewrite (IH q1 os2). destruct (run q1 os1) as [q2 y2]. cbn [fst snd]. now rewrite app_assoc.
Qed.
Lemma run_one q o : run q [o] = step q o.
Proof. cbn. destruct (step q o) as [q1 y1]. now rewrite app_nil_r. Qed.
(** nothing watched *)
Definition wz (h : list teardown) (c : list N) : watch := mkWatch (fun _ => False) (fun _ => False) (fun _ => False) (fun _ => False) None h c.
Definition good (q : coord) : Prop := exists h c, qok (wz h c) q.
Lemma fits_wz h c o : fits (wz h c) o.
Proof. destruct o; cbn; auto. destruct eof; auto. Qed.
Lemma good_of w q : w_late w = None -> qok w q -> good q.
Proof.
  intros L I. exists (w_hist w), (w_cons w). eapply (rewatch_ok C rnd); [| | | | | | |exact I]; cbn; auto; try contradiction; try discriminate; try (intros; contradiction).
Qed.
Lemma good_run os q : good q -> good (fst (run q os)).
Proof.
  intros (h & c & I). apply (good_of (w_add (acts_in (snd (run q os))) (wz h c))); [reflexivity|]. apply run_ok; [reflexivity| |exact I]. apply Forall_forall. intros. apply fits_wz.
Qed.
Lemma good_step o q : good q -> good (fst (step q o)).
Proof. intros G. apply (good_run [o]) in G. now rewrite run_one in G. Qed.
Lemma good_new e kr : einv C e -> good (coord_new e kr).
Proof. intros I. apply (good_of w0); [reflexivity|]. now apply new_ok. Qed.
Lemma good_nx q : good q -> NoDup (akeys (q_ex q)).
Proof. intros (h & c & I). apply I. Qed.
Lemma good_e q : good q -> einv C (q_ep q).
Proof. intros (h & c & I). apply I. Qed.

(** * Silence *)
Lemma bytes_out q o x to bs : In (YBytes x to bs) (snd (step q o)) -> In (x, to, bs) (q_out q).
Proof.
  destruct o; cbn [q_step]; try (intros []; fail).
  - destruct (accept C Q from now q) as [q1 [r|]]; cbn; intros [|[]]; discriminate.
  - destruct (start _ _ _ _ _ _ _ _ _) as [q1 [r|]]; cbn; intros [|[]]; discriminate.
  - destruct (start _ _ _ _ _ _ _ _ _) as [q1 [r|]]; cbn; intros [|[]]; discriminate.
  - destruct (start _ _ _ _ _ _ _ _ _) as [q1 [r|]]; cbn; intros [|[]]; discriminate.
  - unfold poll_bytes. destruct (q_out q) as [|[[y p] d] r]; cbn; intros [E|[]]; [discriminate|]. injection E as -> -> ->. now left.
  - destruct (poll_action q) as [q1 [r|]]; cbn; intros [|[]]; discriminate.
  - destruct (poll_event C q) as [q1 [r|]]; cbn; intros [|[]]; discriminate.
  - destruct (poll_ingress q) as [q1 [r|]]; cbn; intros [|[]]; discriminate.
  - destruct (plain o); [|intros []]. destruct (call C None o _) as [q1 outs]. cbn. intros J. apply in_map_iff in J as (y & Y & _). discriminate.
Qed.
Lemma action_out q o a : In (YAction a) (snd (step q o)) -> o = QPollAction /\ snd (poll_action q) = Some a.
Proof.
  destruct o; cbn [q_step]; try (intros []; fail).
  - destruct (accept C Q from now q) as [q1 [r|]]; cbn; intros [|[]]; discriminate.
  - destruct (start _ _ _ _ _ _ _ _ _) as [q1 [r|]]; cbn; intros [|[]]; discriminate.
  - destruct (start _ _ _ _ _ _ _ _ _) as [q1 [r|]]; cbn; intros [|[]]; discriminate.
  - destruct (start _ _ _ _ _ _ _ _ _) as [q1 [r|]]; cbn; intros [|[]]; discriminate.
  - destruct (poll_bytes q) as [q1 [[[r s] t]|]]; cbn; intros [|[]]; discriminate.
  - destruct (poll_action q) as [q1 [r|]]; cbn; intros [E|[]]; [|discriminate]. injection E as ->. auto.
  - destruct (poll_event C q) as [q1 [r|]]; cbn; intros [|[]]; discriminate.
  - destruct (poll_ingress q) as [q1 [r|]]; cbn; intros [|[]]; discriminate.
  - destruct (plain o); [|intros []]. destruct (call C None o _) as [q1 outs]. cbn. intros J. apply in_map_iff in J as (y & Y & _). discriminate.
Qed.
Lemma in_outs x to bs l : In (x, to, bs) l -> outs_of x l <> [].
Proof. intros J E. assert (K : In (x, to, bs) (outs_of x l)) by (apply filter_In; split; [exact J|cbn; apply N.eqb_refl]). now rewrite E in K. Qed.
Lemma silent_run w os : forall q, w_late w = None -> Forall (fits w) os -> qok w q -> forall x to bs, w_sil w x -> ~ In (YBytes x to bs) (snd (run q os)).
Proof.
  intros q LA F I x to bs S. revert w q LA F I S. induction os as [|o os IH]; intros w q LA F I S; [intros []|]. inversion F as [|? ? F1 F2]; subst.
  pose proof (step_ok C Q W B rnd w q o LA F1 I) as I1. pose proof (bytes_out q o x to bs) as BO. cbn [q_run]. destruct (step q o) as [q1 y1]. cbn [fst snd] in *.
  assert (F2' : Forall (fits (w_add (acts_in y1) w)) os) by (eapply Forall_impl; [|exact F2]; intros o' Y; destruct o'; exact Y).
  specialize (IH (w_add (acts_in y1) w) q1 LA F2' I1 S). destruct (run q1 os) as [q2 y2]. cbn [fst snd] in *. intros J. apply in_app_iff in J as [J|J]; [|contradiction].
  apply BO in J. apply in_outs in J. apply J. pose proof (sil_lt C rnd w q x I (or_introl S)) as L. exact (xo_sil _ _ _ _ _ _ _ (qi_x _ _ _ _ _ _ (proj1 I) x L) S).
Qed.
(** exchanges that have nothing queued and nothing to say stay silent *)
Lemma silent_from (P : N -> Prop) q os : good q -> (forall x, P x -> x < q_next q /\ outs_of x (q_out q) = [] /\ forall b, aget x (q_conns q) = Some b -> mute b) ->
  forall x to bs, P x -> ~ In (YBytes x to bs) (snd (run q os)).
Proof.
  intros (h & c & I) H x to bs PX. apply (silent_run (mkWatch P (fun _ => False) (fun _ => False) (fun _ => False) None h c) os q); [reflexivity| | |exact PX].
  - apply Forall_forall. intros o _. destruct o; cbn; auto. destruct eof; auto.
  - eapply (rewatch_ok C rnd); [| | | | | | |exact I]; cbn; auto; try contradiction; try discriminate; try (intros; contradiction).
    intros y PY. destruct (H y PY) as (L & O & M). split; [exact L|]. right. auto.
Qed.

(** * The order of the actions *)
Lemma poll_td q t : snd (poll_action q) = Some (ATeardown t) -> q_con q = [] /\ outs_of (td_ex t) (q_out q) = [] /\ In t (q_td q) /\
  q_out (fst (poll_action q)) = q_out q /\ q_conns (fst (poll_action q)) = q_conns q /\ q_next (fst (poll_action q)) = q_next q.
Proof.
  unfold poll_action. destruct (q_con q) as [|[[x p] sid] r]; [|discriminate]. destruct (take_first _ (q_td q)) as [[u r]|] eqn:T; [|discriminate]. cbn. intros [= ->].
  assert (H : forall l r, take_first (fun t => negb (has_bytes (td_ex t) q)) l = Some (t, r) -> has_bytes (td_ex t) q = false /\ In t l).
  { clear. induction l as [|a l IH]; intros r E; [discriminate|]. cbn in E. destruct (has_bytes (td_ex a) q) eqn:HB; cbn [negb] in E.
    - destruct (take_first _ l) as [[t' r']|]; [|discriminate]. injection E as -> <-. destruct (IH r' eq_refl). split; [assumption|now right].
    - injection E as <- <-. split; [exact HB|now left]. }
  destruct (H _ _ T) as (HB & J). split; [reflexivity|]. split; [now apply has_bytes_outs|]. auto.
Qed.
Lemma td_mute w q t b : qok w q -> In t (q_td q) -> aget (td_ex t) (q_conns q) = Some b -> mute b.
Proof.
  intros (I & S) J G. set (x := td_ex t) in *. destruct (live_of _ _ _ _ _ _ _ _ I G) as (m & side & M & L). destruct L.
  assert (NE : tds_of x (q_td q) <> []). { intros E. assert (K : In t (tds_of x (q_td q))) by (apply filter_In; split; [exact J|apply N.eqb_refl]). now rewrite E in K. }
  destruct (br_failed b) eqn:F; [eapply failed_mute; eauto|]. destruct xl_T as (n & T & HN). destruct HN as [->|(_ & HN)]; [|congruence].
  destruct (x_fin m) eqn:FI; [|apply app_eq_nil in T as (_ & T); contradiction]. eapply fin_mute; [exact xl_b|now apply xl_fin|].
  destruct xl_rout as [R|[R|R]]; [exact R| |].
  - cbn in R. pose proof (st_dirty _ S x b R G). congruence.
  - cbn in R. rewrite (st_pumped _ S) in R. contradiction.
Qed.
Lemma td_lt w q t : qok w q -> In t (q_td q) -> td_ex t < q_next q.
Proof.
  intros (I & _) J. destruct (N.lt_ge_cases (td_ex t) (q_next q)) as [L|L]; [exact L|]. destruct (qi_fresh _ _ _ _ _ _ I _ L) as (E & _). unfold sl, empty in E. injection E as _ _ _ _ E _.
  assert (K : In t (tds_of (td_ex t) (q_td q))) by (apply filter_In; split; [exact J|apply N.eqb_refl]). now rewrite E in K.
Qed.
Lemma after_teardown q os t : good q -> snd (step q QPollAction) = [YAction (ATeardown t)] ->
  forall to bs, ~ In (YBytes (td_ex t) to bs) (snd (run (fst (step q QPollAction)) os)).
Proof.
  intros G Y to bs. pose proof (good_step QPollAction q G) as G1. destruct G as (h & c & I). cbn [q_step] in *. pose proof (poll_td q t) as H. destruct (poll_action q) as [q1 [r|]]; cbn [fst snd opt] in *; [|discriminate]. injection Y as ->.
  destruct (H eq_refl) as (_ & O & J & E1 & E2 & E3). eapply (silent_from (fun x => x = td_ex t)); [exact G1| |reflexivity]. intros x ->. rewrite E3, E1, E2.
  split; [eapply td_lt; eauto|]. split; [exact O|]. intros b GB. eapply td_mute; eauto.
Qed.
Lemma hist_shape w q x : qok w q -> In (tds_of x (w_hist w))
  [[]; [TShutdown x]; [TClose x]; [TAbort x]; [TAbort x; TAbort x]; [TShutdown x; TClose x]; [TShutdown x; TAbort x]; [TShutdown x; TAbort x; TAbort x]].
Proof.
  intros (I & _). assert (PRE : forall (T A R : list teardown), T = A ++ R -> In T [[]; [TShutdown x]; [TAbort x]; [TClose x]; [TAbort x; TAbort x]; [TShutdown x; TClose x]; [TShutdown x; TAbort x]; [TShutdown x; TAbort x; TAbort x]] ->
    In A [[]; [TShutdown x]; [TClose x]; [TAbort x]; [TAbort x; TAbort x]; [TShutdown x; TClose x]; [TShutdown x; TAbort x]; [TShutdown x; TAbort x; TAbort x]]).
  { intros T A R E J. cbn in J. repeat (destruct J as [<-|J]); [..|contradiction];
    destruct A as [|a1 [|a2 [|a3 [|a4 A]]]]; cbn in E; try discriminate E; inversion E; subst; cbn; tauto. }
  destruct (N.lt_ge_cases x (q_next q)) as [L|L].
  - pose proof (xo_x _ _ _ _ _ _ _ (qi_x _ _ _ _ _ _ I x L)) as X. destruct (sl_b (sl x q)) as [b|], (sl_m (sl x q)) as [m|]; try contradiction.
    + destruct X as (side & []). destruct xl_T as (n & T & HN). eapply PRE; [symmetry; exact T|]. destruct HN as [->|(-> & _)]; destruct (x_fin m); cbn; tauto.
    + destruct X. destruct xd_T as (sh & r & T & HS & HR). eapply PRE; [symmetry; exact T|]. destruct HS as [->| ->], HR as [->|[->| ->]]; cbn; tauto.
  - destruct (qi_fresh _ _ _ _ _ _ I x L) as (_ & E & _). rewrite E. now left.
Qed.
Lemma cons_once w q x : qok w q -> (count_occ N.eq_dec (w_cons w) x <= 1)%nat /\ (tds_of x (w_hist w) <> [] -> cons_of x (q_con q) = []).
Proof.
  intros (I & _). destruct (N.lt_ge_cases x (q_next q)) as [L|L].
  - destruct (xo_con _ _ _ _ _ _ _ (qi_x _ _ _ _ _ _ I x L)) as (A & A'). split; [lia|exact A'].
  - destruct (qi_fresh _ _ _ _ _ _ I x L) as (E & _ & _ & _ & _ & E2). rewrite E2. split; [lia|]. intros _. unfold sl, empty in E. now injection E.
Qed.
(** the watch of a run from the start *)
Lemma start_ok w e kr os : einv C e -> w_hist w = [] -> w_cons w = [] -> (forall x, ~ w_sil w x) -> (forall x, ~ w_kin w x) -> (forall x, ~ w_fld w x) -> w_late w = None -> Forall (fits w) os ->
  qok (w_add (acts_in (snd (run (coord_new e kr) os))) w) (fst (run (coord_new e kr) os)).
Proof.
  intros I H1 H2 H3 H4 H5 H6 F. apply run_ok; [exact H6|exact F|]. eapply (rewatch_ok C rnd); [| | | | | | |exact (new_ok C rnd e kr I)]; cbn; auto.
  - intros x S. destruct (H3 x S).
  - intros x S. destruct (H4 x S).
  - intros x S. destruct (H5 x S).
  - intros now E. congruence.
Qed.

(** * Leaving *)
Lemma leave_silent now fw q os : good q -> forall x m, aget x (q_ex q) = Some m -> x_outbound m = true ->
  forall to bs, ~ In (YBytes x to bs) (snd (run (q_leave C now fw q) os)).
Proof.
  intros G x m M OB to bs. pose proof (good_step (QLeave now fw) q G) as G1. cbn [q_step fst] in G1.
  pose proof (good_nx q G) as NX. assert (LIVE : exists b, aget x (q_conns q) = Some b) by (destruct G as (h & c & I); eapply ex_live; [exact (proj1 I)|exact M]).
  destruct LIVE as (b & GB). assert (LT : x < q_next q) by (destruct G as (h & c & I); eapply live_lt; [exact (proj1 I)|exact GB]).
  assert (BM : outs_of x (q_out q) = [] -> mute b).
  { intros _. destruct G as (h & c & (I & S)). destruct (live_of _ _ _ _ _ _ _ _ I GB) as (m' & side & M' & L). rewrite M in M'. injection M' as <-. destruct L.
    rewrite OB in xl_out. destruct side as [k|]; [|discriminate]. destruct (br_failed b) eqn:F; [eapply failed_mute; eauto|].
    destruct (br_stream b) as [st|] eqn:ST.
    - eapply began_mute; [exact xl_b|exact ST| |].
      + destruct xl_sout as [D|Y]; [cbn in D; pose proof (st_dirty _ S x b D GB); congruence|auto].
      + destruct xl_rout as [R|[R|R]]; [exact R|cbn in R; pose proof (st_dirty _ S x b R GB); congruence|cbn in R; rewrite (st_pumped _ S) in R; contradiction].
    - destruct (br_terminal b) eqn:TE; [specialize (xl_term eq_refl); cbn in xl_term; pose proof (st_dirty _ S x b xl_term GB); congruence|].
      specialize (xl_un eq_refl eq_refl). cbn in xl_un. pose proof (st_inb _ S x m xl_un M). congruence. }
  eapply (silent_from (fun y => y = x)); [exact G1| |reflexivity]. intros y ->.
  rewrite leave_split. unfold before_leave. cbv zeta. cbn [q_ex q_set_ing q_set_con q_set_kinds q_set_dials q_set_last].
  set (l := map fst (filter (fun p => x_outbound (snd p)) (q_ex q))). set (q1 := q_set_ing [] (q_set_con [] (q_set_kinds [] (q_set_dials [] (q_set_last (Some now) q))))).
  assert (JL : In x l). { unfold l. apply in_map_iff. exists (x, m). split; [reflexivity|]. apply filter_In. split; [now apply aget_in|exact OB]. }
  assert (GEN : forall l q1, (In x l \/ outs_of x (q_out q1) = [] /\ (aget x (q_conns q1) = None \/ mute b)) -> (aget x (q_conns q1) = Some b \/ aget x (q_conns q1) = None) -> (outs_of x (q_out q1) = [] -> aget x (q_conns q1) = Some b -> mute b) ->
    let q2 := fold_left (fun q x => if has_bytes x q then cancel x q else q) l q1 in q_next q2 = q_next q1 /\ outs_of x (q_out q2) = [] /\ forall b', aget x (q_conns q2) = Some b' -> mute b').
  { clear - rnd. induction l as [|y l IH]; intros q1 J H1 H2; cbn [fold_left].
    - destruct J as [[]|(J1 & J2)]. split; [reflexivity|]. split; [exact J1|]. intros b' E. destruct J2 as [J2|J2]; [congruence|]. destruct H1; congruence.
    - destruct (has_bytes y q1) eqn:HB.
      + assert (CN : forall z, z <> y -> aget z (q_conns (cancel y q1)) = aget z (q_conns q1)) by (intros z NE; cbn; now apply aget_adel_ne).
        assert (CO : forall z, z <> y -> outs_of z (q_out (cancel y q1)) = outs_of z (q_out q1)) by (intros z NE; cbn; now apply outs_ne).
        assert (CY : aget y (q_conns (cancel y q1)) = None) by (cbn; apply aget_adel_eq). assert (OY : outs_of y (q_out (cancel y q1)) = []) by (cbn; apply outs_eq).
        destruct (N.eq_dec x y) as [->|NE].
        * apply (IH (cancel y q1)); [right; auto|auto|]. intros _ E. congruence.
        * apply (IH (cancel y q1)); [rewrite CN, CO by exact NE; destruct J as [[->|J]|J]; [congruence|auto|auto]|rewrite CN by exact NE; exact H1|rewrite CN, CO by exact NE; exact H2].
      + apply IH; auto. destruct J as [[->|J]|J]; auto. right. apply has_bytes_outs in HB. split; [exact HB|]. destruct H1; auto. }
  destruct (GEN l q1 (or_introl JL) (or_introl GB) (fun O _ => BM O)) as (E1 & E2 & E3). unfold call_. rewrite call_eq. cbn [fst q_next q_out q_conns q_set_log q_set_ep]. rewrite E1. split; [exact LT|]. auto.
Qed.
Definition quiet_down (q : coord) : Prop := q_runs q = false /\ q_con q = [].
Lemma down_fr q q' : good q -> fr C (fun _ => false) q q' -> quiet_down q -> quiet_down q'.
Proof. intros G F (R & K). pose proof (good_e q G) as I. split; [rewrite (fr_runs _ _ _ _ F I); exact R|apply (fr_con _ _ _ _ F I); auto]. Qed.
Lemma XF : forall ev : event, false = true -> exists x p ok k, ev = EvExchange x p ok k.
Proof. discriminate. Qed.
Lemma down_leave now fw q : good q -> quiet_down (q_leave C now fw q).
Proof.
  intros G. pose proof (good_step (QLeave now fw) q G) as G1. cbn [q_step fst] in G1. rewrite leave_split in *.
  assert (I : einv C (q_ep (before_leave now q))). { eapply adv_einv; [|exact (good_e q G)]. pose proof (fr_before_leave C (fun _ => false) now q) as F. destruct F as [_ A _ _ _ _ _ _]. exact A. }
  split.
  - unfold call_. rewrite call_eq. unfold q_runs. cbn [fst q_ep q_set_log q_set_ep ep_step]. destruct (runs (q_ep (before_leave now q))) eqn:R; [now apply leave_runs|].
    pose proof (stays_down C [ELeave now fw] _ I R) as S. rewrite ep_run_fst in S. exact S.
  - unfold call_. rewrite call_eq. cbn [fst q_con q_set_log q_set_ep]. unfold before_leave. cbv zeta. set (q1 := q_set_ing [] _). assert (E : q_con q1 = []) by reflexivity. clearbody q1. generalize (map fst (filter (fun p => x_outbound (snd p)) (q_ex q1))) as l. intros l. revert q1 E.
    induction l as [|x l IH]; intros q1 E; [exact E|]. cbn [fold_left]. apply IH. destruct (has_bytes x q1); exact E.
Qed.
Lemma down_poll n : forall q, quiet_down q -> quiet_down (fst (poll_event_loop C n q)).
Proof.
  induction n as [|n IH]; intros q D; [exact D|]. cbn [poll_event_loop]. rewrite call_eq. set (q1 := q_set_log _ _).
  assert (D1 : quiet_down q1) by (destruct D as (D1 & D2); split; [unfold q_runs in *; unfold q1; cbn [q_ep q_set_log q_set_ep]; rewrite runs_poll; exact D1|exact D2]). clearbody q1.
  cbn [ep_step snd]. destruct (k_ev (e_core (q_ep q))) as [|ev r]; [exact D1|]. destruct ev; try exact D1. apply IH. exact D1.
Qed.
Lemma down_step q o : good q -> quiet_down q -> quiet_down (fst (step q o)) /\ forall x p sid, ~ In (YAction (AConnect x p sid)) (snd (step q o)).
Proof.
  intros G D. split.
  2: { intros x p sid J. apply action_out in J as (-> & J). unfold poll_action in J. destruct D as (_ & D). rewrite D in J. destruct (take_first _ _) as [[t r]|]; discriminate. }
  pose proof (fun q' => down_fr q q' G) as K. assert (ND := good_nx q G). pose proof XF as XE.
  destruct o; cbn [q_step fst].
  - apply K; [|exact D]. unfold on_data. eapply fr_trans with (b := q_set_last (Some now) q); [now apply fr_still|]. eapply fr_trans; [|now apply fr_tick]. cbv zeta. eapply fr_trans; [now apply fr_on_bridge|now apply fr_still].
  - apply K; [|exact D]. unfold on_failure. eapply fr_trans with (b := q_set_last (Some now) q); [now apply fr_still|]. eapply fr_trans; [|now apply fr_tick]. eapply fr_trans; [now apply fr_on_bridge|now apply fr_still].
  - apply K; [|exact D]. unfold on_failure. eapply fr_trans with (b := q_set_last (Some now) q); [now apply fr_still|]. eapply fr_trans; [|now apply fr_tick]. eapply fr_trans; [now apply fr_on_bridge|now apply fr_still].
  - unfold accept. cbv zeta. destruct (negb (q_runs (q_set_last (Some now) q))) eqn:R; [exact D|]. destruct D as (D & _). unfold q_runs in *. cbn in R. rewrite D in R. discriminate.
  - pose proof (fr_start C Q W B rnd (fun _ => false) XE (EPushPull peer join now) XPushPull now q Logic.I Logic.I eq_refl) as F. destruct (start _ _ _ _ _ _ _ _ _) as [q1 [r|]]; exact (K _ F D).
  - pose proof (fr_start C Q W B rnd (fun _ => false) XE (EReliable id addr seq deadline) XReliablePing now q Logic.I Logic.I eq_refl) as F. destruct (start _ _ _ _ _ _ _ _ _) as [q1 [r|]]; exact (K _ F D).
  - pose proof (fr_start C Q W B rnd (fun _ => false) XE (EUserMsg peer data now) XUserMessage now q Logic.I Logic.I eq_refl) as F. destruct (start _ _ _ _ _ _ _ _ _) as [q1 [r|]]; exact (K _ F D).
  - apply K; [|exact D]. unfold on_timeout. cbv zeta. eapply fr_trans; [|now apply fr_tick]. eapply fr_trans with (b := q_set_last (Some now) q); [now apply fr_still|]. apply fr_fold. intros. now apply fr_still.
  - now apply down_leave.
  - destruct (fr_encrypt C (fun _ => false) kr q) as [F|F]; [exact (K _ F D)|]. destruct F as [_ _ _ _ _ F1 F2 _]. cbn [q_ep q_set_ing] in *. destruct D as (D1 & D2). split; [rewrite F1; [exact D1|exact (good_e q G)]|apply F2; auto; exact (good_e q G)].
  - unfold on_gossip. cbv zeta. destruct (negb _); [exact D|]. destruct (_ <=? _); exact D.
  - unfold poll_bytes. destruct (q_out q); exact D.
  - unfold poll_action. destruct D as (D1 & D2). rewrite D2. destruct (take_first _ _) as [[t r]|]; split; auto.
  - unfold poll_event. pose proof (down_poll (S (length (k_ev (e_core (q_ep q))))) q D) as H. destruct (poll_event_loop C _ q) as [q1 [r|]]; exact H.
  - unfold poll_ingress. destruct (q_ing q); exact D.
  - unfold requeue. cbv zeta. assert (H : forall ev, quiet_down (call_ C None (ERequeue ev) (q_set_last (Some now) q))).
    { intros ev'. unfold call_. rewrite call_eq. destruct D as (D1 & D2). split; [|exact D2]. unfold q_runs in *. cbn [fst q_ep q_set_log q_set_ep q_set_last]. rewrite runs_keep; [exact D1|exact (good_e q G)|exact Logic.I]. }
    destruct ev; try apply H. destruct (negb _); exact D.
  - destruct (plain o) eqn:PL; [|exact D]. destruct (plain_not o PL) as (T & N & A). set (q0 := match last with Some n => _ | None => _ end). assert (F0 : fr C (fun _ => false) q q0) by (subst q0; destruct last; [now apply fr_still|apply fr_refl]).
    pose proof (fr_call C (fun _ => false) XE None o q0 T N) as F. rewrite A in F. specialize (F (fun _ => eq_refl)). unfold call_ in F. destruct (call C None o q0) as [q1 outs]. cbn [fst] in *. exact (K _ (fr_trans _ _ _ _ _ F0 F) D).
  - exact (K _ (fr_reorder C (fun _ => false) f q ND) D).
Qed.
Lemma down_run os : forall q, good q -> quiet_down q -> forall x p sid, ~ In (YAction (AConnect x p sid)) (snd (run q os)).
Proof.
  induction os as [|o os IH]; intros q G D x p sid; [intros []|]. destruct (down_step q o G D) as (D1 & NC). pose proof (good_step o q G) as G1. cbn [q_run]. destruct (step q o) as [q1 y1]. cbn [fst snd] in *.
  specialize (IH q1 G1 D1 x p sid). destruct (run q1 os) as [q2 y2]. cbn [snd] in *. intros J. apply in_app_iff in J as [J|J]; [now apply NC in J|contradiction].
Qed.

(** * A change of keys *)
Lemma keys_eqb_eq a : forall b, keys_eqb a b = true <-> a = b.
Proof.
  induction a as [|x a IH]; intros [|y b]; cbn; try (split; [discriminate|discriminate]); [tauto|]. rewrite Bool.andb_true_iff, IH. destruct (key_eqb_spec x y); split; intros H; try (destruct H; congruence); [split; congruence|inversion H; contradiction].
Qed.
Lemma kr_eqb_eq a b : kr_eqb a b = true <-> a = b.
Proof.
  destruct a as [[p s]|], b as [[p' s']|]; cbn; try (split; [discriminate|discriminate]); [|tauto]. rewrite Bool.andb_true_iff, keys_eqb_eq. destruct (key_eqb_spec p p'); split; intros H; try (destruct H; congruence); [split; congruence|inversion H; contradiction].
Qed.
Lemma encrypt_shape kr q : q_kr q <> kr -> let q' := set_encryption kr q in q_out q' = [] /\ q_next q' = q_next q /\ q_kr q' = kr /\ q_ing q' = [] /\ forall x b, aget x (q_conns q') = Some b -> br_failed b = true.
Proof.
  intros NE. unfold set_encryption. destruct (kr_eqb (q_kr q) kr) eqn:E; [apply kr_eqb_eq in E; contradiction|]. cbv zeta. set (q1 := q_set_conns _ q). set (hit := filter _ (q_conns q)).
  assert (H : forall l q1, let q2 := fold_left (fun q x => push_td (TAbort x) (purge_connect x (purge x (mark_dirty x q)))) l q1 in q_conns q2 = q_conns q1 /\ q_next q2 = q_next q1).
  { induction l as [|x l IH]; intros q2; [auto|]. cbn [fold_left]. destruct (IH (push_td (TAbort x) (purge_connect x (purge x (mark_dirty x q2))))) as (A1 & A2). split; [exact A1|exact A2]. }
  destruct (H (map fst hit) q1) as (E1 & E2). cbv zeta in E1, E2. set (q2 := fold_left _ _ q1) in *. clearbody q2. cbn [q_out q_next q_kr q_ing q_conns q_set_kr q_set_ing q_set_out].
  replace (q_next (match hit with [] => q2 | _ => q_set_pol true q2 end)) with (q_next q2) by (destruct hit; reflexivity). replace (q_conns (match hit with [] => q2 | _ => q_set_pol true q2 end)) with (q_conns q2) by (destruct hit; reflexivity).
  rewrite E1, E2. repeat split; auto. intros x b G. unfold q1 in G. cbn [q_conns q_set_conns] in G. rewrite aget_map in G. destruct (aget x (q_conns q)); [|discriminate]. injection G as <-. apply policy_failed.
Qed.
Lemma encrypt_silent kr q os : good q -> q_kr q <> kr -> forall x to bs, In (YBytes x to bs) (snd (run (set_encryption kr q) os)) -> q_next q <= x.
Proof.
  intros G NE x to bs J. destruct (N.lt_ge_cases x (q_next q)) as [L|L]; [|exact L]. exfalso. revert J. pose proof (good_step (QEncrypt kr) q G) as G1. cbn [q_step fst] in G1. destruct (encrypt_shape kr q NE) as (E1 & E2 & _ & _ & E3).
  apply (silent_from (fun x => x < q_next q)); [exact G1| |exact L]. intros y LY. rewrite E1, E2. split; [exact LY|]. split; [reflexivity|]. intros b GB.
  destruct G1 as (h & c & (I & _)). destruct (live_of _ _ _ _ _ _ _ _ I GB) as (m & side & _ & LV). eapply failed_mute; [apply LV|eapply E3, GB].
Qed.

(** * A connection that is lost *)
Lemma fail_poked w r x q : qok w q -> qinv C w [] [] [] (mark_dirty x (on_bridge (br_fail r) x q)).
Proof.
  intros I. apply poke_ok; [exact rnd|apply I|apply I|].
  intros b side G IB PRE. assert (I1 : binv side (br_fail r b)) by now apply fail_inv. split; [exact I1|]. split; [apply onward_fail|]. split; [intros _; apply fail_terminal|]. split; [intros _; apply fail_failed|].
  split; [intros _; eapply failed_mute; [exact I1|apply fail_failed]|]. intros _. apply noeof_fail.
Qed.
Lemma failure_gone r x now q : good q -> In x (akeys (q_conns q)) -> let q' := on_failure C Q W B rnd r x now q in
  aget x (q_conns q') = None /\ aget x (q_ex q') = None /\ outs_of x (q_out q') = [] /\ good q'.
Proof.
  intros (h & c & I) J q'. destruct (aget x (q_conns q)) as [b|] eqn:G. 2: { exfalso. apply aget_none in G. contradiction. }
  pose proof (live_lt _ _ _ _ _ _ _ _ (proj1 I) G) as LT.
  set (wf := mkWatch (fun _ => False) (fun _ => False) (fun _ => False) (fun y => y = x) None h c).
  assert (I' : qok wf q').
  { pose proof (set_last_ok C rnd (wz h c) (Some now) q I) as (I1 & S1). unfold q', on_failure. apply tick_qok; [now left|].
    assert (P : qinv C (wz h c) [] [] [] (mark_dirty x (on_bridge (br_fail r) x (q_set_last (Some now) q)))) by now apply fail_poked.
    eapply (rewatch C rnd); [| | | | | | |exact P]; cbn; auto; try contradiction; try discriminate; try (intros; contradiction).
    intros y ->. unfold on_bridge. cbn [q_conns q_set_last]. rewrite G. cbn. split; [exact LT|]. right. exists (br_fail r b). split; [apply aget_aset_eq|apply fail_failed]. }
  assert (D0 : q_dirty q' = []).
  { unfold q', on_failure. pose proof (set_last_ok C rnd (wz h c) (Some now) q I) as (I1 & S1). eapply (tick_settled C Q W B rnd (wz h c)); [now left|]. now apply fail_poked. }
  assert (L' : x < q_next q') by (apply (sil_lt C rnd wf q' x I'); cbn; auto). pose proof (qi_x _ _ _ _ _ _ (proj1 I') x L') as XO. pose proof (xo_x _ _ _ _ _ _ _ XO) as X. cbn [sl sl_b sl_m] in X.
  destruct (aget x (q_conns q')) as [b'|] eqn:G', (aget x (q_ex q')) as [m'|] eqn:M'; try contradiction.
  - destruct X as (side & []). specialize (xl_fld eq_refl). apply failed_terminal in xl_fld. specialize (xl_term xl_fld). change (In x (q_dirty q')) in xl_term. rewrite D0 in xl_term. contradiction.
  - destruct X. split; [reflexivity|]. split; [reflexivity|]. split; [exact (xd_fld eq_refl)|]. apply (good_of wf); [reflexivity|exact I'].
Qed.
End Claims.
