(** Reports on exchanges, answers, deadlines and limits, over whole histories. *)
From Verif Require Import CodecModel.
From Verif Require Import Base BaseFacts MapFacts CoreFacts KeyringFacts EndpointInv EndpointHist EndpointDetect EndpointOutcome CoordModel BridgeFacts CoordFacts CoordRuns CoordSteps CoordFrame CoordMeta CoordClaims.
Local Open Scope N_scope.

Section Reports.
Context (C : cfg) (Q : qcfg) (W : wcodec) (B : backends) (rnd : N -> N -> option bytes).
Notation step := (q_step C Q W B rnd).
Notation run := (q_run C Q W B rnd).
Notation qok := (qok C).
Notation good := (good C).

Lemma evs_app a b : evs_in (a ++ b) = evs_in a ++ evs_in b.
Proof. apply flat_map_app. Qed.
Lemma run_books (X : event -> bool) (XE : forall ev, X ev = true -> exists x p ok k, ev = EvExchange x p ok k) os : forall q, good q ->
  tags q (fst (run q os)) /\ adv C q (fst (run q os)) /\ mt q (fst (run q os)) /\ exists l, q_log (fst (run q os)) = q_log q ++ l /\
    (length (filter X (evs_in (snd (run q os)))) + length (kind X (q_ep (fst (run q os)))) = length (kind X (q_ep q)) + length (filter X (flat_map handed_back os)) + length (filter X (made l)))%nat.
Proof.
  induction os as [|o os IH]; intros q G; cbn [q_run fst snd flat_map].
  - split; [exact (fun H => H)|]. split; [apply adv_refl|]. split; [apply mt_refl|]. exists []. split; [symmetry; apply app_nil_r|]. cbn. lia.
  - pose proof (step_book C Q W B rnd X XE q o (good_nx C q G)) as ((T & A) & BK). pose proof (step_meta C Q W B rnd q o (good_nx C q G)) as M. pose proof (good_step C Q W B rnd o q G) as G1. destruct (step q o) as [q1 y1]. cbn [fst snd] in *.
    destruct (IH q1 G1) as (T2 & A2 & M2 & l2 & L2 & E2). clear IH. destruct (run q1 os) as [q2 y2]. cbn [fst snd] in *. destruct (BK (good_e C q G)) as (l & L & E).
    split; [exact (fun H => T2 (T H))|]. split; [eapply adv_trans; eauto|]. split; [eapply mt_trans; eauto|]. exists (l ++ l2). rewrite L2, L, app_assoc. split; [reflexivity|].
    apply (f_equal (@length _)) in E. rewrite !app_length in E. rewrite evs_app, made_app, !filter_app, !app_length. lia.
Qed.
Definition about (x : N) (ev : event) : bool := match ev with EvExchange y _ _ _ => y =? x | _ => false end.
Lemma about_x x ev : about x ev = true -> exists y p ok k, ev = EvExchange y p ok k.
Proof. destruct ev; try discriminate. eauto. Qed.
Lemma logs_cons x p l : logs_of x (p :: l) = (if mine x p then [snd p] else []) ++ logs_of x l.
Proof. unfold logs_of. cbn [filter]. destruct (mine x p); reflexivity. Qed.
Lemma made_about x l : Forall tagged l -> length (filter (about x) (made l)) = length (filter exch (logs_of x l)).
Proof.
  induction 1 as [|[ox o] l T F IH]; [reflexivity|]. rewrite logs_cons, filter_app, app_length, <- IH. cbn [made flat_map fst snd]. rewrite filter_app, app_length. f_equal. clear IH F.
  destruct ox as [y|]; [|reflexivity]. cbn [mine fst]. destruct o; try (destruct (y =? x); reflexivity). destruct ev; try (destruct (y =? x); reflexivity). cbn in T. subst. cbn. destruct (y =? x); reflexivity.
Qed.
Lemma log_once w q x : qok w q -> (length (filter exch (logs_of x (q_log q))) <= 1)%nat.
Proof.
  intros (I & _). destruct (N.lt_ge_cases x (q_next q)) as [L|L].
  - pose proof (xo_x _ _ _ _ _ _ _ (qi_x _ _ _ _ _ _ I x L)) as X. cbn [sl sl_b sl_m] in X. destruct (aget x (q_conns q)), (aget x (q_ex q)); try contradiction.
    + destruct X as (side & []). cbn [sl sl_log] in xl_count. rewrite xl_count. cbn. lia.
    + apply X.
  - destruct (qi_fresh _ _ _ _ _ _ I x L) as (E & _). unfold sl, empty in E. injection E as _ _ _ _ _ E. rewrite E. cbn. lia.
Qed.
Lemma log_earned w q x : qok w q -> earned (logs_of x (q_log q)).
Proof.
  intros (I & _). destruct (N.lt_ge_cases x (q_next q)) as [L|L].
  - pose proof (xo_x _ _ _ _ _ _ _ (qi_x _ _ _ _ _ _ I x L)) as X. cbn [sl sl_b sl_m] in X. destruct (aget x (q_conns q)), (aget x (q_ex q)); try contradiction.
    + destruct X as (side & []). cbn [sl sl_log] in xl_count. intros l1 l2 y p k E. rewrite E, filter_app in xl_count. cbn in xl_count. destruct (filter exch l1); discriminate.
    + apply X.
  - destruct (qi_fresh _ _ _ _ _ _ I x L) as (E & _). unfold sl, empty in E. injection E as _ _ _ _ _ E. rewrite E. intros [|] l2 y p k Y; discriminate.
Qed.
Lemma qok_of q : good q -> exists w, qok w q.
Proof. intros (h & c & I). eauto. Qed.
(** a new endpoint has nothing to report *)
Lemma new_kind X t0 e : (forall s, X (EvJoined s) = false) -> ep_new C t0 = Some e -> kind X e = [].
Proof.
  intros XJ. unfold ep_new. destruct (cfg_ok C); [|discriminate]. intros H. apply Some_inj in H as <-. unfold kind, refresh_cache. match goal with |- context [if ?c then _ else _] => destruct c end; cbn; now rewrite XJ.
Qed.

Lemma once_seen t0 e kr os x : ep_new C t0 = Some e ->
  (length (filter (about x) (evs_in (snd (run (coord_new e kr) os)))) <= 1 + length (filter (about x) (flat_map handed_back os)))%nat.
Proof.
  intros E. assert (I : einv C e) by (eapply (einv_new C); exact E). pose proof (good_new C rnd e kr I) as G. destruct (run_books (about x) (about_x x) os _ G) as (T & A & M & l & L & EQ).
  pose proof (good_run C Q W B rnd os _ G) as G1. destruct (qok_of _ G1) as (w & K). pose proof (log_once w _ x K) as O. cbn [coord_new q_log] in L, T. rewrite L in O. cbn [app] in O, L. specialize (T (Forall_nil _)). rewrite L in T.
  cbn [coord_new q_ep] in EQ. rewrite (new_kind _ _ _ (fun _ => eq_refl) E) in EQ. rewrite (made_about x l T) in EQ. cbn [length] in EQ. lia.
Qed.
Definition xk_eqb (a b : xkind) : bool := match a, b with XPushPull, XPushPull | XReliablePing, XReliablePing | XUserMessage, XUserMessage => true | _, _ => false end.
Definition exactly (x p : N) (ok : bool) (k : xkind) (ev : event) : bool := match ev with EvExchange y p' ok' k' => (y =? x) && (p' =? p) && Bool.eqb ok' ok && xk_eqb k' k | _ => false end.
Lemma exactly_eq x p ok k ev : exactly x p ok k ev = true <-> ev = EvExchange x p ok k.
Proof.
  destruct ev as [| | | | | | | | | |y p' ok' k']; try (split; discriminate). cbn. rewrite !Bool.andb_true_iff, !N.eqb_eq, Bool.eqb_true_iff. split.
  - intros (((-> & ->) & ->) & K). f_equal. destruct k', k; try discriminate; reflexivity.
  - intros [= -> -> -> ->]. repeat split. destruct k; reflexivity.
Qed.
Lemma exactly_x x p ok k ev : exactly x p ok k ev = true -> exists y p ok k, ev = EvExchange y p ok k.
Proof. intros E. apply exactly_eq in E. eauto. Qed.
Lemma filter_pos {A} (P : A -> bool) l : (0 < length (filter P l))%nat <-> exists a, In a l /\ P a = true.
Proof.
  split.
  - destruct (filter P l) as [|a r] eqn:E; cbn; [lia|]. intros _. exists a. apply filter_In. rewrite E. now left.
  - intros (a & J & K). assert (Z : In a (filter P l)) by now apply filter_In. destruct (filter P l); [contradiction|cbn; lia].
Qed.
Lemma in_evs ev ys : In (YEvent ev) ys <-> In ev (evs_in ys).
Proof.
  unfold evs_in. rewrite in_flat_map. split; [intros J; exists (YEvent ev); split; [exact J|now left]|]. intros (y & J & K). destruct y; cbn in K; try contradiction. destruct K as [->|[]]. exact J.
Qed.
Lemma in_made ev l : In ev (made l) <-> exists x, In (Some x, ERequeue ev) l.
Proof.
  unfold made. rewrite in_flat_map. split.
  - intros ([[x|] o] & J & K); cbn in K; [|contradiction]. destruct o; try contradiction. destruct K as [->|[]]. eauto.
  - intros (x & J). exists (Some x, ERequeue ev). split; [exact J|now left].
Qed.
Lemma seen_from t0 e kr os x p ok k : ep_new C t0 = Some e -> In (YEvent (EvExchange x p ok k)) (snd (run (coord_new e kr) os)) ->
  (exists now, In (QRequeue (EvExchange x p ok k) now) os) \/ In (Some x, ERequeue (EvExchange x p ok k)) (q_log (fst (run (coord_new e kr) os))).
Proof.
  intros E J. assert (I : einv C e) by (eapply (einv_new C); exact E). pose proof (good_new C rnd e kr I) as G. destruct (run_books (exactly x p ok k) (exactly_x x p ok k) os _ G) as (T & A & M & l & L & EQ).
  cbn [coord_new q_log q_ep] in *. rewrite (new_kind _ _ _ (fun _ => eq_refl) E) in EQ. specialize (T (Forall_nil _)). cbn [app length] in *. rewrite L in *. apply in_evs in J.
  assert (P : (0 < length (filter (exactly x p ok k) (evs_in (snd (run (coord_new e kr) os)))))%nat) by (apply filter_pos; exists (EvExchange x p ok k); split; [exact J|now apply exactly_eq]).
  assert (S : (0 < length (filter (exactly x p ok k) (flat_map handed_back os)) \/ 0 < length (filter (exactly x p ok k) (made l)))%nat) by (clear - P EQ; unfold coord_new in *; lia).
  destruct S as [S|S]; apply filter_pos in S as (ev & JE & XE); apply exactly_eq in XE; subst ev.
  - left. apply in_flat_map in JE as (o & JO & JE). destruct o; try contradiction. destruct JE as [->|[]]. eauto.
  - right. apply in_made in JE as (y & JE). rewrite Forall_forall in T. pose proof (T _ JE) as TG. cbn in TG. now subst y.
Qed.
Lemma in_logs x o l : In (Some x, o) l <-> In o (logs_of x l).
Proof.
  unfold logs_of. rewrite in_map_iff. split.
  - intros J. exists (Some x, o). split; [reflexivity|]. apply filter_In. split; [exact J|cbn; apply N.eqb_refl].
  - intros ([ox o'] & <- & J). apply filter_In in J as (J & K). destruct ox as [y|]; [|discriminate]. cbn in K. apply N.eqb_eq in K. subst y. exact J.
Qed.
Lemma success_earned t0 e kr os x p k : ep_new C t0 = Some e -> In (YEvent (EvExchange x p true k)) (snd (run (coord_new e kr) os)) ->
  (exists now, In (QRequeue (EvExchange x p true k) now) os) \/ k = XUserMessage \/
  exists o, In (Some x, o) (q_log (fst (run (coord_new e kr) os))) /\ answer_to k o.
Proof.
  intros E J. destruct (seen_from t0 e kr os x p true k E J) as [H|H]; [now left|right]. assert (I : einv C e) by (eapply (einv_new C); exact E).
  destruct (qok_of _ (good_run C Q W B rnd os _ (good_new C rnd e kr I))) as (w & K). pose proof (log_earned w _ x K) as EA. apply in_logs in H. apply in_split in H as (l1 & l2 & H). destruct (EA l1 l2 x p k H) as [->|(o & JO & AN)]; [now left|right].
  exists o. split; [|exact AN]. apply in_logs. rewrite H. apply in_app_iff. now left.
Qed.

(** * Answers wait for the end of the peer's stream *)
Lemma gated e kr os ox ev now : einv C e -> In (ox, EStreamEv ev now) (q_log (fst (run (coord_new e kr) os))) -> ev <> SEClosed ->
  exists x data at_, ox = Some x /\ In (QData x data true at_) os.
Proof.
  intros I J NE. pose proof (good_new C rnd e kr I) as G. destruct (run_books (fun _ => false) ltac:(discriminate) os _ G) as (T & _ & _ & _).
  specialize (T (Forall_nil _)). rewrite Forall_forall in T. pose proof (T _ J) as TG. destruct ox as [x|]; [|contradiction]. exists x.
  set (ends := fun y => exists data at_, In (QData y data true at_) os).
  assert (D : ends x \/ ~ ends x).
  { clear. unfold ends. induction os as [|o os IH]; [right; intros (d & a & []) |]. destruct IH as [(d & a & H)|H]; [left; exists d, a; now right|].
    destruct o as [y data [|] now| | | | | | | | | | | | | | | | |]; try (right; intros (d & a & [Y|Y]); [discriminate|apply H; eauto]; fail).
    destruct (N.eq_dec y x) as [->|NE]; [left; exists data, now; now left|]. right. intros (d & a & [Y|Y]); [injection Y; congruence|apply H; eauto]. }
  destruct D as [(d & a & H)|H]; [eauto|]. exfalso.
  set (wg := mkWatch (fun _ => False) (fun y => ~ ends y) (fun _ => False) (fun _ => False) None [] []).
  assert (K := start_ok C Q W B rnd wg e kr os I eq_refl eq_refl (fun _ F => F) (fun _ F => F) (fun _ F => F) eq_refl).
  assert (F : Forall (fits wg) os).
  { apply Forall_forall. intros o JO. destruct o; cbn; auto. destruct eof; [|exact Logic.I]. intros N. apply N. exists data, now0. exact JO. }
  specialize (K F). set (q := fst (run (coord_new e kr) os)) in *. assert (L : x < q_next q).
  { destruct (N.lt_ge_cases x (q_next q)) as [L|L]; [exact L|]. destruct (qi_fresh _ _ _ _ _ _ (proj1 K) x L) as (E & _). unfold sl, empty in E. injection E as _ _ _ _ _ E. apply in_logs in J. rewrite E in J. contradiction. }
  pose proof (xo_gat _ _ _ _ _ _ _ (qi_x _ _ _ _ _ _ (proj1 K) x L) H) as GA. rewrite Forall_forall in GA. apply in_logs in J. specialize (GA _ J). cbn in GA. destruct ev; try discriminate. congruence.
Qed.

(** * A timeout leaves nothing behind its deadline *)
Lemma timely q now : good q -> let q' := fst (step q (QTimeout now)) in
  forall x b, aget x (q_conns q') = Some b -> br_terminal b = false /\ now < br_deadline b.
Proof.
  intros (h & c & I) q' x b G. destruct (on_timeout_ok C Q W B rnd (wz h c) now q eq_refl I) as (I' & D). cbn [step q_step fst] in q'. fold q' in I', D.
  destruct (live_of _ _ _ _ _ _ _ _ (proj1 I') G) as (m & side & M & []). change (In x ([] ++ q_dirty q')) with (In x (q_dirty q')) in *. rewrite D in *. cbn [In] in *. split.
  - destruct (br_terminal b); [exfalso; now apply xl_term|reflexivity].
  - destruct (xl_late now eq_refl) as [[]|Y]. exact Y.
Qed.
Lemma omin_le a d : exists v, omin a d = Some v /\ v <= d /\ (forall t, a = Some t -> v <= t).
Proof. destruct a as [a|]; cbn; eexists; split; try reflexivity; split; try lia; intros t [= <-]; lia. Qed.
(** the least of several *)
Lemma fold_omin {A} (f : A -> option N) l : forall a, (forall v, a = Some v -> exists u, fold_left (fun a p => match f p with Some d => omin a d | None => a end) l a = Some u /\ u <= v) /\
  forall p d, In p l -> f p = Some d -> exists u, fold_left (fun a p => match f p with Some d => omin a d | None => a end) l a = Some u /\ u <= d.
Proof.
  induction l as [|p l IH]; intros a; cbn [fold_left].
  - split; [intros v ->; exists v; split; [reflexivity|lia]|intros p d []].
  - destruct (IH (match f p with Some d => omin a d | None => a end)) as (H1 & H2). split.
    + intros v ->. destruct (f p) as [d|]; [|apply H1; reflexivity]. destruct (omin_le (Some v) d) as (u & E & L1 & L2). destruct (H1 u E) as (u' & E' & L'). exists u'. split; [exact E'|]. specialize (L2 v eq_refl). lia.
    + intros p' d [->|J] F; [|eauto]. rewrite F in *. destruct (omin_le a d) as (u & E & L1 & L2). destruct (H1 u E) as (u' & E' & L'). exists u'. split; [exact E'|lia].
Qed.
Lemma deadline_timer t q x b d : aget x (q_conns q) = Some b -> br_timeout b = Some d -> exists v, poll_deadline t q = Some v /\ v <= d.
Proof.
  intros G D. apply aget_in in G. unfold poll_deadline. cbv zeta.
  destruct (fold_omin (fun p : N * bridge => br_timeout (snd p)) (q_conns q) t) as (_ & H). destruct (H (x, b) d G D) as (u & E & L). rewrite E. clear H E.
  destruct (fold_omin (fun p : N * N * N => Some (snd p)) (q_dials q) (Some u)) as (H & _). destruct (H u eq_refl) as (u1 & E1 & L1). cbn in E1. rewrite E1. clear H E1.
  assert (WK : forall a, exists v, (match q_last q with Some n => omin (Some a) n | None => Some a end) = Some v /\ v <= a).
  { intros a. destruct (q_last q) as [n|]; [|exists a; split; [reflexivity|lia]]. destruct (omin_le (Some a) n) as (v & E & _ & L2). exists v. split; [exact E|now apply L2]. }
  destruct (WK u1) as (u2 & E2 & L2). assert (K : exists v, (match q_dials q with [] => Some u1 | _ => match q_last q with Some n => omin (Some u1) n | None => Some u1 end end) = Some v /\ v <= u1) by (destruct (q_dials q); [exists u1; split; [reflexivity|lia]|rewrite E2; eauto]).
  destruct K as (u3 & E3 & L3). rewrite E3. destruct (q_pol q); [|exists u3; split; [reflexivity|lia]]. destruct (WK u3) as (u4 & E4 & L4). exists u4. split; [exact E4|lia].
Qed.
Lemma live_timeout b : br_terminal b = false -> exists d, br_timeout b = Some d /\ d <= br_deadline b.
Proof.
  intros T. unfold br_timeout. rewrite T. destruct (br_stream b) as [s|]; [destruct (s_timeout s) as [d|]|]; eexists; split; try reflexivity; lia.
Qed.

(** * Limits *)
Definition inbound (p : N * xmeta) : bool := negb (x_outbound (snd p)).
Definition in_only (q q' : coord) : Prop := forall x m', aget x (q_ex q') = Some m' -> x_outbound m' = false -> exists m, aget x (q_ex q) = Some m /\ x_outbound m = false.
Lemma in_count q q' : NoDup (akeys (q_ex q')) -> in_only q q' -> blen (filter inbound (q_ex q')) <= blen (filter inbound (q_ex q)).
Proof.
  intros ND' H. assert (L : (length (map fst (filter inbound (q_ex q'))) <= length (map fst (filter inbound (q_ex q))))%nat).
  { apply NoDup_incl_length.
    - clear - ND'. unfold akeys in ND'. induction (q_ex q') as [|[k m] r IH]; [constructor|]. cbn [map fst] in ND'. inversion ND'; subst. cbn [filter]. destruct (inbound (k, m)); [|auto]. cbn [map fst]. constructor; [|auto].
      intros J. apply in_map_iff in J as ([k' m'] & E & J). cbn in E. subst k'. apply filter_In in J as (J & _). apply H1. apply in_map_iff. exists (k, m'). auto.
    - intros x J. apply in_map_iff in J as ([k m'] & E & J). cbn in E. subst k. apply filter_In in J as (J & O). unfold inbound in O. cbn in O.
      destruct (H x m' ltac:(now apply aget_of_in) ltac:(now destruct (x_outbound m'))) as (m & G & O'). apply in_map_iff. exists (x, m). split; [reflexivity|]. apply filter_In. split; [now apply aget_in|unfold inbound; cbn; now rewrite O']. }
  rewrite !map_length in L. unfold blen. lia.
Qed.
Lemma in_fr X q q' : fr C X q q' -> in_only q q'.
Proof. intros F x m'. apply F. Qed.
Lemma in_refl q q' : q_ex q' = q_ex q -> in_only q q'.
Proof. intros E x m' G O. rewrite E in G. eauto. Qed.
Lemma in_step q o : NoDup (akeys (q_ex q)) -> (forall from now, o <> QAccept from now) -> in_only q (fst (step q o)).
Proof.
  intros ND NA. pose proof XF as XE. destruct o; cbn [q_step fst]; try (exfalso; eapply NA; reflexivity).
  - apply (in_fr (fun _ => false)). unfold on_data. eapply fr_trans with (b := q_set_last (Some now) q); [now apply fr_still|]. eapply fr_trans; [|now apply fr_tick]. cbv zeta. eapply fr_trans; [now apply fr_on_bridge|now apply fr_still].
  - apply (in_fr (fun _ => false)). unfold on_failure. eapply fr_trans with (b := q_set_last (Some now) q); [now apply fr_still|]. eapply fr_trans; [|now apply fr_tick]. eapply fr_trans; [now apply fr_on_bridge|now apply fr_still].
  - apply (in_fr (fun _ => false)). unfold on_failure. eapply fr_trans with (b := q_set_last (Some now) q); [now apply fr_still|]. eapply fr_trans; [|now apply fr_tick]. eapply fr_trans; [now apply fr_on_bridge|now apply fr_still].
  - pose proof (fr_start C Q W B rnd (fun _ => false) XE (EPushPull peer join now) XPushPull now q Logic.I Logic.I eq_refl) as F. destruct (start _ _ _ _ _ _ _ _ _) as [q1 [r|]]; exact (in_fr _ _ _ F).
  - pose proof (fr_start C Q W B rnd (fun _ => false) XE (EReliable id addr seq deadline) XReliablePing now q Logic.I Logic.I eq_refl) as F. destruct (start _ _ _ _ _ _ _ _ _) as [q1 [r|]]; exact (in_fr _ _ _ F).
  - pose proof (fr_start C Q W B rnd (fun _ => false) XE (EUserMsg peer data now) XUserMessage now q Logic.I Logic.I eq_refl) as F. destruct (start _ _ _ _ _ _ _ _ _) as [q1 [r|]]; exact (in_fr _ _ _ F).
  - apply (in_fr (fun _ => false)). unfold on_timeout. cbv zeta. eapply fr_trans; [|now apply fr_tick]. eapply fr_trans with (b := q_set_last (Some now) q); [now apply fr_still|]. apply fr_fold. intros. now apply fr_still.
  - rewrite leave_split. intros x m' G O. assert (E : q_ex (call_ C None (ELeave now farewell) (before_leave now q)) = q_ex (before_leave now q)) by (unfold call_; rewrite call_eq; reflexivity). rewrite E in G.
    exact (in_fr _ _ _ (fr_before_leave C (fun _ => false) now q) x m' G O).
  - destruct (fr_encrypt C (fun _ => false) kr q) as [F|F]; exact (in_fr _ _ _ F).
  - apply in_refl. unfold on_gossip. cbv zeta. destruct (negb _); [reflexivity|]. destruct (_ <=? _); reflexivity.
  - apply in_refl. unfold poll_bytes. destruct (q_out q); reflexivity.
  - apply in_refl. unfold poll_action. destruct (q_con q) as [|[[x p] sid] r]; [|reflexivity]. destruct (take_first _ _) as [[t r]|]; reflexivity.
  - apply in_refl. unfold poll_event. pose proof (poll_book C (fun _ => false) XE (S (length (k_ev (e_core (q_ep q))))) q) as H. destruct (poll_event_loop _ _ _) as [q1 [r|]]; apply H.
  - apply in_refl. unfold poll_ingress. destruct (q_ing q); reflexivity.
  - apply in_refl. unfold requeue. cbv zeta. destruct ev; try (unfold call_; rewrite call_eq; reflexivity). destruct (negb _); reflexivity.
  - apply in_refl. destruct (plain o); [|reflexivity]. rewrite call_eq. destruct last; reflexivity.
  - exact (in_fr _ _ _ (fr_reorder C (fun _ => false) f q ND)).
Qed.
Lemma in_run os : forall q max, good q -> qc_max_in Q = Some max -> blen (filter inbound (q_ex q)) <= max -> blen (filter inbound (q_ex (fst (run q os)))) <= max.
Proof.
  induction os as [|o os IH]; intros q max G M H; [exact H|]. cbn [q_run]. pose proof (good_step C Q W B rnd o q G) as G1. assert (H1 : blen (filter inbound (q_ex (fst (step q o)))) <= max).
  { destruct o as [| | |from now| | | | | | | | | | | | | |]; try (eapply N.le_trans; [eapply in_count; [exact (good_nx C _ G1)|apply in_step; [exact (good_nx C q G)|discriminate]]|exact H]).
    clear IH. assert (AC := good_nx C _ G1). revert AC. cbn [q_step]. unfold accept. cbv zeta. rewrite M. destruct (negb _); [intros _; exact H|]. change (fun p : N * xmeta => negb (x_outbound (snd p))) with inbound. change (q_ex (q_set_last (Some now) q)) with (q_ex q).
    destruct (N.leb_spec max (blen (filter inbound (q_ex q)))) as [L|L]; [intros _; exact H|]. cbn [fst q_ex q_set_ex mark_unminted q_set_unminted q_set_conns q_set_next q_next q_set_last]. intros ND.
    assert (K : forall (l : amap xmeta) x m, inbound (x, m) = true -> blen (filter inbound (aset x m l)) <= blen (filter inbound l) + 1).
    { clear. intros l x m I. unfold aset. cbn [filter]. rewrite I. assert (H : blen (filter inbound (adel x l)) <= blen (filter inbound l)); [|unfold blen in *; cbn [length]; lia].
      induction l as [|[k v] l IH]; [cbn; lia|]. cbn [adel filter]. destruct (x =? k); cbn [filter]; destruct (inbound (k, v)); unfold blen in *; cbn [length]; lia. }
    specialize (K (q_ex q) (q_next q) (mkX from (Some (MIn from)) false None false) eq_refl). lia. }
  destruct (step q o) as [q1 y1]. cbn [fst] in *. specialize (IH q1 max G1 M H1). destruct (run q1 os) as [q2 y2]. exact IH.
Qed.
Lemma ing_step q o : blen (q_ing q) <= MAX_INGRESS -> blen (q_ing (fst (step q o))) <= MAX_INGRESS.
Proof.
  intros H. pose proof XF as XE. assert (K : forall q', fr C (fun _ => false) q q' -> blen (q_ing q') <= MAX_INGRESS) by (intros q' F; now rewrite (fr_ing _ _ _ _ F)).
  destruct o; cbn [q_step fst].
  - apply K. unfold on_data. eapply fr_trans with (b := q_set_last (Some now) q); [now apply fr_still|]. eapply fr_trans; [|now apply fr_tick]. cbv zeta. eapply fr_trans; [now apply fr_on_bridge|now apply fr_still].
  - apply K. unfold on_failure. eapply fr_trans with (b := q_set_last (Some now) q); [now apply fr_still|]. eapply fr_trans; [|now apply fr_tick]. eapply fr_trans; [now apply fr_on_bridge|now apply fr_still].
  - apply K. unfold on_failure. eapply fr_trans with (b := q_set_last (Some now) q); [now apply fr_still|]. eapply fr_trans; [|now apply fr_tick]. eapply fr_trans; [now apply fr_on_bridge|now apply fr_still].
  - unfold accept. cbv zeta. destruct (negb _); [exact H|]. destruct (match qc_max_in Q with Some _ => _ | None => _ end); exact H.
  - pose proof (fr_start C Q W B rnd (fun _ => false) XE (EPushPull peer join now) XPushPull now q Logic.I Logic.I eq_refl) as F. destruct (start _ _ _ _ _ _ _ _ _) as [q1 [r|]]; exact (K _ F).
  - pose proof (fr_start C Q W B rnd (fun _ => false) XE (EReliable id addr seq deadline) XReliablePing now q Logic.I Logic.I eq_refl) as F. destruct (start _ _ _ _ _ _ _ _ _) as [q1 [r|]]; exact (K _ F).
  - pose proof (fr_start C Q W B rnd (fun _ => false) XE (EUserMsg peer data now) XUserMessage now q Logic.I Logic.I eq_refl) as F. destruct (start _ _ _ _ _ _ _ _ _) as [q1 [r|]]; exact (K _ F).
  - apply K. unfold on_timeout. cbv zeta. eapply fr_trans; [|now apply fr_tick]. eapply fr_trans with (b := q_set_last (Some now) q); [now apply fr_still|]. apply fr_fold. intros. now apply fr_still.
  - rewrite leave_split. assert (E : q_ing (call_ C None (ELeave now farewell) (before_leave now q)) = q_ing (before_leave now q)) by (unfold call_; rewrite call_eq; reflexivity). rewrite E, (fr_ing _ _ _ _ (fr_before_leave C (fun _ => false) now q)). cbn. discriminate.
  - destruct (fr_encrypt C (fun _ => false) kr q) as [F|F]; [exact (K _ F)|]. rewrite (fr_ing _ _ _ _ F). cbn. discriminate.
  - unfold on_gossip. cbv zeta. destruct (negb _); [exact H|]. destruct (N.leb_spec MAX_INGRESS (blen (q_ing (q_set_last (Some now) q)))) as [L|L]; [exact H|]. cbn [q_ing q_set_ing q_set_last] in *. unfold blen in *. rewrite app_length. cbn [length]. lia.
  - unfold poll_bytes. destruct (q_out q); exact H.
  - unfold poll_action. destruct (q_con q) as [|[[x p] sid] r]; [|exact H]. destruct (take_first _ _) as [[t r]|]; exact H.
  - unfold poll_event. pose proof (poll_book C (fun _ => false) XE (S (length (k_ev (e_core (q_ep q))))) q) as E. destruct (poll_event_loop _ _ _) as [q1 [r|]]; destruct E as (_ & _ & E); cbn [fst]; rewrite E; exact H.
  - unfold poll_ingress. destruct (q_ing q) as [|a l] eqn:E; [cbn [fst]; now rewrite E|]. cbn [fst q_ing q_set_ing]. unfold blen in *. cbn [length] in H. lia.
  - unfold requeue. cbv zeta. destruct ev; try (unfold call_; rewrite call_eq; exact H). destruct (negb _); exact H.
  - destruct (plain o); [|exact H]. rewrite call_eq. destruct last; exact H.
  - exact H.
Qed.
Lemma ing_run os : forall q, blen (q_ing q) <= MAX_INGRESS -> blen (q_ing (fst (run q os))) <= MAX_INGRESS.
Proof.
  induction os as [|o os IH]; intros q H; [exact H|]. cbn [q_run]. pose proof (ing_step q o H) as H1. destruct (step q o) as [q1 y1]. specialize (IH q1 H1). destruct (run q1 os). exact IH.
Qed.

(** * An exchange that ends is reported *)
Lemma drained_kind X q : (forall id p d, X (EvDial id p d) = false) -> snd (step q QPollEvent) = [YNone] -> kind X (q_ep q) = [].
Proof.
  intros XD. cbn [q_step]. unfold poll_event. assert (H : forall n q, (length (k_ev (e_core (q_ep q))) < n)%nat -> snd (poll_event_loop C n q) = None -> filter X (k_ev (e_core (q_ep q))) = []).
  { clear q. induction n as [|n IH]; intros q L E; [lia|]. cbn [poll_event_loop] in E. rewrite call_eq in E. pose proof (poll_tl C (q_ep q)) as TL. set (q1 := q_set_log _ _) in E. assert (E1 : q_ep q1 = fst (ep_step C (q_ep q) EPollEvent)) by reflexivity. clearbody q1.
    cbn [ep_step snd] in E. destruct (k_ev (e_core (q_ep q))) as [|ev r]; [reflexivity|]. destruct ev; try discriminate E. cbn [filter]. rewrite XD. cbn [tl] in TL.
    specialize (IH (q_set_dials (q_dials q1 ++ [(id, peer, deadline)]) q1)). cbn [q_ep q_set_dials] in IH. rewrite E1, TL in IH. apply IH; [cbn in L; lia|exact E]. }
  specialize (H (S (length (k_ev (e_core (q_ep q))))) q (Nat.lt_succ_diag_r _)). destruct (poll_event_loop C _ q) as [q1 [r|]]; cbn [fst snd opt]; [discriminate|]. intros _. now apply H.
Qed.
Lemma end_reported os q x m k : good q -> aget x (q_ex q) = Some m -> x_kind m = Some k -> (forall now fw, ~ In (QLeave now fw) os) ->
  aget x (q_ex (fst (run q os))) = None -> Forall tagged (q_log q) -> exists ok, In (Some x, ERequeue (EvExchange x (x_peer m) ok k)) (q_log (fst (run q os))).
Proof.
  intros G M K NL GN TG. pose proof (good_e C q G) as EI. destruct (run_books (fun _ => false) ltac:(discriminate) os q G) as (T & A & MT & _). specialize (T TG). destruct G as (h & c & I).
  pose proof (ex_live _ _ _ _ _ _ _ _ (proj1 I) M) as (b & GB). pose proof (live_lt _ _ _ _ _ _ _ _ (proj1 I) GB) as LT. destruct (live_of _ _ _ _ _ _ _ _ (proj1 I) GB) as (m' & side & M' & LV). rewrite M in M'. injection M' as <-.
  pose proof (xl_count _ _ _ _ _ _ _ _ _ _ LV) as CN. cbn [sl sl_log] in CN. clear LV.
  set (wk := mkWatch (fun _ => False) (fun _ => False) (fun y => y = x) (fun _ => False) None h c).
  assert (I' : qok (w_add (acts_in (snd (run q os))) wk) (fst (run q os))).
  { apply run_ok; [reflexivity| |].
    - apply Forall_forall. intros o J. destruct o; cbn; auto; [destruct eof; auto|]. exfalso. eapply NL, J.
    - eapply (rewatch_ok C rnd); [| | | | | | |exact I]; cbn; auto; try contradiction; try discriminate; try (intros; contradiction). intros y ->. split; [exact LT|]. right. exists m. split; [exact M|congruence]. }
  set (q' := fst (run q os)) in *. assert (L' : x < q_next q') by (pose proof (mt_next _ _ MT); lia). pose proof (xo_x _ _ _ _ _ _ _ (qi_x _ _ _ _ _ _ (proj1 I') x L')) as X. cbn [sl sl_b sl_m] in X. rewrite GN in X.
  destruct (aget x (q_conns q')); [contradiction|]. pose proof (xd_kin _ _ _ X eq_refl) as KN. cbn [sl sl_log] in KN.
  destruct (filter exch (logs_of x (q_log q'))) as [|o r] eqn:F; [congruence|]. assert (J : In o (filter exch (logs_of x (q_log q')))) by (rewrite F; now left). apply filter_In in J as (J & EX). apply in_logs in J.
  destruct o; try discriminate. destruct ev as [| | | | | | | | | |y peer ok k']; try discriminate. rewrite Forall_forall in T. pose proof (T _ J) as TX. cbn in TX. subst y.
  destruct (mt_told _ _ MT) as (l & L & TD). rewrite L in J. apply in_app_iff in J as [J|J].
  - exfalso. apply in_logs in J. assert (Z : In (ERequeue (EvExchange x peer ok k')) (filter exch (logs_of x (q_log q)))) by now apply filter_In. rewrite CN in Z. contradiction.
  - rewrite Forall_forall in TD. pose proof (TD _ J) as TT. cbn in TT. destruct TT as [(m0 & G0 & P0 & K0)|LE]; [|lia]. rewrite M in G0. injection G0 as <-. rewrite K in K0. injection K0 as <-. subst peer. exists ok. rewrite L. apply in_app_iff. now right.
Qed.
End Reports.
