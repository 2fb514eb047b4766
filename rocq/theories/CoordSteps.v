(** What every call of the driver preserves. *)
From Verif Require Import CodecModel.
From Verif Require Import Base MapModel MapFacts CoreModel CoreFacts EndpointModel EndpointInv EndpointRuns StreamFacts BridgeModel BridgeFacts CoordModel CoordFacts CoordRuns.
Local Open Scope N_scope.

Section Steps.
Context (C : cfg) (Q : qcfg) (W : wcodec) (B : backends) (rnd : N -> N -> option bytes).
Local Notation qinv := (qinv C).
Local Notation qok := (qok C).
Local Notation near := (near C).
Local Notation adv := (adv C).

(** ** Changing what is watched *)
Lemma rewatch w w' U D P q : w_hist w' = w_hist w -> w_cons w' = w_cons w ->
  (forall x, w_sil w' x -> x < q_next q /\ (w_sil w x \/ outs_of x (q_out q) = [] /\ forall b, aget x (q_conns q) = Some b -> mute b)) ->
  (forall x, w_kin w' x -> x < q_next q /\ (w_kin w x \/ exists m, aget x (q_ex q) = Some m /\ x_kind m <> None)) ->
  (forall x, w_gat w' x -> w_gat w x) ->
  (forall x, w_fld w' x -> x < q_next q /\ (w_fld w x \/ exists b, aget x (q_conns q) = Some b /\ br_failed b = true)) ->
  (forall now, w_late w' = Some now -> forall x b, aget x (q_conns q) = Some b -> In x (D ++ q_dirty q) \/ now < br_deadline b) ->
  qinv w U D P q -> qinv w' U D P q.
Proof.
  intros HH HC HS HK HG HF HL I. constructor; try apply I.
  - intros x L. destruct (qi_fresh _ _ _ _ _ _ I x L) as (E1 & E2 & E3 & E4 & E5 & E6). rewrite HH, HC. split; [exact E1|]. split; [exact E2|].
    split; [intros X; apply HS in X; lia|]. split; [intros X; apply HK in X; lia|]. split; [intros X; apply HF in X; lia|exact E6].
  - intros x L. destruct (qi_x _ _ _ _ _ _ I x L) as [X1 X2 X3 X4]. constructor; rewrite ?HH, ?HC; auto.
    + intros S. destruct (HS x S) as (_ & [S'|(S' & _)]); [auto|exact S'].
    + cbn [sl sl_b sl_m sl_td sl_log sl_out sl_con] in *. destruct (aget x (q_conns q)) as [b|] eqn:G, (aget x (q_ex q)) as [m|] eqn:M; auto.
      * destruct X4 as (side & L1). exists side. destruct L1. constructor; auto.
        -- rewrite HH. exact xl_T.
        -- intros K. destruct (HK x K) as (_ & [K'|(m' & M' & K')]); [auto|congruence].
        -- intros S. destruct (HS x S) as (_ & [S'|(_ & S')]); [auto|auto].
        -- intros S. destruct (HF x S) as (_ & [S'|(b' & G' & S')]); [auto|congruence].
      * destruct X4. constructor; auto; [now rewrite HH| |].
        -- intros K. destruct (HK x K) as (_ & [K'|(m' & M' & _)]); [auto|congruence].
        -- intros K. destruct (HF x K) as (_ & [K'|(m' & M' & _)]); [auto|congruence].
Qed.
Lemma rewatch_ok w w' q : w_hist w' = w_hist w -> w_cons w' = w_cons w ->
  (forall x, w_sil w' x -> x < q_next q /\ (w_sil w x \/ outs_of x (q_out q) = [] /\ forall b, aget x (q_conns q) = Some b -> mute b)) ->
  (forall x, w_kin w' x -> x < q_next q /\ (w_kin w x \/ exists m, aget x (q_ex q) = Some m /\ x_kind m <> None)) ->
  (forall x, w_gat w' x -> w_gat w x) ->
  (forall x, w_fld w' x -> x < q_next q /\ (w_fld w x \/ exists b, aget x (q_conns q) = Some b /\ br_failed b = true)) ->
  (forall now, w_late w' = Some now -> forall x b, aget x (q_conns q) = Some b -> In x (q_dirty q) \/ now < br_deadline b) ->
  qok w q -> qok w' q.
Proof. intros H1 H2 H3 H4 H5 H6 H7 (I & S). split; [eapply rewatch; eauto|exact S]. Qed.

(** ** Steps that touch no exchange *)
Lemma still_settled q q' : gl q' = gl q -> (forall x, sl x q' = sl x q) -> settled q -> settled q'.
Proof.
  intros G SL []. unfold gl in G. injection G as G1 G2 G3 G4 G5 G6. constructor.
  - congruence.
  - intros x b J Y. rewrite G2 in J. change (sl_b (sl x q') = Some b) in Y. rewrite SL in Y. eauto.
  - intros x J. rewrite G2 in J. rewrite G1. auto.
  - intros x m J Y. rewrite G4 in J. change (sl_m (sl x q') = Some m) in Y. rewrite SL in Y. eauto.
Qed.
Lemma still_ok w q q' : adv q q' -> gl q' = gl q -> (forall x, sl x q' = sl x q) -> NoDup (akeys (q_conns q')) -> NoDup (akeys (q_ex q')) -> qok w q -> qok w q'.
Proof. intros A G SL N1 N2 (I & S). split; [eapply (still C rnd); eauto|eapply still_settled; eauto]. Qed.
Lemma set_last_ok w v q : qok w q -> qok w (q_set_last v q).
Proof. intros I. eapply still_ok with (q := q); [now apply adv_same|reflexivity|reflexivity|apply I|apply I|exact I]. Qed.
Lemma set_ing_ok w v q : qok w q -> qok w (q_set_ing v q).
Proof. intros I. eapply still_ok with (q := q); [now apply adv_same|reflexivity|reflexivity|apply I|apply I|exact I]. Qed.
Lemma dials_ok w v q : qok w q -> qok w (q_set_dials v q).
Proof. intros I. eapply still_ok with (q := q); [now apply adv_same|reflexivity|reflexivity|apply I|apply I|exact I]. Qed.
Lemma set_kr_ok w v q : qok w q -> qok w (q_set_kr v q).
Proof. intros I. eapply still_ok with (q := q); [now apply adv_same|reflexivity|reflexivity|apply I|apply I|exact I]. Qed.
Lemma pol_ok w v q : qok w q -> qok w (q_set_pol v q).
Proof. intros I. eapply still_ok with (q := q); [now apply adv_same|reflexivity|reflexivity|apply I|apply I|exact I]. Qed.
Lemma call_ok w o q : qok w q -> qok w (call_ C None o q).
Proof.
  intros I. eapply still_ok; [apply adv_call|apply gl_call| | | |exact I].
  - intros x. rewrite sl_call. cbn. now rewrite app_nil_r.
  - unfold call_. rewrite call_eq. apply I.
  - unfold call_. rewrite call_eq. apply I.
Qed.
Lemma reorder_ok w f q : qok w q -> qok w (q_set_conns (shuffle f (q_conns q)) (q_set_ex (shuffle f (q_ex q)) q)).
Proof.
  intros I. pose proof (qi_nc _ _ _ _ _ _ (proj1 I)) as N1. pose proof (qi_nx _ _ _ _ _ _ (proj1 I)) as N2.
  eapply still_ok with (q := q); [now apply adv_same|reflexivity| | | |exact I].
  - intros x. unfold sl. cbn. f_equal; apply perm_aget; auto using shuffle_perm.
  - cbn. eapply perm_nodup_keys; [apply shuffle_perm|exact N1].
  - cbn. eapply perm_nodup_keys; [apply shuffle_perm|exact N2].
Qed.
Lemma poll_loop_ok w n : forall q, qok w q -> qok w (fst (poll_event_loop C n q)).
Proof.
  induction n as [|n IH]; intros q I; [exact I|]. cbn [poll_event_loop]. assert (I1 := call_ok w EPollEvent q I). unfold call_ in I1.
  destruct (call C None EPollEvent q) as [q1 outs]. cbn [fst] in I1. destruct outs as [|[] [|]]; try exact I1; match goal with |- context [match ?e with EvDial _ _ _ => _ | _ => _ end] => destruct e end; try exact I1. apply IH, dials_ok, I1.
Qed.
Lemma requeue_ok w ev now q : qok w q -> qok w (requeue C ev now q).
Proof.
  intros I. unfold requeue. pose proof (set_last_ok w (Some now) q I) as I1. destruct ev; try (apply call_ok; exact I1).
  destruct (negb _); [exact I1|]. now apply dials_ok.
Qed.

(** ** Bytes, connects and teardowns handed to the driver *)
Lemma xok_less w w' e un du pu x s s' : sl_b s' = sl_b s -> sl_m s' = sl_m s -> sl_log s' = sl_log s -> (count_occ N.eq_dec (w_cons w') x + length (sl_con s') <= count_occ N.eq_dec (w_cons w) x + length (sl_con s))%nat ->
  (sl_con s = [] -> sl_con s' = []) -> (tds_of x (w_hist w') <> [] -> tds_of x (w_hist w) <> [] \/ sl_con s' = []) -> (sl_out s = [] -> sl_out s' = []) ->
  tds_of x (w_hist w') ++ sl_td s' = tds_of x (w_hist w) ++ sl_td s -> w_sil w' = w_sil w -> w_gat w' = w_gat w -> w_kin w' = w_kin w -> w_fld w' = w_fld w -> w_late w' = w_late w ->
  xok w e un du pu x s -> xok w' e un du pu x s'.
Proof.
  intros E1 E2 E3 E4 E4' E4'' E5 E6 F1 F2 F3 F3' F4 [X1 X2 X3 X4]. constructor; rewrite ?F1, ?F2, ?E3; auto.
  { destruct X1 as (X1 & X1'). split; [lia|]. intros Y. destruct (E4'' Y); auto. }
  rewrite E1, E2.
  destruct (sl_b s) as [b|], (sl_m s) as [m|]; auto.
  - destruct X4 as (side & L). exists side. destruct L. constructor; rewrite ?E6, ?E3, ?F1, ?F2, ?F3, ?F3', ?F4; auto.
  - destruct X4. constructor; rewrite ?E6, ?E3, ?F3, ?F3'; auto.
Qed.
Lemma less_ok w w' q q' : adv q q' -> gl q' = gl q -> q_conns q' = q_conns q -> q_ex q' = q_ex q -> q_log q' = q_log q ->
  (forall x, (count_occ N.eq_dec (w_cons w') x + length (cons_of x (q_con q')) <= count_occ N.eq_dec (w_cons w) x + length (cons_of x (q_con q)))%nat) ->
  (forall x, cons_of x (q_con q) = [] -> cons_of x (q_con q') = []) -> (forall x, tds_of x (w_hist w') <> [] -> tds_of x (w_hist w) <> [] \/ cons_of x (q_con q') = []) -> (forall x, outs_of x (q_out q) = [] -> outs_of x (q_out q') = []) ->
  (forall x, tds_of x (w_hist w') ++ tds_of x (q_td q') = tds_of x (w_hist w) ++ tds_of x (q_td q)) ->
  w_sil w' = w_sil w -> w_gat w' = w_gat w -> w_kin w' = w_kin w -> w_fld w' = w_fld w -> w_late w' = w_late w ->
  qok w q -> qok w' q'.
Proof.
  intros A G E1 E2 E3 E4 E4' E4'' E5 E6 F1 F2 F3 F3' F4 (I & S). pose proof G as G0. unfold gl in G0. injection G0 as G1 G2 G3 G4 G5 G6. split.
  - constructor; rewrite ?E1, ?E2, ?G1, ?G2, ?G3, ?G4, ?G6; try apply I.
    + eapply adv_einv; [exact A|apply I].
    + intros id kd K. rewrite G5 in K. eapply adv_kindok; [exact A|apply I|now apply (qi_kinds _ _ _ _ _ _ I)].
    + intros x L. destruct (qi_fresh _ _ _ _ _ _ I x L) as (Y1 & Y2 & Y3 & Y4 & Y5 & Y6). unfold sl, empty in Y1. injection Y1 as Z1 Z2 Z3 Z4 Z5 Z6.
      specialize (E4 x). specialize (E4' x Z4). rewrite E4', Z4, Y6 in E4. cbn in E4. specialize (E5 x Z3). specialize (E6 x). rewrite Y2, Z5 in E6. apply app_eq_nil in E6 as (Y7 & Y8). rewrite F1, F3, F3'.
      split; [|split; [exact Y7|split; [exact Y3|split; [exact Y4|split; [exact Y5|lia]]]]]. unfold sl, empty. now rewrite E1, E2, E3, E5, E4', Y8, Z1, Z2, Z6.
    + intros x L. eapply (xok_mono C rnd); [exact A|apply I|reflexivity|reflexivity|reflexivity|]. eapply xok_less; [..|apply (qi_x _ _ _ _ _ _ I x L)]; cbn [sl sl_b sl_m sl_log sl_con sl_out sl_td]; auto; congruence.
  - destruct S. constructor; rewrite ?G1, ?G3, ?G2, ?E1; auto. intros x m J Y. rewrite G4 in J. rewrite E2 in Y. eauto.
Qed.
Lemma poll_bytes_ok w q : qok w q -> qok w (fst (poll_bytes q)).
Proof.
  intros I. unfold poll_bytes. destruct (q_out q) as [|t r] eqn:E; [exact I|]. cbn [fst].
  eapply less_ok with (q := q) (w := w); try reflexivity; try exact I; auto; [now apply adv_same|].
  intros x H. cbn. rewrite E in H. change (t :: r) with ([t] ++ r) in H. rewrite outs_app in H. now apply app_eq_nil in H.
Qed.
Definition w_add (l : list teardown * list N) (w : watch) : watch := mkWatch (w_sil w) (w_gat w) (w_kin w) (w_fld w) (w_late w) (w_hist w ++ fst l) (w_cons w ++ snd l).
Lemma take_first_tds q t r x : forall l, take_first (fun t => negb (has_bytes (td_ex t) q)) l = Some (t, r) -> tds_of x l = (if td_ex t =? x then [t] else []) ++ tds_of x r.
Proof.
  intros l. revert r. induction l as [|a l IH]; intros r E; [discriminate|]. cbn [take_first] in E. change (a :: l) with ([a] ++ l). rewrite tds_app, tds_one.
  destruct (has_bytes (td_ex a) q) eqn:HB; cbn [negb] in E.
  - destruct (take_first _ l) as [[t' r']|] eqn:T; [|discriminate]. injection E as -> <-. rewrite (IH r' eq_refl). change (a :: r') with ([a] ++ r'). rewrite tds_app, tds_one.
    destruct (N.eqb_spec (td_ex a) x) as [EA|EA], (N.eqb_spec (td_ex t) x) as [ET|ET]; try reflexivity.
    exfalso. clear IH. assert (X : has_bytes (td_ex t) q = false). { clear - T. revert r' T. induction l as [|c l IH]; intros r' T; [discriminate|]. cbn in T. destruct (has_bytes (td_ex c) q) eqn:H; cbn in T; [|injection T as -> _; exact H].
      destruct (take_first _ l) as [[t1 r1]|]; [|discriminate]. injection T as -> _. eapply IH. reflexivity. }
    rewrite ET, <- EA in X. congruence.
  - injection E as -> ->. reflexivity.
Qed.
Definition td_in (ys : list qout) : list teardown := flat_map (fun y => match y with YAction (ATeardown t) => [t] | _ => [] end) ys.
Definition con_in (ys : list qout) : list N := flat_map (fun y => match y with YAction (AConnect x _ _) => [x] | _ => [] end) ys.
Definition acts_in (ys : list qout) : list teardown * list N := (td_in ys, con_in ys).
Lemma poll_action_ok w q : qok w q -> qok (w_add (acts_in (opt YAction (snd (poll_action q)))) w) (fst (poll_action q)).
Proof.
  intros I. unfold poll_action. destruct (q_con q) as [|[[x p] sid] r] eqn:E.
  - destruct (take_first _ (q_td q)) as [[t r]|] eqn:T; cbn [fst snd opt acts_in td_in con_in flat_map app].
    + eapply less_ok with (q := q) (w := w); try reflexivity; try exact I; auto.
      * now apply adv_same.
      * intros x. cbn. rewrite app_nil_r. lia.
      * intros x _. right. cbn. now rewrite E.
      * intros x. cbn. rewrite tds_app, tds_one, (take_first_tds q t r x _ T), app_assoc. reflexivity.
    + destruct w. unfold w_add. cbn. rewrite !app_nil_r. exact I.
  - cbn [fst snd opt acts_in td_in con_in flat_map app]. eapply less_ok with (q := q) (w := w); try reflexivity; try exact I; auto.
    + now apply adv_same.
    + intros y. cbn [w_add w_cons fst snd q_set_con q_con]. rewrite E, count_occ_app. change ((x, p, sid) :: r) with ([(x, p, sid)] ++ r). rewrite cons_app, cons_one, app_length. change (snd (acts_in (opt YAction (Some (AConnect x p sid))))) with [x]. cbn [count_occ fst].
      destruct (N.eq_dec x y) as [->|NE]; [rewrite N.eqb_refl; cbn; lia|]. destruct (N.eqb_spec x y); [congruence|]. cbn. lia.
    + intros y Y. cbn [q_set_con q_con]. rewrite E in Y. change ((x, p, sid) :: r) with ([(x, p, sid)] ++ r) in Y. rewrite cons_app in Y. now apply app_eq_nil in Y.
    + intros y Y. left. cbn in Y. now rewrite app_nil_r in Y.
    + intros y. cbn. now rewrite app_nil_r.
Qed.

(** ** Bytes and failures from the connection *)
Lemma xok_du w e un (du du' : Prop) pu x s : (du -> du') -> xok w e un du pu x s -> xok w e un du' pu x s.
Proof.
  intros HD [X1 X2 X3 X4]. constructor; auto. destruct (sl_b s) as [b|], (sl_m s) as [m|]; auto. destruct X4 as (side & L). exists side. destruct L. constructor; auto.
  - clear - xl_sout HD. tauto.
  - clear - xl_rout HD. tauto.
  - clear - xl_shut HD. tauto.
  - intros now E. specialize (xl_late now E). clear - xl_late HD. tauto.
Qed.
Lemma mark_ok w U D P x q : qinv w U D P q -> qinv w U D P (mark_dirty x q).
Proof.
  intros I. constructor; try apply I. intros y L. apply xok_du with (du := In y (D ++ q_dirty q)); [|apply (qi_x _ _ _ _ _ _ I y L)].
  cbn [mark_dirty q_set_dirty q_dirty]. rewrite !in_app_iff, (in_oset rnd). clear. tauto.
Qed.
Lemma poke_ok w x f q : qinv w [] [] [] q -> inb q ->
  (forall b side, aget x (q_conns q) = Some b -> binv side b -> (side = None \/ br_stream b <> None \/ br_terminal b = true) ->
     binv side (f b) /\ onward b (f b) /\ (br_terminal b = true -> br_terminal (f b) = true) /\ (br_failed b = true -> br_failed (f b) = true) /\ (mute b -> mute (f b)) /\ (w_gat w x -> noeof b -> noeof (f b))) ->
  qinv w [] [] [] (mark_dirty x (on_bridge f x q)).
Proof.
  intros I IB H. unfold on_bridge. destruct (aget x (q_conns q)) as [b|] eqn:G; [|now apply mark_ok].
  destruct (live_of _ _ _ _ _ _ _ _ I G) as (m & side & M & L). pose proof (live_lt _ _ _ _ _ _ _ _ I G) as LT. pose proof (qi_x _ _ _ _ _ _ I x LT) as XO.
  assert (PRE : side = None \/ br_stream b <> None \/ br_terminal b = true).
  { destruct (br_stream b) eqn:S; [right; left; discriminate|]. destruct (br_terminal b) eqn:T; [auto|]. left. pose proof (xl_un _ _ _ _ _ _ _ _ _ _ L S T) as J. cbn in J.
    pose proof (IB x m J M) as O. rewrite (xl_out _ _ _ _ _ _ _ _ _ _ L) in O. destruct side; [discriminate|reflexivity]. }
  destruct (H b side eq_refl (xl_b _ _ _ _ _ _ _ _ _ _ L) PRE) as (B1 & (S1 & FN) & T1 & F1 & MU & NE). clear H PRE.
  eapply (touch C rnd) with (x := x); try exact I; auto.
  - now apply adv_same.
  - cbn. apply nodup_aset, I.
  - apply I.
  - apply I.
  - apply I.
  - apply I.
  - intros y YN. unfold sl. cbn. now rewrite aget_aset_ne.
  - reflexivity.
  - intros y YN. cbn. rewrite (in_oset rnd). clear - YN. intuition congruence.
  - reflexivity.
  - destruct XO as [O1 O2 O3 _]. cbn [mark_dirty q_set_dirty q_set_conns q_ep q_unminted q_dirty q_pumped app] in *. assert (DU : In x (oset x (q_dirty q))) by (apply (in_oset rnd); auto).
    constructor; auto. cbn [sl sl_b sl_m mark_dirty q_set_dirty q_set_conns q_conns q_ex]. rewrite aget_aset_eq, M. exists side. destruct L. cbn [app] in *.
    constructor; cbn [sl sl_b sl_m sl_out sl_con sl_td sl_log mark_dirty q_set_dirty q_set_conns q_conns q_ex q_out q_con q_td q_log] in *; auto.
    + destruct (x_mint m) as [[sid|]|]; tauto.
    + intros k kd E1 E2 E3. apply xl_kind; auto. tauto.
    + intros E1 E2. apply xl_un; [tauto|]. destruct (br_terminal b); [|reflexivity]. rewrite T1 in E2 by reflexivity. discriminate.
    + intros U. apply S1. auto.
    + destruct xl_T as (n & T & HN). exists n. split; [exact T|]. destruct HN as [?|(? & ?)]; auto.
Qed.
Definition poured (data : bytes) (eof : bool) (now : N) (b : bridge) : bridge :=
  let b := match data with [] => b | _ => br_data W B data now b end in if eof then br_data W B [] now b else b.
Lemma data_terminal data now b : br_terminal b = true -> br_data W B data now b = b.
Proof. intros T. unfold br_data. now rewrite T. Qed.
Lemma poured_spec data eof now b side : binv side b -> (side = None \/ br_stream b <> None \/ br_terminal b = true) ->
  let b' := poured data eof now b in
  binv side b' /\ onward b b' /\ (br_terminal b = true -> br_terminal b' = true) /\ (br_failed b = true -> br_failed b' = true) /\ (mute b -> mute b') /\ (eof = false -> noeof b -> noeof b').
Proof.
  intros I PRE. unfold poured. set (b1 := match data with [] => b | _ => br_data W B data now b end).
  assert (H1 : binv side b1 /\ onward b b1 /\ (br_terminal b = true -> b1 = b) /\ (mute b -> mute b1) /\ (noeof b -> noeof b1)).
  { subst b1. destruct data as [|d data]; [split; [exact I|split; [apply onward_refl|auto]]|].
    split; [now apply (data_inv W B rnd)|]. split; [apply (onward_data W B rnd)|]. split; [apply data_terminal|]. split; [eapply (mute_data W B rnd); eauto|apply noeof_data]. }
  clearbody b1. destruct H1 as (I1 & O1 & T1 & M1 & N1). destruct eof.
  - assert (PRE1 : side = None \/ br_stream b1 <> None \/ br_terminal b1 = true).
    { destruct PRE as [PRE|[PRE|PRE]]; [auto|right; left; intros S; apply PRE, O1, S|]. right. right. now rewrite T1. }
    split; [now apply (data_inv W B rnd)|]. split; [eapply onward_trans; [exact O1|apply (onward_data W B rnd)]|].
    split; [intros T; rewrite T1 by exact T; now rewrite data_terminal|]. split; [intros F; rewrite T1 by (now apply failed_terminal); rewrite data_terminal; [exact F|now apply failed_terminal]|].
    split; [intros M; eapply (mute_data W B rnd); eauto|discriminate].
  - split; [exact I1|]. split; [exact O1|]. split; [intros T; now rewrite T1|]. split; [intros F; rewrite T1; [exact F|now apply failed_terminal]|]. auto.
Qed.
Lemma on_data_ok w x data eof now q : calm now w -> (eof = true -> ~ w_gat w x) -> qok w q -> qok w (on_data C Q W B rnd x data eof now q).
Proof.
  intros LA NG I. apply (set_last_ok w (Some now)) in I. unfold on_data. apply tick_qok; [exact LA|]. apply poke_ok; [apply I|apply I|].
  intros b side G IB PRE. destruct (poured_spec data eof now b side IB PRE) as (A1 & A2 & A3 & A4 & A5 & A6). repeat (split; [assumption|]).
  intros WG. apply A6. destruct eof; [exfalso; now apply NG|reflexivity].
Qed.
Lemma on_failure_ok w r x now q : calm now w -> qok w q -> qok w (on_failure C Q W B rnd r x now q).
Proof.
  intros LA I. apply (set_last_ok w (Some now)) in I. unfold on_failure. apply tick_qok; [exact LA|]. apply poke_ok; [apply I|apply I|].
  intros b side G IB PRE. assert (I1 : binv side (br_fail r b)) by now apply fail_inv. split; [exact I1|]. split; [apply onward_fail|]. split; [intros _; apply fail_terminal|]. split; [intros _; apply fail_failed|].
  split; [intros _; eapply failed_mute; [exact I1|apply fail_failed]|]. intros _. apply noeof_fail.
Qed.
Lemma mark_all_ok w l : forall q, qinv w [] [] [] q -> let q' := fold_left (fun q x => mark_dirty x q) l q in
  qinv w [] [] [] q' /\ q_conns q' = q_conns q /\ (forall x, In x l \/ In x (q_dirty q) -> In x (q_dirty q')).
Proof.
  induction l as [|a l IH]; intros q I; [split; [exact I|split; [reflexivity|intros x [[]|]; auto]]|]. cbn [fold_left].
  destruct (IH (mark_dirty a q)) as (I' & E & D); [now apply mark_ok|]. split; [exact I'|]. split; [exact E|].
  intros x J. apply D. cbn. rewrite (in_oset rnd). cbn in J. clear - J. intuition.
Qed.
Definition w_at (t : option N) (w : watch) : watch := mkWatch (w_sil w) (w_gat w) (w_kin w) (w_fld w) t (w_hist w) (w_cons w).
Lemma on_timeout_ok w now q : w_late w = None -> qok w q -> qok (w_at (Some now) w) (on_timeout C Q W B rnd now q) /\ q_dirty (on_timeout C Q W B rnd now q) = [].
Proof.
  intros LA I. apply (set_last_ok w (Some now)) in I. unfold on_timeout.
  change (q_conns q) with (q_conns (q_set_last (Some now) q)). revert I. generalize (q_set_last (Some now) q) as q1. intros q1 I.
  destruct (mark_all_ok w (akeys (q_conns q1)) q1 (proj1 I)) as (I1 & E & D). revert I1 E D. generalize (fold_left (fun q x => mark_dirty x q) (akeys (q_conns q1)) q1) as q2. intros q2 I1 E D.
  assert (I2 : qinv (w_at (Some now) w) [] [] [] q2).
  { eapply rewatch; [..|exact I1]; auto.
    - intros x S. split; [|auto]. destruct (N.lt_ge_cases x (q_next q2)) as [L|L]; [exact L|]. destruct (qi_fresh _ _ _ _ _ _ I1 x L) as (_ & _ & Y & _). contradiction.
    - intros x S. split; [|auto]. destruct (N.lt_ge_cases x (q_next q2)) as [L|L]; [exact L|]. destruct (qi_fresh _ _ _ _ _ _ I1 x L) as (_ & _ & _ & Y & _). contradiction.
    - intros x S. split; [|auto]. destruct (N.lt_ge_cases x (q_next q2)) as [L|L]; [exact L|]. destruct (qi_fresh _ _ _ _ _ _ I1 x L) as (_ & _ & _ & _ & Y & _). contradiction.
    - intros t _ x b G. left. cbn. apply D. left. rewrite E in G. eapply aget_some_key; eauto. }
  split; [apply tick_qok; [now right|exact I2]|apply (tick_settled _ _ _ _ _ (w_at (Some now) w)); [now right|exact I2]].
Qed.
Lemma sil_lt w q x : qok w q -> (w_sil w x \/ w_kin w x \/ w_fld w x) -> x < q_next q.
Proof.
  intros (I & _) S. destruct (N.lt_ge_cases x (q_next q)) as [L|L]; [exact L|]. destruct (qi_fresh _ _ _ _ _ _ I x L) as (_ & _ & Y1 & Y2 & Y3 & _). tauto.
Qed.
Lemma w_at_ok w t q : qok (w_at (Some t) w) q -> qok (w_at None w) q.
Proof.
  intros I. eapply rewatch_ok; [..|exact I]; auto; try discriminate.
  - intros x S. split; [apply (sil_lt _ _ _ I); auto|auto].
  - intros x S. split; [apply (sil_lt _ _ _ I); auto|auto].
  - intros x S. split; [apply (sil_lt _ _ _ I); auto|auto].
Qed.
Lemma w_at_none w : w_late w = None -> w_at None w = w.
Proof. destruct w. cbn. now intros ->. Qed.

(** ** New exchanges *)
Lemma accept_ok w from now q : w_late w = None -> qok w q -> qok w (fst (accept C Q from now q)).
Proof.
  intros LA I. unfold accept. apply (set_last_ok w (Some now)) in I. revert I. generalize (q_set_last (Some now) q) as q1. intros q1 I.
  destruct (negb (q_runs q1)); [exact I|]. destruct (match qc_max_in Q with Some _ => _ | None => _ end); [exact I|]. cbn [fst]. destruct I as (I & S). split.
  - eapply (open_ok C rnd) with (side := None) (q := q1); try exact I; try reflexivity; try (now apply adv_same).
    + exists []. cbn. rewrite app_nil_r. auto.
    + destruct (qi_fresh _ _ _ _ _ _ I (q_next q1) ltac:(reflexivity)) as (E & _). unfold sl, empty in E. now injection E.
    + left. reflexivity.
    + apply I.
    + apply I.
    + apply new_acceptor_inv.
    + apply noeof_new.
    + right. split; [apply acceptor_rinv|exact LA].
  - destruct S. constructor; cbn [q_set_ex q_set_conns q_set_next mark_unminted q_set_unminted q_pumped q_dirty q_conns q_next]; auto.
    + intros x b J Y. specialize (st_low x J). rewrite aget_aset_ne in Y by lia. eauto.
    + intros x J. specialize (st_low x J). lia.
    + intros x m J Y. cbn in J, Y. apply (in_oset rnd) in J as [->|J].
      * rewrite aget_aset_eq in Y. injection Y as <-. reflexivity.
      * destruct (N.eq_dec x (q_next q1)) as [->|NE]; [rewrite aget_aset_eq in Y; injection Y as <-; reflexivity|]. rewrite aget_aset_ne in Y by exact NE. eauto.
Qed.
Lemma announced_kind e o k id : einv C e ->
  (exists peer join now, o = EPushPull peer join now /\ k = XPushPull) \/ (exists i a s d, o = EReliable i a s d /\ k = XReliablePing) \/ (exists peer data now, o = EUserMsg peer data now /\ k = XUserMessage) ->
  snd (ep_step C e o) = [OId id] -> kindok (fst (ep_step C e o)) id k.
Proof.
  intros I H.
  assert (K : forall peer kd d m, kind_of kd = k -> let '(j, e') := announce C (open_intent peer kd d m e) in kindok e' j k).
  { intros peer kd d m K. unfold open_intent, alloc_sid. change (runs (e_set_sid (e_sid e + 1) e)) with (runs e). destruct (runs e) eqn:R; cbn [negb announce].
    - unfold insert_intent. cbn [e_int e_set_int]. rewrite aget_aset_eq. right. eexists. split; [cbn; rewrite aget_aset_eq; reflexivity|exact K].
    - change (e_int (e_set_sid (e_sid e + 1) e)) with (e_int e). assert (N : aget (e_sid e) (e_int e) = None).
      { destruct (aget (e_sid e) (e_int e)) eqn:G; [|reflexivity]. apply (ei_sid _ _ I) in G. lia. }
      rewrite N. left. split; [cbn; lia|exact N]. }
  destruct H as [(p & j & n & -> & ->)|[(i & a & s & d & -> & ->)|(p & d & n & -> & ->)]]; cbn [ep_step].
  - specialize (K p (OKPushPull j) (tadd n (c_stream_timeout C)) (MPushPull j (local_states e) (e_snap e)) eq_refl). unfold push_pull_direct.
    destruct (announce _ _) as [x e']. cbn. intros E. injection E as <-. exact K.
  - specialize (K a (OKReliablePing s) d (MPing s (lnode C) (mkNode i a)) eq_refl). unfold reliable_ping_direct.
    destruct (announce _ _) as [x e']. cbn. intros E. injection E as <-. exact K.
  - destruct (runs e) eqn:R; [|discriminate]. specialize (K p OKUserMessage (tadd n (c_stream_timeout C)) (MUserData d) eq_refl). unfold user_message_direct. rewrite R. cbn [negb].
    destruct (announce _ _) as [x e']. cbn. intros E. injection E as <-. exact K.
Qed.
Lemma start_ok w o k now q : w_late w = None ->
  (exists peer join now, o = EPushPull peer join now /\ k = XPushPull) \/ (exists i a s d, o = EReliable i a s d /\ k = XReliablePing) \/ (exists peer data now, o = EUserMsg peer data now /\ k = XUserMessage) ->
  qok w q -> qok w (fst (start C Q W B rnd o k now q)).
Proof.
  intros LA H I. unfold start. apply (set_last_ok w (Some now)) in I. revert I. generalize (q_set_last (Some now) q) as q1. intros q1 I.
  pose proof (call_ok w o q1 I) as I1. unfold call_ in I1. rewrite call_eq in *. cbn [fst] in I1.
  destruct (snd (ep_step C (q_ep q1) o)) as [|[ | | | | |id| | | ] [|]] eqn:E; try exact I1. cbn [fst]. apply flush_qok; [now left|]. apply (dial_all_ok C Q rnd).
  pose proof (announced_kind (q_ep q1) o k id (qi_e _ _ _ _ _ _ (proj1 I)) H E) as K.
  revert I1 K. set (q2 := q_set_log _ _). intros I1 K. change (fst (ep_step C (q_ep q1) o)) with (q_ep q2) in K. clearbody q2. destruct I1 as (I1 & _). destruct I1. constructor; auto.
  intros j kd Y. cbn in Y. destruct (N.eq_dec j id) as [->|NE]; [rewrite aget_aset_eq in Y; injection Y as <-; exact K|rewrite aget_aset_ne in Y by exact NE; auto].
Qed.

(** ** Leaving *)
Lemma cancel_ok w x q : (forall y, ~ w_kin w y) -> qok w q -> (exists m, aget x (q_ex q) = Some m) -> qok w (cancel x q).
Proof.
  intros NK (I & S) (m & M). destruct (ex_live _ _ _ _ _ _ _ _ I M) as (b & G). pose proof (live_lt _ _ _ _ _ _ _ _ I G) as LT.
  destruct (live_of _ _ _ _ _ _ _ _ I G) as (m' & side & M' & L). rewrite M in M'. injection M' as <-. pose proof (qi_x _ _ _ _ _ _ I x LT) as XO.
  destruct (cancel_spec C x q) as (NR & SX). pose proof (near_gl C _ _ _ NR) as (E1 & E2 & E3 & E4 & E5 & E6). pose proof NR as (A & _ & SY & N1 & N2). split.
  - eapply (touch C rnd) with (x := x); try exact I; auto.
    + apply N1, I.
    + apply N2, I.
    + rewrite E4. apply I.
    + rewrite E4. apply I.
    + rewrite E6. apply I.
    + rewrite E4. reflexivity.
    + rewrite E2. reflexivity.
    + rewrite E3. reflexivity.
    + rewrite SX. destruct XO as [O1 O2 O3 _]. constructor; cbn [sl_b sl_m sl_out sl_con sl_td sl_log]; auto. destruct L. constructor; cbn [sl_b sl_m sl_out sl_con sl_td sl_log].
      * destruct xl_T as (n & T & HN). eapply (ending_prefix rnd); [exact T|]. clear - HN. destruct HN as [->|(-> & _)]; auto.
      * change (logs_of x (q_log q)) with (sl_log (sl x q)). rewrite xl_count. auto.
      * intros K. now apply NK in K.
      * apply earned_none. exact xl_count.
      * reflexivity.
  - destruct S. constructor; try congruence.
    + intros y c J Y. rewrite E2 in J. destruct (N.eq_dec y x) as [->|NE].
      * change (sl_b (sl x (cancel x q)) = Some c) in Y. rewrite SX in Y. discriminate.
      * change (sl_b (sl y (cancel x q)) = Some c) in Y. rewrite SY in Y by exact NE. eauto.
    + intros y J. rewrite E2 in J. rewrite E1. auto.
    + eapply inb_sub; [|exact E4|exact st_inb]. eapply (near_exsub C); [exact NR|]. intros m' Y. change (sl_m (sl x (cancel x q)) = Some m') in Y. rewrite SX in Y. discriminate.
Qed.
Lemma cancel_ex x q : q_ex (cancel x q) = adel x (q_ex q).
Proof. reflexivity. Qed.
Lemma cancels_ok w l : forall q, (forall y, ~ w_kin w y) -> NoDup l -> (forall x, In x l -> exists m, aget x (q_ex q) = Some m) -> qok w q ->
  qok w (fold_left (fun q x => if has_bytes x q then cancel x q else q) l q).
Proof.
  induction l as [|x l IH]; intros q NK ND EX I; [exact I|]. cbn [fold_left]. inversion ND as [|? ? N1 N2]; subst. apply IH; auto.
  - intros y J. destruct (has_bytes x q); [|apply EX; now right]. rewrite cancel_ex, aget_adel_ne; [apply EX; now right|]. intros ->. contradiction.
  - destruct (has_bytes x q); [|exact I]. apply cancel_ok; auto. apply EX. now left.
Qed.
Lemma outbound_keys (l : amap xmeta) : NoDup (akeys l) -> NoDup (map fst (filter (fun p => x_outbound (snd p)) l)) /\
  forall x, In x (map fst (filter (fun p => x_outbound (snd p)) l)) -> exists m, aget x l = Some m /\ x_outbound m = true.
Proof.
  intros ND. split.
  - unfold akeys in ND. induction l as [|[a m] l IH]; [constructor|]. cbn in *. inversion ND; subst. destruct (x_outbound m); cbn; [|auto]. constructor; [|auto].
    intros J. apply in_map_iff in J as (p & E & J). apply filter_In in J as (J & _). apply H1. apply in_map_iff. eauto.
  - intros x J. apply in_map_iff in J as ([y m] & E & J). apply filter_In in J as (J & O). cbn in *. subst y. exists m. split; [|exact O]. now apply aget_of_in.
Qed.
Lemma leave_ok w now fw q : (forall y, ~ w_kin w y) -> qok w q -> qok w (q_leave C now fw q).
Proof.
  intros NK I. apply (set_last_ok w (Some now)) in I. unfold q_leave. revert I. generalize (q_set_last (Some now) q) as q1. clear q. intros q I.
  set (q2 := q_set_ing [] (q_set_con [] (q_set_kinds [] (q_set_dials [] q)))).
  assert (I2 : qok w q2).
  { unfold q2. apply set_ing_ok. eapply less_ok with (w := w) (q := q_set_kinds [] (q_set_dials [] q)); try reflexivity; auto.
    - now apply adv_same.
    - intros x. change (count_occ N.eq_dec (w_cons w) x + 0 <= count_occ N.eq_dec (w_cons w) x + length (cons_of x (q_con q)))%nat. lia.
    - apply (dials_ok w []) in I. destruct I as (I & S). split; [|destruct S; constructor; auto]. destruct I. constructor; auto. discriminate. }
  apply call_ok. destruct (outbound_keys (q_ex q2)) as (N & X); [apply I2|]. apply cancels_ok; auto. intros x J. destruct (X x J) as (m & M & _). eauto.
Qed.

(** ** A change of the encryption policy *)
Definition hit_one (q : coord) (x : N) : coord := push_td (TAbort x) (purge_connect x (purge x (mark_dirty x q))).
Lemma hits_spec l : forall q, NoDup l -> let q' := fold_left hit_one l q in
  q_ep q' = q_ep q /\ q_log q' = q_log q /\ q_conns q' = q_conns q /\ q_ex q' = q_ex q /\ q_next q' = q_next q /\ q_pumped q' = q_pumped q /\ q_unminted q' = q_unminted q /\ q_kinds q' = q_kinds q /\ q_panic q' = q_panic q /\
  (forall x, In x (q_dirty q') <-> In x l \/ In x (q_dirty q)) /\
  (forall x, tds_of x (q_td q') = tds_of x (q_td q) ++ if in_dec N.eq_dec x l then [TAbort x] else []) /\
  (forall x, cons_of x (q_con q') = if in_dec N.eq_dec x l then [] else cons_of x (q_con q)).
Proof.
  induction l as [|a l IH]; intros q ND; cbn [fold_left].
  { repeat (split; [reflexivity|]). split; [intros x; cbn; tauto|]. split; intros x; cbn; [now rewrite app_nil_r|reflexivity]. }
  inversion ND as [|? ? N1 N2]; subst. destruct (IH (hit_one q a) N2) as (E1 & E2 & E3 & E4 & E5 & E6 & E7 & E8 & E9 & E10 & E11 & E12).
  repeat (split; [assumption|]). split; [|split].
  - intros x. rewrite E10. cbn. rewrite (in_oset rnd). intuition.
  - intros x. rewrite E11. cbn [hit_one push_td q_set_td q_td purge_connect q_set_con purge q_set_out mark_dirty q_set_dirty]. rewrite tds_app, tds_one. cbn [td_ex].
    destruct (N.eqb_spec a x) as [->|NE], (in_dec N.eq_dec x l) as [J|J], (in_dec N.eq_dec x (_ :: l)) as [K|K]; cbn in K; try tauto; rewrite ?app_nil_r; auto; try (exfalso; intuition congruence).
  - intros x. rewrite E12. cbn [hit_one push_td q_set_td q_con purge_connect q_set_con purge q_set_out mark_dirty q_set_dirty].
    destruct (in_dec N.eq_dec x l) as [J|J], (in_dec N.eq_dec x (a :: l)) as [K|K]; cbn in K; try tauto; auto.
    + destruct K as [->|K]; [|contradiction]. apply cons_eq.
    + apply cons_ne. intuition congruence.
Qed.
Lemma aget_map {A A'} (f : A -> A') x l : aget x (map (fun p => (fst p, f (snd p))) l) = option_map f (aget x l).
Proof. induction l as [|[a v] l IH]; [reflexivity|]. cbn. destruct (x =? a); [reflexivity|exact IH]. Qed.
Lemma set_kr_inv side kr b : binv side b -> binv side (br_set_kr kr b).
Proof. intros []. constructor; auto. Qed.
Lemma policy_failed kr b : br_failed (br_set_encryption kr b) = true.
Proof. apply fail_failed. Qed.
Lemma onward_kr kr b : onward b (br_set_encryption kr b).
Proof. eapply onward_trans; [|apply onward_fail]. split; [reflexivity|auto]. Qed.
Lemma set_encryption_ok w kr q : qok w q -> qok w (set_encryption kr q).
Proof.
  intros (I & S). unfold set_encryption. destruct (kr_eqb (q_kr q) kr); [apply set_kr_ok; split; assumption|].
  set (hit := filter _ (q_conns q)). set (q1 := q_set_conns _ q). fold hit_one. change (fun q x => push_td (TAbort x) (purge_connect x (purge x (mark_dirty x q)))) with hit_one.
  set (q2 := fold_left hit_one (map fst hit) q1). assert (NDC : NoDup (akeys (q_conns q))) by apply I.
  assert (NDH : NoDup (map fst hit)).
  { clear - NDC. unfold hit, akeys in *. induction (q_conns q) as [|[a c] l IH]; [constructor|]. cbn in *. inversion NDC; subst. destruct (_ && _); cbn; [|auto]. constructor; [|auto].
    intros J. apply in_map_iff in J as (p & E & J). apply filter_In in J as (J & _). apply H1. apply in_map_iff. eauto. }
  assert (HIT : forall x, In x (map fst hit) <-> exists b, aget x (q_conns q) = Some b /\ br_failed b = false).
  { intros x. split.
    - intros J. apply in_map_iff in J as ([y b] & E & J). apply filter_In in J as (J & O). cbn in *. subst y. exists b. split; [now apply aget_of_in|]. destruct (br_failed b); [discriminate|reflexivity].
    - intros (b & G & F). apply in_map_iff. exists (x, b). split; [reflexivity|]. apply filter_In. split; [now apply aget_in|]. cbn [snd]. rewrite F, policy_failed. reflexivity. }
  destruct (hits_spec (map fst hit) q1 NDH) as (E1 & E2 & E3 & E4 & E5 & E6 & E7 & E8 & E9 & E10 & E11 & E12). fold q2 in E1, E2, E3, E4, E5, E6, E7, E8, E9, E10, E11, E12.
  clearbody q2. apply set_kr_ok, set_ing_ok. set (q3 := match hit with [] => q2 | _ => q_set_pol true q2 end).
  assert (P3 : q3 = q2 \/ q3 = q_set_pol true q2) by (unfold q3; destruct hit; auto). clearbody q3.
  cut (qok w (q_set_out [] q2)). { intros Z. destruct P3 as [->| ->]; [exact Z|]. apply (pol_ok w true) in Z. exact Z. }
  clear q3 P3.
  assert (CN : forall x, aget x (q_conns q2) = option_map (br_set_encryption kr) (aget x (q_conns q))) by (intros x; rewrite E3; apply aget_map).
  assert (SL : forall x, sl x (q_set_out [] q2) = mkSl (option_map (br_set_encryption kr) (aget x (q_conns q))) (aget x (q_ex q)) [] (if in_dec N.eq_dec x (map fst hit) then [] else cons_of x (q_con q))
     (tds_of x (q_td q) ++ if in_dec N.eq_dec x (map fst hit) then [TAbort x] else []) (logs_of x (q_log q))).
  { intros x. unfold sl. cbn [q_set_out q_conns q_ex q_out q_con q_td q_log]. rewrite CN, E4, E11, E12, E2. reflexivity. }
  split.
  - constructor; cbn [q_set_out q_ep q_conns q_ex q_unminted q_next q_panic q_kinds]; rewrite ?E1, ?E4, ?E5, ?E7, ?E8, ?E9; try apply I.
    + rewrite E3. unfold q1. cbn [q_set_conns q_conns]. unfold akeys in *. rewrite map_map. exact NDC.
    + intros x L. destruct (qi_fresh _ _ _ _ _ _ I x L) as (Y1 & Y2 & Y3). split; [|auto]. rewrite SL. unfold sl, empty in Y1. injection Y1 as Z1 Z2 Z3 Z4 Z5 Z6.
      destruct (in_dec N.eq_dec x (map fst hit)) as [J|J]; [apply HIT in J as (b & G & _); congruence|]. now rewrite Z1, Z2, Z4, Z5, Z6.
    + intros x L. rewrite SL. cbn [q_set_out q_dirty q_pumped]. rewrite E6. destruct (qi_x _ _ _ _ _ _ I x L) as [O1 O2 O3 O4]. cbn [sl sl_b sl_m sl_out sl_con sl_td sl_log] in *. constructor; cbn [sl_b sl_m sl_out sl_con sl_td sl_log]; auto.
      * destruct (in_dec _ _ _); [|exact O1]. split; [cbn [length]; lia|reflexivity].
      * destruct (aget x (q_conns q)) as [b|] eqn:G; cbn [option_map]; destruct (aget x (q_ex q)) as [m|]; auto.
        -- destruct O4 as (side & L4). exists side. destruct L4. assert (B1 : binv side (br_set_encryption kr b)) by now apply fail_inv, set_kr_inv. pose proof (policy_failed kr b) as PF.
           destruct (onward_kr kr b) as (S1 & FN1). assert (DU : In x ([] ++ q_dirty q2)).
           { cbn. apply E10. destruct (br_failed b) eqn:F; [right; apply xl_term; now apply failed_terminal|]. left. apply HIT. eauto. }
           constructor; cbn [sl sl_b sl_m sl_out sl_con sl_td sl_log]; auto.
           ++ destruct (x_mint m) as [[sid|]|]; tauto.
           ++ intros k kd K1 K2 K3. apply xl_kind; auto. tauto.
           ++ intros _ Y. rewrite (failed_terminal _ PF) in Y. discriminate.
           ++ intros Y. apply S1. auto.
           ++ destruct xl_T as (n & T & HN). destruct (in_dec N.eq_dec x (map fst hit)) as [J|J].
              ** apply HIT in J as (b' & G' & F'). rewrite G in G'. injection G' as <-. destruct HN as [->|(_ & Y)]; [|congruence]. exists 1%nat. cbn [sl sl_td] in T. rewrite app_assoc, T. cbn. rewrite app_nil_r. auto.
              ** rewrite app_nil_r. exists n. split; [exact T|]. destruct HN as [->|(-> & _)]; auto.
           ++ intros _. eapply failed_mute; [exact B1|exact PF].
           ++ intros WG. apply noeof_fail. destruct (xl_gat WG). constructor; auto.
        -- destruct (in_dec N.eq_dec x (map fst hit)) as [J|J]; [apply HIT in J as (b & G' & _); congruence|]. rewrite app_nil_r. destruct O4. constructor; auto.
  - destruct S. constructor; cbn [q_set_out q_pumped q_dirty q_conns q_next].
    + rewrite E6. exact st_pumped.
    + intros x b J Y. rewrite CN in Y. destruct (aget x (q_conns q)); [|discriminate]. injection Y as <-. apply policy_failed.
    + intros x J. rewrite E5. apply E10 in J as [J|J]; [|now apply st_low]. apply HIT in J as (b & G & _). apply (live_lt _ _ _ _ _ _ _ _ I G).
    + intros x m J Y. cbn in J, Y. rewrite E7 in J. rewrite E4 in Y. eauto.
Qed.

(** ** All calls *)
Definition fits (w : watch) (o : qop) : Prop :=
  match o with QData x _ true _ => ~ w_gat w x | QLeave _ _ => forall y, ~ w_kin w y | _ => True end.
Theorem step_ok w q o : w_late w = None -> fits w o -> qok w q -> qok (w_add (acts_in (snd (q_step C Q W B rnd q o))) w) (fst (q_step C Q W B rnd q o)).
Proof.
  intros LA F I. assert (Z : w_add ([], []) w = w) by (destruct w; unfold w_add; cbn; now rewrite !app_nil_r).
  destruct o; cbn [q_step].
  - unfold acts_in; cbn; rewrite Z. apply on_data_ok; [now left| |exact I]. intros ->. exact F.
  - unfold acts_in; cbn; rewrite Z. apply on_failure_ok; [now left|exact I].
  - unfold acts_in; cbn; rewrite Z. apply on_failure_ok; [now left|exact I].
  - pose proof (accept_ok w from now q LA I) as I1. destruct (accept C Q from now q) as [q1 [r|]]; unfold acts_in; cbn; rewrite Z; exact I1.
  - pose proof (start_ok w (EPushPull peer join now) XPushPull now q LA ltac:(eauto 8) I) as I1. destruct (start _ _ _ _ _ _ _ _ _) as [q1 [r|]]; unfold acts_in; cbn; rewrite Z; exact I1.
  - pose proof (start_ok w (EReliable id addr seq deadline) XReliablePing now q LA ltac:(eauto 8) I) as I1. destruct (start _ _ _ _ _ _ _ _ _) as [q1 [r|]]; unfold acts_in; cbn; rewrite Z; exact I1.
  - pose proof (start_ok w (EUserMsg peer data now) XUserMessage now q LA ltac:(eauto 8) I) as I1. destruct (start _ _ _ _ _ _ _ _ _) as [q1 [r|]]; unfold acts_in; cbn; rewrite Z; exact I1.
  - unfold acts_in; cbn; rewrite Z. destruct (on_timeout_ok w now q LA I) as (I1 & _). apply w_at_ok in I1. now rewrite w_at_none in I1.
  - unfold acts_in; cbn; rewrite Z. now apply leave_ok.
  - unfold acts_in; cbn; rewrite Z. now apply set_encryption_ok.
  - unfold acts_in; cbn; rewrite Z. unfold on_gossip. pose proof (set_last_ok w (Some now) q I) as I1. destruct (negb _); [exact I1|]. destruct (_ <=? _); [exact I1|]. now apply set_ing_ok.
  - pose proof (poll_bytes_ok w q I) as I1. destruct (poll_bytes q) as [q1 [r|]]; unfold acts_in; cbn; rewrite Z; exact I1.
  - pose proof (poll_action_ok w q I) as I1. destruct (poll_action q) as [q1 r]. exact I1.
  - pose proof (poll_loop_ok w (S (length (k_ev (e_core (q_ep q))))) q I) as I1. change (poll_event C q) with (poll_event_loop C (S (length (k_ev (e_core (q_ep q))))) q). destruct (poll_event_loop _ _ _) as [q1 [r|]]; unfold acts_in; cbn; rewrite Z; exact I1.
  - unfold poll_ingress. destruct (q_ing q) as [|t r]; unfold acts_in; cbn; rewrite Z; [exact I|now apply set_ing_ok].
  - unfold acts_in; cbn; rewrite Z. now apply requeue_ok.
  - destruct (plain o); [|unfold acts_in; cbn; rewrite Z; exact I].
    assert (I1 : qok w (match last with Some n => q_set_last (Some n) q | None => q end)) by (destruct last; [now apply set_last_ok|exact I]).
    apply (call_ok w o) in I1. unfold call_ in I1. destruct (call C None o _) as [q1 outs]. cbn [fst snd] in *.
    assert (T : acts_in (map YEp outs) = ([], [])) by (clear; induction outs; [reflexivity|exact IHouts]). rewrite T, Z. exact I1.
  - unfold acts_in; cbn; rewrite Z. now apply reorder_ok.
Qed.
Lemma w_add_run a b w : w_add (acts_in b) (w_add (acts_in a) w) = w_add (acts_in (a ++ b)) w.
Proof. unfold w_add, acts_in, td_in, con_in. cbn. now rewrite !flat_map_app, !app_assoc. Qed.
Theorem run_ok os : forall w q, w_late w = None -> Forall (fits w) os -> qok w q -> qok (w_add (acts_in (snd (q_run C Q W B rnd q os))) w) (fst (q_run C Q W B rnd q os)).
Proof.
  induction os as [|o os IH]; intros w q LA F I; [destruct w; unfold w_add; cbn; rewrite !app_nil_r; exact I|]. inversion F as [|? ? F1 F2]; subst.
  pose proof (step_ok w q o LA F1 I) as I1. cbn [q_run]. destruct (q_step C Q W B rnd q o) as [q1 y1]. cbn [fst snd] in I1.
  assert (F2' : Forall (fits (w_add (acts_in y1) w)) os) by (eapply Forall_impl; [|exact F2]; intros o' X; destruct o'; exact X).
  specialize (IH (w_add (acts_in y1) w) q1 LA F2' I1). destruct (q_run C Q W B rnd q1 os) as [q2 y2]. cbn [fst snd] in *. now rewrite <- w_add_run.
Qed.
Definition w0 : watch := mkWatch (fun _ => False) (fun _ => True) (fun _ => False) (fun _ => False) None [] [].
Lemma new_ok e kr : einv C e -> qok w0 (coord_new e kr).
Proof.
  intros I. split.
  - constructor; cbn [coord_new q_ep q_conns q_ex q_unminted q_next q_panic q_kinds app]; try exact I; try apply NoDup_nil; try contradiction; try reflexivity; try discriminate.
    + intros x L. repeat split; auto.
    + intros x L. lia.
  - constructor; cbn; auto; try contradiction; intros x m [].
Qed.
End Steps.
