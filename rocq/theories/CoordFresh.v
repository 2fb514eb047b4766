(** Ids of dials are never used twice: whatever the coordinator (CoordModel.v)
    keeps for dials and for connections not yet up has an id already handed out. *)
From Coq Require Import Permutation.
From Verif Require Import CodecModel.
From Verif Require Import Base BaseFacts MapFacts StreamModel TransformModel CoreFacts EndpointInv EndpointHist EndpointDials BridgeModel BridgeFacts CoordModel CoordFacts CoordRuns CoordSteps CoordFrame CoordSeal.
Local Open Scope N_scope.

Section Fresh.
Context (C : cfg) (Q : qcfg) (W : wcodec) (B : backends) (rnd : N -> N -> option bytes).

Definition mint_below (n : N) (m : xmeta) : Prop := match x_mint m with Some (MOut s) => s < n | _ => True end.
Record fresh (q : coord) : Prop := {
  fr_e : einv C (q_ep q);
  fr_k : known (q_ep q);
  fr_d : Forall (fun t => fst (fst t) < e_sid (q_ep q)) (q_dials q);
  fr_x : Forall (fun p => mint_below (e_sid (q_ep q)) (snd p)) (q_ex q) }.
Lemma fresh_same q q' : q_ep q' = q_ep q -> q_dials q' = q_dials q -> q_ex q' = q_ex q -> fresh q -> fresh q'.
Proof. intros E1 E2 E3 [F1 F2 F3 F4]. constructor; rewrite ?E1, ?E2, ?E3; auto. Qed.
Ltac still := match goal with |- fresh _ => match goal with H : fresh ?q |- _ => apply (fresh_same q); [reflexivity|reflexivity|reflexivity|exact H] end end.
Lemma below_sid n n' m : n <= n' -> mint_below n m -> mint_below n' m.
Proof. unfold mint_below. destruct (x_mint m) as [[s|]|]; auto. lia. Qed.
(** the endpoint moves on *)
Lemma fresh_ep e q q' : fresh q -> einv C e -> known e -> e_sid (q_ep q) <= e_sid e -> q_ep q' = e -> q_dials q' = q_dials q -> q_ex q' = q_ex q -> fresh q'.
Proof.
  intros [F1 F2 F3 F4] I K L E1 E2 E3. constructor; rewrite ?E1, ?E2, ?E3; auto.
  - eapply Forall_impl; [|exact F3]. cbn. intros; lia.
  - eapply Forall_impl; [|exact F4]. intros p. cbn. now apply below_sid.
Qed.
Definition quiet (o : eop) : Prop := match o with ERequeue ev => is_dial ev = false | _ => True end.
Lemma fresh_call x o q : quiet o -> fresh q -> fresh (fst (call C x o q)).
Proof.
  intros N F. rewrite call_eq. destruct (known_step C (q_ep q) o (fr_e _ F) N (fr_k _ F)) as (K & L).
  eapply (fresh_ep _ q); [exact F|apply einv_op, (fr_e _ F)|exact K|exact L|reflexivity|reflexivity|reflexivity].
Qed.
Lemma fresh_call_ x o q : quiet o -> fresh q -> fresh (call_ C x o q).
Proof. apply fresh_call. Qed.
Lemma fresh_ex l q : Forall (fun p => mint_below (e_sid (q_ep q)) (snd p)) l -> fresh q -> fresh (q_set_ex l q).
Proof. intros L [F1 F2 F3 F4]. constructor; auto. Qed.
Lemma fresh_delx x q : fresh q -> fresh (q_set_ex (adel x (q_ex q)) q).
Proof. intros F. apply fresh_ex; [|exact F]. apply Forall_adel, F. Qed.
Lemma fresh_putx x m q : mint_below (e_sid (q_ep q)) m -> fresh q -> fresh (q_set_ex (aset x m (q_ex q)) q).
Proof. intros K F. apply fresh_ex; [|exact F]. constructor; [exact K|]. apply Forall_adel, F. Qed.
Lemma fresh_get x m q : fresh q -> aget x (q_ex q) = Some m -> mint_below (e_sid (q_ep q)) m.
Proof. intros F G. pose proof (fr_x _ F) as X. rewrite Forall_forall in X. apply aget_in in G. exact (X _ G). Qed.
Lemma fresh_collect x b q : fresh q -> fresh (snd (collect x b q)).
Proof. intros T. unfold collect. destruct (aget x (q_ex q)) as [m|]; [|exact T]. cbn. destruct (r_out (br_rec b)); [exact T|still]. Qed.
Lemma fresh_reap x b q : fresh q -> fresh (reap C x b q).
Proof.
  intros T. unfold reap. set (q1 := if br_failed b then purge x q else snd (collect x b q)). assert (T1 : fresh q1) by (unfold q1; destruct (br_failed b); [still|now apply fresh_collect]). clearbody q1.
  cbv zeta. set (q2 := q_set_ex _ q1). assert (T2 : fresh q2) by now apply fresh_delx. clearbody q2.
  set (q3 := match aget x (q_ex q1) with Some m => match x_kind m with Some k => call_ C _ _ q2 | None => q2 end | None => q2 end).
  assert (T3 : fresh q3) by (unfold q3; destruct (aget x (q_ex q1)) as [m|]; [destruct (x_kind m); [now apply fresh_call_|]|]; exact T2). clearbody q3.
  set (q4 := match aget x (q_ex q1) with Some m => match x_mint m with Some (MOut sid) => call_ C _ _ q3 | _ => q3 end | None => q3 end).
  assert (T4 : fresh q4) by (unfold q4; destruct (aget x (q_ex q1)) as [m|]; [destruct (x_mint m) as [[]|]; [now apply fresh_call_| |]|]; exact T3). clearbody q4.
  still.
Qed.
Lemma fresh_drained x r q : snd (fst r) = fst (ep_run C (q_ep q) (snd r)) -> Forall (fun o => exists ev now, o = EStreamEv ev now) (snd r) -> fresh q -> fresh (snd (drained x r q)).
Proof.
  destruct r as [[b e] l]. cbn [fst snd]. intros -> F T. cbn. destruct (known_run C l (q_ep q) (fr_e _ T)) as (K & L); [|apply T|].
  - eapply Forall_impl; [|exact F]. intros o (v & n & ->). exact Logic.I.
  - eapply (fresh_ep _ q); [exact T| |exact K|exact L|reflexivity|reflexivity|reflexivity]. apply einv_run, T.
Qed.
Lemma fresh_pump_one now q x : fresh q -> fresh (pump_one C W B rnd now q x).
Proof.
  intros T. unfold pump_one. destruct (aget x (q_conns q)) as [b|] eqn:G; [|exact T].
  set (q1 := q_set_conns _ q). assert (T1 : fresh q1) by (unfold q1; still). clearbody q1. set (b1 := br_pump_out _ _ _ _) in *. clearbody b1. cbv zeta.
  assert (RP : forall b q0, fresh q0 -> fresh (let '(b, q) := drained x (br_drain_reap C W B rnd now b (q_ep q0)) q0 in reap C x b q)).
  { intros b0 q0 A. pose proof (reap_calls C W B rnd now b0 (q_ep q0)) as RC. destruct (br_drain_reap C W B rnd now b0 (q_ep q0)) as [[b2 e2] l]. destruct RC as (E & F). pose proof (fresh_drained x (b2, e2, l) q0 E F A) as A2. destruct (drained _ _ _) as [b' q']. now apply fresh_reap. }
  destruct (br_terminal b1); [now apply RP|].
  pose proof (payload_calls C W B rnd now b1 (q_ep q1)) as RC. destruct (br_drain_payload C W B rnd now b1 (q_ep q1)) as [[b2 e2] l]. destruct RC as (E & F). pose proof (fresh_drained x (b2, e2, l) q1 E F T1) as A2. destruct (drained _ _ _) as [b3 q3]. cbn [snd] in A2.
  destruct (br_terminal b3); [now apply RP|]. assert (T3 : fresh (maybe_shutdown x b3 q3)).
  { unfold maybe_shutdown. destruct (negb _); [exact A2|]. destruct (aget x (q_ex q3)) as [m|] eqn:GM; [|exact A2]. destruct (x_fin m); [exact A2|].
    pose proof (fresh_putx x (x_set_fin true m) q3 (fresh_get _ _ _ A2 GM) A2) as T3. still. }
  still.
Qed.
Lemma fresh_fold {A} (f : coord -> A -> coord) : forall l, (forall q a, In a l -> fresh q -> fresh (f q a)) -> forall q, fresh q -> fresh (fold_left f l q).
Proof. induction l as [|a l IH]; intros H q T; [exact T|]. cbn. apply IH; [intros; apply H; [now right|assumption]|]. apply H; [now left|exact T]. Qed.
Lemma fresh_pump_all now q : fresh q -> fresh (pump_all C W B rnd now q).
Proof. intros T. unfold pump_all. apply fresh_fold; [intros; now apply fresh_pump_one|still]. Qed.
Lemma fresh_cancel x q : fresh q -> fresh (cancel x q).
Proof. intros T. unfold cancel. cbv zeta. apply (fresh_delx x) in T. still. Qed.
Lemma fresh_retire x q : fresh q -> fresh (retire_dial C x q).
Proof.
  intros T. unfold retire_dial. cbv zeta. set (q2 := q_set_conns _ _). assert (T2 : fresh q2) by (unfold q2; still). clearbody q2. set (q3 := q_set_ex _ q2). assert (T3 : fresh q3) by now apply fresh_delx. clearbody q3.
  set (q4 := match aget x (q_ex q2) with Some m => match x_kind m with Some k => call_ C _ _ q3 | None => q3 end | None => q3 end).
  assert (T4 : fresh q4) by (unfold q4; destruct (aget x (q_ex q2)) as [m|]; [destruct (x_kind m); [now apply fresh_call_|]|]; exact T3). clearbody q4. still.
Qed.
Lemma fresh_promote x s q : fresh q -> fresh (promote_in x s q).
Proof. intros T. unfold promote_in. destruct (aget x (q_conns q)) as [b|] eqn:G; [still|exact T]. Qed.
Lemma fresh_mint_one now q x : fresh q -> fresh (mint_one C W now q x).
Proof.
  intros T. unfold mint_one. destruct (aget x (q_conns q)) as [b|]; [|exact T]. destruct (br_terminal b); [exact T|]. destruct (br_handshaking b); [still|]. destruct (aget x (q_ex q)) as [m|]; [|still].
  assert (T0 : fresh (mark_dirty x (q_set_ex (aset x (x_set_mint None m) (q_ex q)) q))) by (pose proof (fresh_putx x (x_set_mint None m) q Logic.I T) as T0; still).
  destruct (x_mint m) as [[sid|from]|]; [| |still]; cbv zeta; set (q1 := mark_dirty _ _) in *; clearbody q1.
  - pose proof (fresh_call (Some x) (EDialOk sid now) q1 Logic.I T0) as T2. destruct (call C (Some x) (EDialOk sid now) q1) as [q2 outs]. cbn [fst] in T2.
    destruct outs as [|[] [|]]; try (now apply fresh_retire). all: destruct req as [[k msg]|]; (now apply fresh_promote) || (now apply fresh_retire).
  - pose proof (fresh_call (Some x) (EAccept from now) q1 Logic.I T0) as T2. destruct (call C (Some x) (EAccept from now) q1) as [q2 outs]. cbn [fst] in T2.
    destruct outs as [|[] [|]]; try (now apply fresh_cancel). all: destruct req as [[k msg]|]; (now apply fresh_promote) || (now apply fresh_cancel).
Qed.
Lemma fresh_mint_all now q : fresh q -> fresh (mint_all C W now q).
Proof. intros T. unfold mint_all. apply fresh_fold; [intros; now apply fresh_mint_one|still]. Qed.
Lemma fresh_collect_all q : fresh q -> fresh (collect_all q).
Proof.
  intros T. unfold collect_all. apply fresh_fold; [|still]. intros q0 x _ T0. unfold collect_one. destruct (aget x (q_conns q0)) as [b|] eqn:G; [|exact T0].
  assert (T1 : fresh (q_set_conns (adel x (q_conns q0)) q0)) by (apply (fresh_same q0); auto). apply (fresh_collect x b) in T1. destruct (collect _ _ _) as [b' q']. cbn [snd] in T1. still.
Qed.
Definition dials_in (evs : list event) : list (N * N * N) := flat_map (fun ev => match ev with EvDial id peer d => [(id, peer, d)] | _ => [] end) evs.
Lemma dials_below n evs : Forall (below n) evs -> Forall (fun t => fst (fst t) < n) (dials_in evs).
Proof. induction 1 as [|ev evs H _ IH]; [constructor|]. unfold dials_in. cbn [flat_map]. apply Forall_app. split; [|exact IH]. destruct ev; constructor; [exact H|constructor]. Qed.
Lemma fresh_sieve q : fresh q -> fresh (sieve C q).
Proof.
  intros T. unfold sieve. cbv zeta. apply fresh_fold; [intros q0 ev J; apply fresh_call_; apply filter_In in J as (_ & J); cbn; now destruct (is_dial ev)|].
  set (evs := k_ev (e_core (q_ep q))). set (q1 := fold_left _ _ q).
  assert (T1 : fresh q1 /\ e_sid (q_ep q) <= e_sid (q_ep q1)).
  { unfold q1. generalize evs as l. intros l. clearbody evs. clear q1. revert q T. induction l as [|ev l IH]; intros q T; [split; [exact T|cbn; lia]|]. cbn [fold_left]. destruct (IH _ (fresh_call_ None EPollEvent q Logic.I T)) as (A & L). split; [exact A|]. eapply N.le_trans; [|exact L]. unfold call_. rewrite call_eq. cbn. lia. }
  clearbody q1. destruct T1 as (T1 & L). destruct T1 as [F1 F2 F3 F4]. constructor; auto. cbn. apply Forall_app. split; [exact F3|]. change (Forall (fun t => fst (fst t) < e_sid (q_ep q1)) (dials_in evs)). apply dials_below.
  eapply Forall_impl; [|exact (fr_k _ T)]. intros ev. now apply below_le.
Qed.
Lemma fresh_dial_one now q t : fst (fst t) < e_sid (q_ep q) -> fresh q -> fresh (dial_one C Q now q t).
Proof.
  intros LT T. destruct t as [[id peer] d]. cbn [fst] in LT. unfold dial_one. cbv zeta. set (q1 := q_set_kinds _ q). assert (T1 : fresh q1) by (unfold q1; still). assert (E1 : q_ep q1 = q_ep q) by reflexivity. clearbody q1. destruct (d <=? now); [now apply fresh_call_|].
  set (q2 := mark_unminted _ _). assert (T2 : fresh q2) by (unfold q2; still). assert (E2 : q_ep q2 = q_ep q1) by reflexivity. clearbody q2.
  assert (T3 : fresh (q_set_ex (aset (q_next q1) (mkX peer (Some (MOut id)) false (aget id (q_kinds q)) true) (q_ex q2)) q2)) by (apply fresh_putx; [unfold mint_below; cbn; rewrite E2, E1; exact LT|exact T2]). still.
Qed.
Lemma dial_one_sid now q t : fresh q -> e_sid (q_ep q) <= e_sid (q_ep (dial_one C Q now q t)).
Proof.
  intros T. destruct t as [[id peer] d]. unfold dial_one. cbv zeta. destruct (d <=? now); [|cbn; lia]. unfold call_. rewrite call_eq. cbn [fst q_ep q_set_log q_set_ep q_set_kinds]. apply (known_step C); [apply T|exact Logic.I|apply T].
Qed.
Lemma fresh_dial_fold now l : forall q, Forall (fun t => fst (fst t) < e_sid (q_ep q)) l -> fresh q -> fresh (fold_left (dial_one C Q now) l q).
Proof.
  induction l as [|t l IH]; intros q F T; [exact T|]. apply Forall_cons_iff in F as (F1 & F2). cbn [fold_left]. apply IH; [|now apply fresh_dial_one].
  pose proof (dial_one_sid now q t T) as L. eapply Forall_impl; [|exact F2]. cbn. intros; lia.
Qed.
Lemma fresh_nodials q : fresh q -> fresh (q_set_dials [] q).
Proof. intros [F1 F2 F3 F4]. constructor; auto. constructor. Qed.
Lemma fresh_dial_all now q : fresh q -> fresh (dial_all C Q now q).
Proof.
  intros T. unfold dial_all. destruct (negb _); [exact T|]. apply fresh_sieve in T. apply fresh_dial_fold; [apply T|now apply fresh_nodials].
Qed.
Lemma fresh_tick now q : fresh q -> fresh (tick C Q W B rnd now q).
Proof.
  intros T. unfold tick. cbv zeta. pose proof (fresh_collect_all _ (fresh_pump_all now _ (fresh_mint_all now _ (fresh_dial_all now _ (fresh_mint_all now _ (fresh_call_ None (ETimeout now) _ Logic.I (fresh_pump_all now _ T))))))) as T1. still.
Qed.
Lemma fresh_flush now q : fresh q -> fresh (flush C W B rnd now q).
Proof. intros T. unfold flush. now apply fresh_collect_all, fresh_pump_all, fresh_mint_all, fresh_pump_all. Qed.
Lemma fresh_start o k now q : quiet o -> fresh q -> fresh (fst (CoordModel.start C Q W B rnd o k now q)).
Proof.
  intros N T. unfold CoordModel.start. assert (T1 : fresh (q_set_last (Some now) q)) by still. pose proof (fresh_call None o _ N T1) as T2. destruct (call C None o _) as [q2 outs]. cbn [fst] in T2.
  destruct outs as [|[] [|]]; try exact T2. cbn [fst]. apply fresh_flush, fresh_dial_all. still.
Qed.
Lemma fresh_bridge f x q : fresh q -> fresh (on_bridge f x q).
Proof. intros T. unfold on_bridge. destruct (aget x (q_conns q)) as [b|] eqn:G; [still|exact T]. Qed.
Lemma fresh_event n : forall q, fresh q -> fresh (fst (poll_event_loop C n q)).
Proof.
  induction n as [|n IH]; intros q T; [exact T|]. cbn [poll_event_loop]. pose proof (fresh_call None EPollEvent q Logic.I T) as T1. pose proof (fr_k _ T) as K.
  rewrite call_eq in *. cbn [fst snd] in *. cbn [ep_step fst snd] in *. destruct (k_ev (e_core (q_ep q))) as [|ev r] eqn:E; [exact T1|]. destruct ev; try exact T1. apply IH. destruct T1 as [F1 F2 F3 F4]. constructor; auto. cbn [q_dials q_set_dials]. apply Forall_app. split; [exact F3|].
  constructor; [|constructor]. unfold known in K. rewrite E in K. inversion K. exact H1.
Qed.
Lemma fresh_encrypt kr q : fresh q -> fresh (set_encryption kr q).
Proof.
  intros T. unfold set_encryption. destruct (kr_eqb (q_kr q) kr); [still|]. cbv zeta. set (hit := map fst _). set (l := map _ (q_conns q)). clearbody l.
  assert (T1 : fresh (fold_left (fun q x => push_td (TAbort x) (purge_connect x (purge x (mark_dirty x q)))) hit (q_set_conns l q))) by (apply fresh_fold; [intros; still|still]).
  set (q1 := fold_left _ hit _) in *. clearbody q1. destruct (filter _ (q_conns q)); still.
Qed.
(** the driver does not put dials back: it never sees one *)
Definition keeps_dials (o : qop) : Prop := match o with QRequeue ev _ => is_dial ev = false | _ => True end.
Lemma fresh_step q o : keeps_dials o -> fresh q -> fresh (fst (q_step C Q W B rnd q o)).
Proof.
  intros N T. destruct o; cbn [q_step keeps_dials] in *; try (cbn [fst]; exact T).
  - cbn [fst]. unfold on_data. apply fresh_tick. cbv zeta. set (q1 := on_bridge _ _ _). assert (T1 : fresh q1) by (unfold q1; apply fresh_bridge; still). clearbody q1. still.
  - cbn [fst]. unfold on_failure. apply fresh_tick. set (q1 := on_bridge _ _ _). assert (T1 : fresh q1) by (unfold q1; apply fresh_bridge; still). clearbody q1. still.
  - cbn [fst]. unfold on_failure. apply fresh_tick. set (q1 := on_bridge _ _ _). assert (T1 : fresh q1) by (unfold q1; apply fresh_bridge; still). clearbody q1. still.
  - assert (T1 : fresh (fst (accept C Q from now q))).
    { unfold accept. set (q1 := q_set_last _ q). assert (T1 : fresh q1) by (unfold q1; still). clearbody q1. destruct (negb _); [exact T1|]. destruct (match qc_max_in Q with Some max => _ | None => _ end); [exact T1|]. cbn [fst].
      set (q2 := mark_unminted _ _). assert (T2 : fresh q2) by (unfold q2; still). clearbody q2. now apply fresh_putx. }
    destruct (accept C Q from now q); exact T1.
  - pose proof (fresh_start (EPushPull peer join now) XPushPull now q Logic.I T) as T1. destruct (CoordModel.start _ _ _ _ _ _ _ _ _); exact T1.
  - pose proof (fresh_start (EReliable id addr seq deadline) XReliablePing now q Logic.I T) as T1. destruct (CoordModel.start _ _ _ _ _ _ _ _ _); exact T1.
  - pose proof (fresh_start (EUserMsg peer data now) XUserMessage now q Logic.I T) as T1. destruct (CoordModel.start _ _ _ _ _ _ _ _ _); exact T1.
  - cbn [fst]. unfold on_timeout. apply fresh_tick. apply fresh_fold; [intros; still|still].
  - cbn [fst]. unfold q_leave. cbv zeta. apply fresh_call_; [exact Logic.I|]. apply fresh_fold; [intros q1 x _ T1; destruct (has_bytes x q1); [now apply fresh_cancel|exact T1]|]. apply fresh_nodials in T. still.
  - cbn [fst]. now apply fresh_encrypt.
  - cbn [fst]. unfold on_gossip. cbv zeta. destruct (negb _); [still|]. destruct (_ <=? _); still.
  - unfold poll_bytes. destruct (q_out q) as [|t r] eqn:E; cbn [fst]; [exact T|still].
  - unfold poll_action. destruct (q_con q) as [|[[x p] s] r]; [destruct (take_first _ _) as [[t r]|]|]; cbn [fst]; try exact T; still.
  - pose proof (fresh_event (S (length (k_ev (e_core (q_ep q))))) q T) as T1. unfold poll_event. destruct (poll_event_loop C _ q); exact T1.
  - unfold poll_ingress. destruct (q_ing q); cbn [fst]; [exact T|still].
  - cbn [fst]. unfold requeue. cbv zeta. destruct ev; try discriminate N; (apply fresh_call_; [reflexivity|still]).
  - destruct (plain o) eqn:P; [|exact T]. set (q1 := match last with Some n => _ | None => q end). assert (T1 : fresh q1) by (unfold q1; destruct last; [still|exact T]). clearbody q1.
    pose proof (fresh_call None o q1) as T2. destruct (call C None o q1). apply T2; [destruct o; try exact Logic.I; discriminate P|exact T1].
  - cbn [fst]. destruct T as [F1 F2 F3 F4]. constructor; auto. cbn. rewrite Forall_forall in *. intros p J. apply F4. eapply Permutation_in; [|exact J]. apply Permutation_sym, shuffle_perm.
Qed.
Lemma fresh_run os : forall q, Forall keeps_dials os -> fresh q -> fresh (fst (q_run C Q W B rnd q os)).
Proof.
  induction os as [|o os IH]; intros q F T; [exact T|]. apply Forall_cons_iff in F as (F1 & F2). cbn [q_run]. pose proof (fresh_step q o F1 T) as T1. destruct (q_step C Q W B rnd q o) as [q1 y1]. cbn [fst] in T1. specialize (IH _ F2 T1). destruct (q_run C Q W B rnd q1 os). exact IH.
Qed.
Lemma fresh_new t0 e kr : ep_new C t0 = Some e -> fresh (coord_new e kr).
Proof. intros N. constructor; cbn; [exact (einv_new C _ _ N)|exact (new_known C _ _ N)|constructor|constructor]. Qed.
End Fresh.
