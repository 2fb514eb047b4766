(** Facts about the coordinator of the stream transport (CoordModel.v). *)
From Verif Require Import CodecModel.
From Verif Require Import Base BaseFacts MapFacts CoreFacts EndpointInv EndpointRuns CoordModel BridgeFacts.
Local Open Scope N_scope.

(** * Slices: all the coordinator holds for one exchange *)
Definition mine (x : N) (p : option N * eop) : bool := match fst p with Some y => y =? x | None => false end.
Record slice := mkSl {
  sl_b : option bridge; sl_m : option xmeta; sl_out : list (N * N * bytes); sl_con : list (N * N * N);
  sl_td : list teardown; sl_log : list eop }.
Definition outs_of (x : N) (l : list (N * N * bytes)) := filter (fun t => fst (fst t) =? x) l.
Definition cons_of (x : N) (l : list (N * N * N)) := filter (fun t => fst (fst t) =? x) l.
Definition tds_of (x : N) (l : list teardown) := filter (fun t => td_ex t =? x) l.
Definition logs_of (x : N) (l : list (option N * eop)) := map snd (filter (mine x) l).
Arguments outs_of : simpl never.
Arguments cons_of : simpl never.
Arguments tds_of : simpl never.
Arguments logs_of : simpl never.
Definition sl (x : N) (q : coord) : slice :=
  mkSl (aget x (q_conns q)) (aget x (q_ex q)) (outs_of x (q_out q)) (cons_of x (q_con q)) (tds_of x (q_td q)) (logs_of x (q_log q)).
(** the rest that the invariant speaks of *)
Definition gl (q : coord) := (q_next q, q_dirty q, q_pumped q, q_unminted q, q_kinds q, q_panic q).

Lemma filter_filter_ne {A} (p : A -> N) x y l : x <> y -> filter (fun t => p t =? x) (filter (fun t => negb (p t =? y)) l) = filter (fun t => p t =? x) l.
Proof.
  intros N. induction l as [|a l IH]; [reflexivity|]. cbn. destruct (N.eqb_spec (p a) y) as [E|E]; cbn.
  - destruct (N.eqb_spec (p a) x); [congruence|exact IH].
  - destruct (p a =? x); now rewrite IH.
Qed.
Lemma filter_filter_eq {A} (p : A -> N) y l : filter (fun t => p t =? y) (filter (fun t => negb (p t =? y)) l) = [].
Proof. induction l as [|a l IH]; [reflexivity|]. cbn. destruct (N.eqb_spec (p a) y) as [E|E]; cbn; [exact IH|]. destruct (N.eqb_spec (p a) y); [congruence|exact IH]. Qed.
Lemma outs_ne x y l : x <> y -> outs_of x (filter (fun t => negb (fst (fst t) =? y)) l) = outs_of x l.
Proof. apply filter_filter_ne. Qed.
Lemma outs_eq y l : outs_of y (filter (fun t => negb (fst (fst t) =? y)) l) = [].
Proof. apply (filter_filter_eq (fun t => fst (fst t))). Qed.
Lemma cons_ne x y l : x <> y -> cons_of x (filter (fun t => negb (fst (fst t) =? y)) l) = cons_of x l.
Proof. apply filter_filter_ne. Qed.
Lemma cons_eq y l : cons_of y (filter (fun t => negb (fst (fst t) =? y)) l) = [].
Proof. apply (filter_filter_eq (fun t => fst (fst t))). Qed.
Lemma tds_ne x y l : x <> y -> tds_of x (filter (fun t => negb (td_ex t =? y)) l) = tds_of x l.
Proof. apply filter_filter_ne. Qed.
Lemma tds_eq y l : tds_of y (filter (fun t => negb (td_ex t =? y)) l) = [].
Proof. apply (filter_filter_eq td_ex). Qed.
Lemma outs_app x l l' : outs_of x (l ++ l') = outs_of x l ++ outs_of x l'.
Proof. apply filter_app. Qed.
Lemma cons_app x l l' : cons_of x (l ++ l') = cons_of x l ++ cons_of x l'.
Proof. apply filter_app. Qed.
Lemma tds_app x l l' : tds_of x (l ++ l') = tds_of x l ++ tds_of x l'.
Proof. apply filter_app. Qed.
Lemma logs_app x l l' : logs_of x (l ++ l') = logs_of x l ++ logs_of x l'.
Proof. unfold logs_of. now rewrite filter_app, map_app. Qed.
Lemma logs_tag x (l : list eop) : logs_of x (map (fun o => (Some x, o)) l) = l.
Proof. induction l as [|a l IH]; [reflexivity|]. unfold logs_of in *. cbn. rewrite N.eqb_refl. cbn. now rewrite IH. Qed.
Lemma logs_tag_ne x y (l : list eop) : x <> y -> logs_of x (map (fun o => (Some y, o)) l) = [].
Proof. intros N. induction l as [|a l IH]; [reflexivity|]. unfold logs_of in *. cbn. destruct (N.eqb_spec y x); [congruence|]. exact IH. Qed.
Lemma has_bytes_outs x q : has_bytes x q = false <-> outs_of x (q_out q) = [].
Proof.
  unfold has_bytes, outs_of. induction (q_out q) as [|a l IH]; [tauto|]. cbn. destruct (fst (fst a) =? x); cbn; [split; discriminate|exact IH].
Qed.

Lemma outs_one x t : outs_of x [t] = if fst (fst t) =? x then [t] else [].
Proof. reflexivity. Qed.
Lemma cons_one x t : cons_of x [t] = if fst (fst t) =? x then [t] else [].
Proof. reflexivity. Qed.
Lemma tds_one x t : tds_of x [t] = if td_ex t =? x then [t] else [].
Proof. reflexivity. Qed.
Lemma logs_one x p : logs_of x [p] = if mine x p then [snd p] else [].
Proof. unfold logs_of. cbn. now destruct (mine x p). Qed.

Section Coord.
Context (C : cfg) (Q : qcfg) (W : wcodec) (B : backends) (rnd : N -> N -> option bytes).

(** * The endpoint only moves by calls *)
Definition adv (q q' : coord) : Prop :=
  exists l, q_log q' = q_log q ++ l /\ q_ep q' = fst (ep_run C (q_ep q) (map snd l)).
Lemma adv_refl q : adv q q.
Proof. exists []. now rewrite app_nil_r. Qed.
Lemma adv_trans a b c : adv a b -> adv b c -> adv a c.
Proof.
  intros (l & L & E) (l' & L' & E'). exists (l ++ l'). rewrite L', L, app_assoc. split; [reflexivity|].
  rewrite E', E, map_app. now rewrite (ep_run_app_fst C).
Qed.
Lemma adv_same q q' : q_log q' = q_log q -> q_ep q' = q_ep q -> adv q q'.
Proof. intros L E. exists []. now rewrite app_nil_r. Qed.
Lemma adv_fold {A} (f : coord -> A -> coord) l : (forall q a, adv q (f q a)) -> forall q, adv q (fold_left f l q).
Proof. intros H. induction l as [|a l IH]; intros q; [apply adv_refl|]. cbn [fold_left]. eapply adv_trans; [apply H|apply IH]. Qed.
Lemma call_eq ox o q : call C ox o q = (q_set_log (q_log q ++ [(ox, o)]) (q_set_ep (fst (ep_step C (q_ep q) o)) q), snd (ep_step C (q_ep q) o)).
Proof. unfold call. now destruct (ep_step C (q_ep q) o). Qed.
Lemma adv_call ox o q : adv q (call_ C ox o q).
Proof. unfold call_. rewrite call_eq. exists [(ox, o)]. cbn. split; [reflexivity|]. destruct (ep_step C (q_ep q) o); reflexivity. Qed.

(** ** One call, and what it leaves alone *)
Lemma sl_call y ox o q : sl y (call_ C ox o q) = let s := sl y q in
  mkSl (sl_b s) (sl_m s) (sl_out s) (sl_con s) (sl_td s) (sl_log s ++ if mine y (ox, o) then [o] else []).
Proof. unfold call_. rewrite call_eq. unfold sl. cbn. now rewrite logs_app, logs_one. Qed.
Lemma gl_call ox o q : gl (call_ C ox o q) = gl q.
Proof. unfold call_. rewrite call_eq. reflexivity. Qed.

(** * Reaping *)
Definition failing (b : bridge) (x : N) : teardown := if br_failed b then TAbort x else TClose x.
Definition news (x : N) (b : bridge) (m : xmeta) : list eop :=
  match x_kind m with Some k => [ERequeue (EvExchange x (x_peer m) (negb (br_failed b)) k)] | None => [] end ++
  match x_mint m with Some (MOut sid) => [EDialFail sid] | _ => [] end.
Definition last_bytes (x : N) (b : bridge) (m : xmeta) : list (N * N * bytes) :=
  match r_out (br_rec b) with [] => [] | l => [(x, x_peer m, l)] end.
Lemma reap_spec x b m q : aget x (q_ex q) = Some m -> let q' := reap C x b q in
  adv q q' /\ gl q' = gl q /\ q_conns q' = q_conns q /\ q_ex q' = adel x (q_ex q) /\
  (forall y, y <> x -> sl y q' = sl y q) /\
  sl x q' = mkSl (aget x (q_conns q)) None (if br_failed b then [] else outs_of x (q_out q) ++ last_bytes x b m)
              (cons_of x (q_con q)) (tds_of x (q_td q) ++ [failing b x]) (logs_of x (q_log q) ++ news x b m).
Proof.
  intros M. unfold reap.
  set (q1 := if br_failed b then purge x q else snd (collect x b q)).
  assert (H1 : q_log q1 = q_log q /\ q_ep q1 = q_ep q /\ gl q1 = gl q /\ q_conns q1 = q_conns q /\ q_ex q1 = q_ex q /\ q_con q1 = q_con q /\ q_td q1 = q_td q /\
    (forall y, y <> x -> outs_of y (q_out q1) = outs_of y (q_out q)) /\
    outs_of x (q_out q1) = if br_failed b then [] else outs_of x (q_out q) ++ last_bytes x b m).
  { subst q1. destruct (br_failed b).
    - unfold purge. cbn. repeat split; auto; [intros y N; now apply outs_ne|apply outs_eq].
    - unfold collect. rewrite M. cbn [rl_transmit]. unfold last_bytes. destruct (r_out (br_rec b)) as [|c cs]; cbn.
      + repeat split; auto. now rewrite app_nil_r.
      + repeat split; auto.
        * intros y N. rewrite outs_app, outs_one. cbn. destruct (N.eqb_spec x y); [congruence|]. now rewrite app_nil_r.
        * rewrite outs_app, outs_one. cbn. now rewrite N.eqb_refl. }
  destruct H1 as (HL & HE & HG & HC & HX & HO & HT & HN & HS). clearbody q1. rewrite HX, M.
  unfold news, failing. set (q2 := q_set_ex (adel x (q_ex q)) q1).
  assert (A2 : adv q q2) by (apply adv_same; [exact HL|exact HE]).
  set (q3 := match x_kind m with Some k => _ | None => _ end).
  assert (H3 : adv q q3 /\ gl q3 = gl q /\ q_conns q3 = q_conns q /\ q_ex q3 = adel x (q_ex q) /\ q_con q3 = q_con q /\ q_td q3 = q_td q /\ q_out q3 = q_out q1 /\
     q_log q3 = q_log q ++ map (fun o => (Some x, o)) (match x_kind m with Some k => [ERequeue (EvExchange x (x_peer m) (negb (br_failed b)) k)] | None => [] end)).
  { subst q3. destruct (x_kind m) as [k|].
    - repeat split; auto; try (unfold call_; rewrite call_eq; cbn; auto; fail).
      + eapply adv_trans; [exact A2|apply adv_call].
      + unfold call_. rewrite call_eq. cbn. now rewrite HL.
    - cbn. rewrite app_nil_r. repeat split; auto. }
  clearbody q3. destruct H3 as (A3 & G3 & C3 & X3 & O3 & T3 & B3 & L3).
  set (q4 := match x_mint m with Some (MOut sid) => _ | _ => _ end).
  assert (H4 : adv q q4 /\ gl q4 = gl q /\ q_conns q4 = q_conns q /\ q_ex q4 = adel x (q_ex q) /\ q_con q4 = q_con q /\ q_td q4 = q_td q /\ q_out q4 = q_out q1 /\
     q_log q4 = q_log q3 ++ map (fun o => (Some x, o)) (match x_mint m with Some (MOut sid) => [EDialFail sid] | _ => [] end)).
  { subst q4. destruct (x_mint m) as [[sid|from]|].
    - repeat split; auto; try (unfold call_; rewrite call_eq; cbn; auto; fail).
      + eapply adv_trans; [exact A3|apply adv_call].
    - cbn. rewrite app_nil_r. repeat split; auto.
    - cbn. rewrite app_nil_r. repeat split; auto. }
  clearbody q4. destruct H4 as (A4 & G4 & C4 & X4 & O4 & T4 & B4 & L4). cbv zeta.
  assert (TE : td_ex (if br_failed b then TAbort x else TClose x) = x) by (destruct (br_failed b); reflexivity).
  repeat split.
  - eapply adv_trans; [exact A4|]. apply adv_same; reflexivity.
  - exact G4.
  - exact C4.
  - exact X4.
  - intros y N. unfold sl, push_td. cbn. rewrite C4, X4, B4, O4, T4, L4, L3, HN by exact N. rewrite aget_adel_ne by exact N. rewrite tds_app, tds_one, !logs_app, !logs_tag_ne by exact N.
    rewrite TE. destruct (N.eqb_spec x y); [congruence|]. now rewrite !app_nil_r.
  - unfold sl, push_td. cbn. rewrite C4, X4, B4, O4, T4, L4, L3, HS, aget_adel_eq, tds_app, tds_one, !logs_app, !logs_tag, app_assoc. now rewrite TE, N.eqb_refl.
Qed.

(** * Kinds of exchanges *)
Definition kind_of (k : outkind) : xkind :=
  match k with OKPushPull _ => XPushPull | OKReliablePing _ => XReliablePing | OKUserMessage => XUserMessage end.
(** the intent has this kind, or is gone for good *)
Definition kindok (e : ep) (id : N) (kd : xkind) : Prop :=
  spent_id id e \/ exists i, aget id (e_int e) = Some i /\ kind_of (in_kind i) = kd.
Lemma kindok_op e o id kd : einv C e -> kindok e id kd -> kindok (fst (ep_step C e o)) id kd.
Proof.
  intros I [S|(i & G & K)]; [left; now apply spent_op|]. destruct (step_chain C e o I) as (ls & cr & S & _).
  destruct (esteps_int C _ _ _ _ _ _ S I G) as [G'|S']; [right; eauto|now left].
Qed.
Lemma kindok_run os id kd : forall e, einv C e -> kindok e id kd -> kindok (fst (ep_run C e os)) id kd.
Proof.
  intros e I. rewrite ep_run_fst. revert e I. induction os as [|o os IH]; intros e I K; [exact K|]. cbn [fold_left].
  apply IH; [now apply einv_op|now apply kindok_op].
Qed.
Lemma adv_einv q q' : adv q q' -> einv C (q_ep q) -> einv C (q_ep q').
Proof. intros (l & _ & ->) I. now apply einv_run. Qed.
Lemma adv_kindok q q' id kd : adv q q' -> einv C (q_ep q) -> kindok (q_ep q) id kd -> kindok (q_ep q') id kd.
Proof. intros (l & _ & ->) I K. now apply kindok_run. Qed.

(** * The invariant *)
(** a stream event that carries something to apply *)
Definition payload (o : eop) : bool := match o with EStreamEv SEClosed _ => false | EStreamEv _ _ => true | _ => false end.
(** the report on an exchange *)
Definition exch (o : eop) : bool := match o with ERequeue (EvExchange _ _ _ _) => true | _ => false end.
(** the answer that ends an exchange of this kind *)
Definition answer_to (k : xkind) (o : eop) : Prop :=
  match k with
  | XPushPull => exists peer states user join sid now, o = EStreamEv (SEReply peer states user join sid) now
  | XReliablePing => exists seq t now, o = EStreamEv (SEAcked seq t) now
  | XUserMessage => False
  end.
(** success is reported after the answer was handed over *)
Definition earned (l : list eop) : Prop := forall l1 l2 x p k, l = l1 ++ ERequeue (EvExchange x p true k) :: l2 ->
  k = XUserMessage \/ exists o, In o l1 /\ answer_to k o.
(** What is assumed or watched besides: exchanges to stay silent, exchanges whose
    peer has not ended its stream, exchanges to be reported on, exchanges that
    failed, a time all deadlines are past, and the teardowns and connects polled
    so far *)
Record watch := mkWatch { w_sil : N -> Prop; w_gat : N -> Prop; w_kin : N -> Prop; w_fld : N -> Prop; w_late : option N; w_hist : list teardown; w_cons : list N }.

Record xlive (w : watch) (e : ep) (un du pu : Prop) (x : N) (s : slice) (b : bridge) (m : xmeta) (side : option outkind) : Prop := {
  xl_b : binv side b;
  xl_out : x_outbound m = match side with Some _ => true | None => false end;
  xl_mint : match x_mint m with
            | None => br_stream b <> None
            | Some (MOut sid) => br_stream b = None /\ x_outbound m = true /\ (forall kd, x_kind m = Some kd -> kindok e sid kd)
            | Some (MIn _) => br_stream b = None /\ x_outbound m = false
            end;
  xl_in : x_outbound m = false -> x_kind m = None;
  xl_kind : forall k kd, side = Some k -> br_stream b <> None -> x_kind m = Some kd -> kind_of k = kd;
  xl_un : br_stream b = None -> br_terminal b = false -> un;
  xl_un' : un -> br_stream b = None;
  xl_term : br_terminal b = true -> du;
  xl_sout : du \/ (forall st, br_stream b = Some st -> s_out st = []);
  xl_rout : r_out (br_rec b) = [] \/ du \/ pu;
  xl_fin : x_fin m = true -> br_fin b = true;
  xl_shut : br_fin b = true -> br_failed b = false -> x_fin m = true \/ du;
  xl_T : exists n, tds_of x (w_hist w) ++ sl_td s = (if x_fin m then [TShutdown x] else []) ++ repeat (TAbort x) n /\
           (n = O \/ n = 1%nat /\ br_failed b = true);
  xl_count : filter exch (sl_log s) = [];
  xl_late : forall now, w_late w = Some now -> du \/ now < br_deadline b;
  xl_kin : w_kin w x -> x_kind m <> None;
  xl_sil : w_sil w x -> mute b;
  xl_gat : w_gat w x -> noeof b;
  xl_fld : w_fld w x -> br_failed b = true }.
Definition ending (x : N) (T : list teardown) : Prop := exists sh r, T = sh ++ r /\
  (sh = [] \/ sh = [TShutdown x]) /\ (r = [TClose x] \/ r = [TAbort x] \/ r = [TAbort x; TAbort x]).
Record xdead (w : watch) (x : N) (s : slice) : Prop := {
  xd_T : ending x (tds_of x (w_hist w) ++ sl_td s);
  xd_count : (length (filter exch (sl_log s)) <= 1)%nat;
  xd_kin : w_kin w x -> filter exch (sl_log s) <> [];
  xd_earned : earned (sl_log s);
  xd_fld : w_fld w x -> sl_out s = [] }.
Record xok (w : watch) (e : ep) (un du pu : Prop) (x : N) (s : slice) : Prop := {
  xo_con : (count_occ N.eq_dec (w_cons w) x + length (sl_con s) <= 1)%nat /\ (tds_of x (w_hist w) <> [] -> sl_con s = []);
  xo_sil : w_sil w x -> sl_out s = [];
  xo_gat : w_gat w x -> Forall (fun o => payload o = false) (sl_log s);
  xo_x : match sl_b s, sl_m s with
         | Some b, Some m => exists side, xlive w e un du pu x s b m side
         | None, None => xdead w x s
         | _, _ => False
         end }.
Definition empty : slice := mkSl None None [] [] [] [].
Record qinv (w : watch) (U D P : list N) (q : coord) : Prop := {
  qi_e : einv C (q_ep q);
  qi_nc : NoDup (akeys (q_conns q));
  qi_nx : NoDup (akeys (q_ex q));
  qi_nu : NoDup (U ++ q_unminted q);
  qi_lt : forall x, In x (U ++ q_unminted q) -> x < q_next q;
  qi_panic : q_panic q = false;
  qi_kinds : forall id kd, aget id (q_kinds q) = Some kd -> kindok (q_ep q) id kd;
  qi_fresh : forall x, q_next q <= x -> sl x q = empty /\ tds_of x (w_hist w) = [] /\ ~ w_sil w x /\ ~ w_kin w x /\ ~ w_fld w x /\ count_occ N.eq_dec (w_cons w) x = O;
  qi_x : forall x, x < q_next q ->
    xok w (q_ep q) (In x (U ++ q_unminted q)) (In x (D ++ q_dirty q)) (In x (P ++ q_pumped q)) x (sl x q) }.

Lemma xok_mono w q q' un du pu un' du' pu' x s : adv q q' -> einv C (q_ep q) -> (un <-> un') -> (du <-> du') -> (pu <-> pu') ->
  xok w (q_ep q) un du pu x s -> xok w (q_ep q') un' du' pu' x s.
Proof.
  intros A I HU HD HP [X1 X2 X3 X4]. constructor; auto. destruct (sl_b s) as [b|], (sl_m s) as [m|]; auto.
  destruct X4 as (side & L). exists side. destruct L. constructor; auto; try tauto.
  - destruct (x_mint m) as [[sid|]|]; auto. destruct xl_mint0 as (Y1 & Y2 & Y3). split; [exact Y1|split; [exact Y2|]].
    intros kd K. eapply adv_kindok; eauto.
  - intros now E. specialize (xl_late0 now E). tauto.
Qed.
Lemma touch w U D P U' D' P' x q q' : qinv w U D P q -> adv q q' -> q_next q' = q_next q -> x < q_next q ->
  NoDup (akeys (q_conns q')) -> NoDup (akeys (q_ex q')) -> NoDup (U' ++ q_unminted q') -> (forall y, In y (U' ++ q_unminted q') -> y < q_next q) ->
  q_panic q' = false -> q_kinds q' = q_kinds q ->
  (forall y, y <> x -> sl y q' = sl y q) ->
  (forall y, y <> x -> In y (U ++ q_unminted q) <-> In y (U' ++ q_unminted q')) ->
  (forall y, y <> x -> In y (D ++ q_dirty q) <-> In y (D' ++ q_dirty q')) ->
  (forall y, y <> x -> In y (P ++ q_pumped q) <-> In y (P' ++ q_pumped q')) ->
  xok w (q_ep q') (In x (U' ++ q_unminted q')) (In x (D' ++ q_dirty q')) (In x (P' ++ q_pumped q')) x (sl x q') ->
  qinv w U' D' P' q'.
Proof.
  intros I A N L NC NX NU LT PA KI SL FU FD FP X. constructor; auto.
  - eapply adv_einv; [exact A|apply (qi_e _ _ _ _ _ I)].
  - intros y J. rewrite N. auto.
  - intros id kd G. rewrite KI in G. eapply adv_kindok; [exact A|apply (qi_e _ _ _ _ _ I)|]. eapply (qi_kinds _ _ _ _ _ I), G.
  - intros y G. rewrite N in G. rewrite SL by lia. apply (qi_fresh _ _ _ _ _ I y G).
  - intros y G. rewrite N in G. destruct (N.eq_dec y x) as [->|NE]; [exact X|]. rewrite SL by exact NE.
    eapply xok_mono; [exact A|apply (qi_e _ _ _ _ _ I)|apply FU, NE|apply FD, NE|apply FP, NE|]. apply (qi_x _ _ _ _ _ I y G).
Qed.
(** an exchange that is gone needs no attention *)
Lemma drop_D w U D P x q : qinv w U (x :: D) P q -> aget x (q_conns q) = None -> qinv w U D P q.
Proof.
  intros I G. constructor; try apply I. intros y L. pose proof (qi_x _ _ _ _ _ I y L) as X. destruct (N.eq_dec y x) as [->|NE].
  - destruct X as [X1 X2 X3 X4]. constructor; auto. change (sl_b (sl x q)) with (aget x (q_conns q)) in *. rewrite G in *. exact X4.
  - eapply xok_mono; [apply adv_refl|apply I|reflexivity| |reflexivity|exact X]. cbn. intuition congruence.
Qed.
Lemma drop_U w U D P x q : qinv w (x :: U) D P q -> (match aget x (q_conns q) with None => True | Some b => br_terminal b = true end) -> qinv w U D P q.
Proof.
  intros I G. assert (NU := qi_nu _ _ _ _ _ I). cbn in NU. inversion NU as [|? ? N1 N2]; subst. constructor; try apply I.
  - exact N2.
  - intros y J. apply (qi_lt _ _ _ _ _ I). now right.
  - intros y L. pose proof (qi_x _ _ _ _ _ I y L) as X. destruct (N.eq_dec y x) as [->|NE].
    + destruct X as [X1 X2 X3 X4]. constructor; auto. change (sl_b (sl x q)) with (aget x (q_conns q)) in *. destruct (aget x (q_conns q)) as [b|]; [|exact X4].
      destruct (sl_m (sl x q)) as [m|]; [|exact X4]. destruct X4 as (side & []). exists side. constructor; auto. intros. congruence. tauto.
    + eapply xok_mono; [apply adv_refl|apply I| |reflexivity|reflexivity|exact X]. cbn. intuition congruence.
Qed.
Lemma live_lt w U D P q x b : qinv w U D P q -> aget x (q_conns q) = Some b -> x < q_next q.
Proof.
  intros I G. destruct (N.lt_ge_cases x (q_next q)) as [L|L]; [exact L|]. destruct (qi_fresh _ _ _ _ _ I x L) as (E & _).
  unfold sl, empty in E. injection E as E _. congruence.
Qed.
Lemma live_of w U D P q x b : qinv w U D P q -> aget x (q_conns q) = Some b -> exists m side, aget x (q_ex q) = Some m /\
  xlive w (q_ep q) (In x (U ++ q_unminted q)) (In x (D ++ q_dirty q)) (In x (P ++ q_pumped q)) x (sl x q) b m side.
Proof.
  intros I G. pose proof (xo_x _ _ _ _ _ _ _ (qi_x _ _ _ _ _ I x (live_lt _ _ _ _ _ _ _ I G))) as X.
  cbn [sl sl_b sl_m] in X. rewrite G in X. destruct (aget x (q_ex q)) as [m|] eqn:M; [|contradiction]. destruct X as (side & X). eauto.
Qed.
Lemma ex_live w U D P q x m : qinv w U D P q -> aget x (q_ex q) = Some m -> exists b, aget x (q_conns q) = Some b.
Proof.
  intros I G. destruct (N.lt_ge_cases x (q_next q)) as [L|L].
  - pose proof (xo_x _ _ _ _ _ _ _ (qi_x _ _ _ _ _ I x L)) as X. cbn [sl sl_b sl_m] in X. rewrite G in X. destruct (aget x (q_conns q)); [eauto|contradiction].
  - destruct (qi_fresh _ _ _ _ _ I x L) as (E & _). unfold sl, empty in E. injection E as _ E _. congruence.
Qed.

(** * Steps that concern one exchange *)
Definition near (x : N) (q q' : coord) : Prop :=
  adv q q' /\ gl q' = gl q /\ (forall y, y <> x -> sl y q' = sl y q) /\
  (NoDup (akeys (q_conns q)) -> NoDup (akeys (q_conns q'))) /\ (NoDup (akeys (q_ex q)) -> NoDup (akeys (q_ex q'))).
Lemma near_refl x q : near x q q.
Proof. split; [apply adv_refl|auto]. Qed.
Lemma near_trans x a b c : near x a b -> near x b c -> near x a c.
Proof.
  intros (A & G & S & N & M) (A' & G' & S' & N' & M'). split; [eapply adv_trans; eauto|]. split; [congruence|]. split; [|auto].
  intros y NE. rewrite S', S; auto.
Qed.
Lemma near_gl x q q' : near x q q' -> q_next q' = q_next q /\ q_dirty q' = q_dirty q /\ q_pumped q' = q_pumped q /\ q_unminted q' = q_unminted q /\ q_kinds q' = q_kinds q /\ q_panic q' = q_panic q.
Proof. intros (_ & G & _). unfold gl in G. injection G as -> -> -> -> -> ->. auto 7. Qed.
Lemma near_take x q : near x q (q_set_conns (adel x (q_conns q)) q).
Proof.
  split; [now apply adv_same|]. split; [reflexivity|]. split; [|split; [cbn; apply nodup_adel|auto]].
  intros y NE. unfold sl. cbn. now rewrite aget_adel_ne.
Qed.
Lemma near_put x b q : near x q (q_set_conns (aset x b (q_conns q)) q).
Proof.
  split; [now apply adv_same|]. split; [reflexivity|]. split; [|split; [cbn; apply nodup_aset|auto]].
  intros y NE. unfold sl. cbn. now rewrite aget_aset_ne.
Qed.
Lemma near_drained x b e l q : e = fst (ep_run C (q_ep q) l) -> near x q (snd (drained x (b, e, l) q)) /\ fst (drained x (b, e, l) q) = b /\
  sl x (snd (drained x (b, e, l) q)) = let s := sl x q in mkSl (sl_b s) (sl_m s) (sl_out s) (sl_con s) (sl_td s) (sl_log s ++ l).
Proof.
  intros E. cbn. split; [|split; [reflexivity|unfold sl; cbn; now rewrite logs_app, logs_tag]].
  split; [|split; [reflexivity|split; [|auto]]].
  - exists (map (fun o => (Some x, o)) l). cbn. split; [reflexivity|]. rewrite map_map. cbn. now rewrite map_id.
  - intros y NE. unfold sl. cbn. now rewrite logs_app, logs_tag_ne, app_nil_r.
Qed.
Lemma near_reap x b m q : aget x (q_ex q) = Some m -> near x q (reap C x b q).
Proof.
  intros M. destruct (reap_spec x b m q M) as (A & G & CO & EX & SL & _). split; [exact A|]. split; [exact G|]. split; [exact SL|].
  rewrite CO, EX. split; [auto|apply nodup_adel].
Qed.

Lemma no_exch l l1 l2 x p ok k : filter exch l = [] -> l <> l1 ++ ERequeue (EvExchange x p ok k) :: l2.
Proof. intros F E. rewrite E, filter_app in F. cbn in F. now apply app_eq_nil in F as (_ & F). Qed.
Lemma earned_none l : filter exch l = [] -> earned l.
Proof. intros F l1 l2 x p k E. exfalso. eapply no_exch; eauto. Qed.
Lemma split_at {A} (f : A -> bool) (l0 t0 l1 t1 : list A) a c : filter f l0 = [] -> filter f t0 = [] -> f c = true -> l0 ++ a :: t0 = l1 ++ c :: t1 -> l0 = l1 /\ a = c.
Proof.
  revert l1. induction l0 as [|d l0 IH]; intros l1 F T CC E; destruct l1 as [|d1 l1]; cbn in *.
  - injection E as -> _. auto.
  - injection E as -> E. rewrite E, filter_app in T. cbn in T. rewrite CC in T. now apply app_eq_nil in T as (_ & T).
  - injection E as -> E. rewrite CC in F. discriminate.
  - injection E as -> E. destruct (f d1); [discriminate|]. destruct (IH l1 F T CC E) as (-> & ->). auto.
Qed.
Lemma earned_one l0 t0 x p ok k : filter exch l0 = [] -> filter exch t0 = [] ->
  (ok = true -> k = XUserMessage \/ exists o, In o l0 /\ answer_to k o) -> earned (l0 ++ ERequeue (EvExchange x p ok k) :: t0).
Proof.
  intros F T H l1 l2 x' p' k' E. apply split_at with (f := exch) in E; auto. destruct E as (-> & E). injection E as -> -> -> ->. auto.
Qed.
Lemma news_count x b m : (length (filter exch (news x b m)) <= 1)%nat /\ (x_kind m <> None -> filter exch (news x b m) <> []).
Proof.
  unfold news. destruct (x_kind m) as [k|]; destruct (x_mint m) as [[|]|]; cbn; split; auto; try discriminate; try congruence.
Qed.
Lemma news_payload x b m : Forall (fun o => payload o = false) (news x b m).
Proof. unfold news. apply Forall_app. split; [destruct (x_kind m)|destruct (x_mint m) as [[]|]]; repeat constructor. Qed.
Lemma earned_news l x b m : filter exch l = [] ->
  (br_failed b = false -> forall k, x_kind m = Some k -> k = XUserMessage \/ exists o, In o l /\ answer_to k o) -> earned (l ++ news x b m).
Proof.
  intros F H. unfold news. destruct (x_kind m) as [k|].
  - cbn [app]. apply earned_one; [exact F|destruct (x_mint m) as [[]|]; reflexivity|]. intros E. apply H; [now destruct (br_failed b)|reflexivity].
  - apply earned_none. cbn [app]. rewrite filter_app, F. destruct (x_mint m) as [[]|]; reflexivity.
Qed.
Lemma reap_ok w U D P x q0 q1 b0 b m l : qinv w U (x :: D) P q0 -> aget x (q_conns q0) = Some b0 -> aget x (q_ex q0) = Some m -> near x q0 q1 ->
  sl x q1 = mkSl None (Some m) (sl_out (sl x q0)) (sl_con (sl x q0)) (sl_td (sl x q0)) (sl_log (sl x q0) ++ l) ->
  (br_failed b0 = true -> br_failed b = true) -> (w_sil w x -> br_failed b = false -> r_out (br_rec b) = []) ->
  (w_gat w x -> Forall (fun o => payload o = false) l) -> filter exch l = [] ->
  (br_failed b = false -> forall k, x_kind m = Some k -> k = XUserMessage \/ exists o, In o l /\ answer_to k o) ->
  qinv w U D P (reap C x b q1).
Proof.
  intros I G M NR SL FF HS HG HE HA. destruct (live_of _ _ _ _ _ _ _ I G) as (m' & side & M' & L). rewrite M in M'. injection M' as <-.
  pose proof (live_lt _ _ _ _ _ _ _ I G) as LT. pose proof (qi_x _ _ _ _ _ I x LT) as XO.
  assert (M1 : aget x (q_ex q1) = Some m) by (change (sl_m (sl x q1) = Some m); now rewrite SL).
  pose proof (near_trans _ _ _ _ NR (near_reap x b m q1 M1)) as NR2. destruct (near_gl _ _ _ NR2) as (E1 & E2 & E3 & E4 & E5 & E6).
  destruct NR2 as (A & _ & SY & N1 & N2). destruct (reap_spec x b m q1 M1) as (_ & _ & _ & _ & _ & SX).
  eapply touch with (x := x); try exact I; try exact A; auto.
  - apply N1, I.
  - apply N2, I.
  - rewrite E4. apply I.
  - intros y J. rewrite E4 in J. apply (qi_lt _ _ _ _ _ I y J).
  - rewrite E6. apply I.
  - intros y NE. now rewrite E4.
  - intros y NE. rewrite E2. cbn. intuition congruence.
  - intros y NE. now rewrite E3.
  - rewrite SX. change (aget x (q_conns q1)) with (sl_b (sl x q1)). change (outs_of x (q_out q1)) with (sl_out (sl x q1)). change (cons_of x (q_con q1)) with (sl_con (sl x q1)).
    change (tds_of x (q_td q1)) with (sl_td (sl x q1)). change (logs_of x (q_log q1)) with (sl_log (sl x q1)). rewrite SL. cbn [sl_b sl_m sl_out sl_con sl_td sl_log].
    constructor; cbn [sl_b sl_m sl_out sl_con sl_td sl_log].
    + apply (xo_con _ _ _ _ _ _ _ XO).
    + intros W1. destruct (br_failed b) eqn:F; [reflexivity|]. rewrite (xo_sil _ _ _ _ _ _ _ XO W1). unfold last_bytes. now rewrite (HS W1 eq_refl).
    + intros W1. apply Forall_app. split; [apply Forall_app; split; [apply (xo_gat _ _ _ _ _ _ _ XO W1)|auto]|apply news_payload].
    + constructor; cbn [sl_b sl_m sl_out sl_con sl_td sl_log].
      * destruct (xl_T _ _ _ _ _ _ _ _ _ _ L) as (n & T & HN). rewrite app_assoc, T. exists (if x_fin m then [TShutdown x] else []), (repeat (TAbort x) n ++ [failing b x]).
        rewrite <- app_assoc. split; [reflexivity|]. split; [destruct (x_fin m); auto|]. unfold failing. destruct HN as [->|(-> & F)].
        -- cbn. destruct (br_failed b); auto.
        -- rewrite (FF F). auto.
      * rewrite !filter_app, (xl_count _ _ _ _ _ _ _ _ _ _ L), HE. apply news_count.
      * intros W1. rewrite !filter_app, (xl_count _ _ _ _ _ _ _ _ _ _ L), HE. apply news_count. apply (xl_kin _ _ _ _ _ _ _ _ _ _ L W1).
      * apply earned_news; [rewrite filter_app, (xl_count _ _ _ _ _ _ _ _ _ _ L), HE; reflexivity|].
        intros F k K. destruct (HA F k K) as [X|(o & O1 & O2)]; [auto|right]. exists o. split; [apply in_or_app; auto|exact O2].
      * intros W1. now rewrite (FF (xl_fld _ _ _ _ _ _ _ _ _ _ L W1)).
Qed.

Lemma replay_failed now b : br_failed b = true -> br_replay W B now b = b.
Proof. intros F. unfold br_replay. destruct (br_stream b); [|reflexivity]. unfold br_pump_in. now rewrite (failed_terminal b F). Qed.
Lemma ev_exch now b : filter exch (ev_of now b) = [].
Proof. unfold ev_of. destruct (br_stream b) as [s|]; [|reflexivity]. induction (s_ep s) as [|a l IH]; [reflexivity|exact IH]. Qed.
Lemma answered k now b kd : binv (Some k) b -> br_phase b = BEst LBothClosed -> kind_of k = kd -> kd = XUserMessage \/ exists o, In o (ev_of now b) /\ answer_to kd o.
Proof.
  intros I P K. destruct (br_stream b) as [s|] eqn:S.
  2: { destruct (bi_none _ _ I S) as ([X|X] & _); [congruence|]. unfold br_failed in X. rewrite P in X. discriminate. }
  pose proof (bi_recv _ _ I s S) as R. rewrite P in R. unfold recv_phase in R.
  destruct (bi_some _ _ I s S) as (_ & _ & _ & SI). destruct SI as (SI & _); [unfold br_failed; now rewrite P|].
  unfold sinv in SI. destruct (s_phase s) as [k'|k'| | | |] eqn:PS; try contradiction.
  - destruct SI as (-> & _). destruct k; try contradiction. cbn in K. auto.
  - destruct SI as (_ & A). unfold ev_of. rewrite S. destruct k; cbn in *.
    + destruct A as (st & u & ->). right. subst kd. eexists. split; [left; reflexivity|]. cbn. do 6 eexists. reflexivity.
    + destruct A as (t & ->). right. subst kd. eexists. split; [left; reflexivity|]. cbn. do 3 eexists. reflexivity.
    + auto.
Qed.
Lemma not_recv_closed b : noeof b -> br_phase b <> BEst LRecvClosed.
Proof. intros N. apply (ne_phase _ N). Qed.
Lemma noeof_events now b : noeof b -> br_terminal b = true -> Forall (fun o => payload o = false) (ev_of now b).
Proof.
  intros N T. unfold ev_of. destruct (br_stream b) as [s|] eqn:S; [|constructor].
  rewrite (ne_failed _ N (noeof_terminal _ N T) s S). constructor.
Qed.
Lemma noeof_payload side now b e : noeof b -> binv side b -> br_terminal b = false -> br_drain_payload C W B rnd now b e = (b, e, []).
Proof. intros N _ _. unfold br_drain_payload. destruct (br_phase b) as [|[]] eqn:P; try reflexivity. exfalso. destruct (ne_phase _ N) as (X & _). exact (X P). Qed.

(** ** One turn of the pump *)
(** the last step of [pump_one] and the whole: [b1] is the bridge once pumped *)
Lemma pump_reap w U D P x q0 q1 b0 b m side now l : qinv w U (x :: D) P q0 -> aget x (q_conns q0) = Some b0 -> aget x (q_ex q0) = Some m -> near x q0 q1 ->
  sl x q1 = mkSl None (Some m) (sl_out (sl x q0)) (sl_con (sl x q0)) (sl_td (sl x q0)) (sl_log (sl x q0) ++ l) ->
  binv side b -> br_terminal b = true -> (br_failed b0 = true -> br_failed b = true) -> (w_sil w x -> mute b) -> (w_gat w x -> noeof b) ->
  (w_gat w x -> Forall (fun o => payload o = false) l) -> filter exch l = [] ->
  (forall k kd, side = Some k -> x_kind m = Some kd -> br_stream b <> None -> kind_of k = kd) -> (side = None -> x_kind m = None) ->
  qinv w U D P (let '(b', q') := drained x (br_drain_reap C W B rnd now b (q_ep q1)) q1 in reap C x b' q').
Proof.
  intros I G M NR SL BI T FF HS HN HG HE HK HK'. pose proof (drain_reap_spec C W B rnd side now b (q_ep q1) BI T) as DR.
  destruct (br_drain_reap C W B rnd now b (q_ep q1)) as [[b' e'] l'] eqn:ED. destruct DR as (EE & EL & R1 & R2 & R3).
  destruct (near_drained x b' e' l' q1 EE) as (ND & FB & SD). destruct (drained x (b', e', l') q1) as [b2 q2]. cbn [fst snd] in *. subst b2. rewrite SL in SD. cbn [sl_b sl_m sl_out sl_con sl_td sl_log] in SD.
  assert (LE : filter exch l' = []). { rewrite EL. destruct (br_stream b); [|reflexivity]. rewrite filter_app, ev_exch. reflexivity. }
  eapply reap_ok with (l := l ++ l'); try exact I; try exact G; try exact M.
  - eapply near_trans; [exact NR|exact ND].
  - rewrite app_assoc. exact SD.
  - auto.
  - intros W1 F. rewrite (R3 F). apply (HS W1).
  - intros W1. apply Forall_app. split; [auto|]. rewrite EL. destruct (br_stream b) as [s|]; [|constructor]. apply Forall_app. split; [apply noeof_events; auto|repeat constructor].
  - now rewrite filter_app, HE, LE.
  - intros F k K. assert (F1 : br_failed b = false) by (destruct (br_failed b); [specialize (R2 eq_refl); congruence|reflexivity]).
    assert (PB : br_phase b = BEst LBothClosed) by (unfold br_terminal, br_failed in T, F1; destruct (br_phase b) as [|[]]; congruence).
    destruct side as [k0|]; [|specialize (HK' eq_refl); congruence].
    assert (SN : br_stream b <> None). { intros S. destruct (bi_none _ _ BI S) as ([X|X] & _); congruence. }
    destruct (answered k0 now b k BI PB (HK k0 k eq_refl K SN)) as [X|(o & O1 & O2)]; [auto|right]. exists o. split; [|exact O2]. apply in_or_app. right.
    rewrite EL. destruct (br_stream b); [|congruence]. apply in_or_app. now left.
Qed.
Lemma in_oset x y l : In y (oset x l) <-> y = x \/ In y l.
Proof.
  induction l as [|a l IH]; cbn; [intuition|]. destruct (x <? a); cbn; [intuition|]. destruct (N.eqb_spec x a); cbn; [subst; intuition|]. rewrite IH. intuition.
Qed.
Lemma pump_one_ok w U D P now q x : (w_late w = None \/ w_late w = Some now) -> qinv w U (x :: D) P q -> qinv w U D P (pump_one C W B rnd now q x).
Proof.
  intros LA I. unfold pump_one. destruct (aget x (q_conns q)) as [b0|] eqn:G; [|eapply drop_D; eauto].
  destruct (live_of _ _ _ _ _ _ _ I G) as (m & side & M & L). pose proof (live_lt _ _ _ _ _ _ _ I G) as LT. pose proof (qi_x _ _ _ _ _ I x LT) as XO.
  set (q1 := q_set_conns (adel x (q_conns q)) q). set (b1 := br_pump_out B rnd now (br_replay W B now b0)).
  assert (NR : near x q q1) by apply near_take.
  assert (SL1 : sl x q1 = mkSl None (Some m) (sl_out (sl x q)) (sl_con (sl x q)) (sl_td (sl x q)) (sl_log (sl x q) ++ [])).
  { unfold sl, q1. cbn. rewrite aget_adel_eq, M, app_nil_r. reflexivity. }
  destruct L. assert (IR : binv side (br_replay W B now b0)) by now apply replay_inv.
  assert (I1 : binv side b1) by (apply pump_out_inv; exact IR).
  assert (PO : pumped_out now b1) by (eapply pump_out_post; exact IR).
  assert (F1 : br_failed b0 = true -> br_failed b1 = true). { intros F. unfold b1. rewrite replay_failed by exact F. now apply pump_out_failed. }
  assert (O1 : onward b0 b1) by (eapply onward_trans; [apply (onward_replay W B rnd)|apply onward_pump_out]).
  assert (S1 : br_stream b1 = None <-> br_stream b0 = None) by apply O1.
  assert (HS1 : w_sil w x -> mute b1). { intros W1. unfold b1. eapply mute_pump_out; [exact IR|]. eapply mute_replay; eauto. }
  assert (HN1 : w_gat w x -> noeof b1). { intros W1. unfold b1. apply noeof_pump_out, noeof_replay; auto. }
  assert (HK1 : forall b k kd, (br_stream b = None <-> br_stream b0 = None) -> side = Some k -> x_kind m = Some kd -> br_stream b <> None -> kind_of k = kd).
  { intros b k kd E1 E2 E3 E4. apply xl_kind0; auto. tauto. }
  assert (HK2 : side = None -> x_kind m = None). { intros E. apply xl_in0. rewrite xl_out0, E. reflexivity. }
  destruct (br_terminal b1) eqn:T1.
  { eapply pump_reap with (l := []); try exact I; try exact G; try exact M; try exact I1; try exact T1; auto.
    intros k kd E1 E2 E3. eapply HK1; eauto. }
  pose proof (drain_payload_spec C W B rnd side now b1 (q_ep q1) I1 PO T1) as DP.
  pose proof (onward_payload C W B rnd now b1 (q_ep q1)) as O2.
  assert (HS2 : w_sil w x -> mute (fst (fst (br_drain_payload C W B rnd now b1 (q_ep q1))))) by (intros W1; eapply mute_drain; eauto).
  assert (HN2 : w_gat w x -> br_drain_payload C W B rnd now b1 (q_ep q1) = (b1, q_ep q1, [])) by (intros W1; eapply noeof_payload; eauto).
  destruct (br_drain_payload C W B rnd now b1 (q_ep q1)) as [[b2 e2] l2] eqn:ED. destruct DP as (EE & I2 & PO2 & NRC & EL & SN & SD). cbn [fst] in HS2, O2.
  destruct (near_drained x b2 e2 l2 q1 EE) as (ND & FB & SX). destruct (drained x (b2, e2, l2) q1) as [b2' q2]. cbn [fst snd] in *. subst b2'. rewrite SL1 in SX. cbn [sl_b sl_m sl_out sl_con sl_td sl_log] in SX. rewrite app_nil_r in SX.
  assert (NF1 : br_failed b1 = false) by (destruct (br_failed b1) eqn:F; [rewrite (failed_terminal _ F) in T1; discriminate|reflexivity]).
  assert (LE : filter exch l2 = []). { rewrite EL. destruct (br_phase b1) as [|[]]; try reflexivity. apply ev_exch. }
  assert (S2 : br_stream b2 = None <-> br_stream b0 = None) by (rewrite <- S1; apply O2).
  assert (NR2 : near x q q2) by (eapply near_trans; eauto).
  destruct (br_terminal b2) eqn:T2.
  { eapply pump_reap with (l := l2); try exact I; try exact G; try exact M; try exact I2; try exact T2; auto.
    - intros F. specialize (F1 F). congruence.
    - intros W1. specialize (HN2 W1). injection HN2 as -> _ _. auto.
    - intros W1. specialize (HN2 W1). injection HN2 as _ _ ->. constructor.
    - intros k kd E1 E2 E3. eapply HK1; eauto. }
  assert (NF0 : br_failed b0 = false) by (destruct (br_failed b0); [specialize (F1 eq_refl); congruence|reflexivity]).
  assert (NF2 : br_failed b2 = false) by (destruct (br_failed b2) eqn:F; [rewrite (failed_terminal _ F) in T2; discriminate|reflexivity]).
  destruct (PO2 NF2) as (PS2 & PD2). specialize (PD2 T2).
  set (q3 := maybe_shutdown x b2 q2). assert (M2 : aget x (q_ex q2) = Some m) by (change (sl_m (sl x q2) = Some m); now rewrite SX).
  assert (H3 : exists m', near x q2 q3 /\ sl x q3 = mkSl None (Some m') (sl_out (sl x q)) (sl_con (sl x q)) (sl_td (sl x q) ++ if x_fin m' then if x_fin m then [] else [TShutdown x] else []) (sl_log (sl x q) ++ l2) /\
     x_peer m' = x_peer m /\ x_mint m' = x_mint m /\ x_kind m' = x_kind m /\ x_outbound m' = x_outbound m /\ (br_fin b2 = true -> x_fin m' = true) /\ (x_fin m' = true -> br_fin b2 = true) /\ (x_fin m = true -> x_fin m' = true)).
  { assert (FO : x_fin m = true -> br_fin b2 = true) by (intros E; apply O2, O1, xl_fin0, E).
    unfold q3, maybe_shutdown. rewrite M2. destruct (br_fin b2) eqn:FB; cbn [negb].
    - destruct (x_fin m) eqn:XF.
      + exists m. rewrite XF, app_nil_r. split; [apply near_refl|]. split; [exact SX|auto 9].
      + exists (x_set_fin true m). cbn. split; [|split; [|auto 9]].
        * split; [now apply adv_same|split; [reflexivity|split; [|split; [auto|cbn; apply nodup_aset]]]].
          intros y NE. unfold sl. cbn. rewrite aget_aset_ne, tds_app, tds_one by exact NE. cbn. destruct (N.eqb_spec x y); [congruence|]. now rewrite app_nil_r.
        * unfold sl, push_td. cbn. rewrite aget_aset_eq, tds_app, tds_one. cbn. rewrite N.eqb_refl. unfold sl in SX. injection SX as -> _ -> -> -> ->. reflexivity.
    - exists m. destruct (x_fin m) eqn:XF; [specialize (FO eq_refl); congruence|]. rewrite app_nil_r. split; [apply near_refl|]. split; [exact SX|]. repeat (split; [auto; fail|]). auto. }
  destruct H3 as (m' & NR3 & SX3 & X1 & X2 & X3 & X4 & X5 & X6 & X7). clearbody q3.
  pose proof (near_trans _ _ _ _ NR2 (near_trans _ _ _ _ NR3 (near_put x b2 q3))) as NR4.
  set (q4 := q_set_conns (aset x b2 (q_conns q3)) q3) in *.
  assert (SX4 : sl x q4 = mkSl (Some b2) (Some m') (sl_out (sl x q)) (sl_con (sl x q)) (sl_td (sl x q) ++ if x_fin m' then if x_fin m then [] else [TShutdown x] else []) (sl_log (sl x q) ++ l2)).
  { unfold q4, sl at 1. cbn. rewrite aget_aset_eq. unfold sl in SX3 at 1. injection SX3 as _ -> -> -> -> ->. reflexivity. }
  change (q_set_pumped (oset x (q_pumped q3)) q4) with (q_set_pumped (oset x (q_pumped q4)) q4).
  clearbody q4. destruct (near_gl _ _ _ NR4) as (E1 & E2 & E3 & E4 & E5 & E6). destruct NR4 as (A4 & _ & SY4 & N1 & N2).
  eapply touch with (x := x); try exact I; cbn [q_next q_set_pumped q_conns q_ex q_unminted q_kinds q_panic q_dirty q_pumped q_ep]; auto.
  - apply N1, I.
  - apply N2, I.
  - rewrite E4. apply I.
  - intros y J. rewrite E4 in J. apply (qi_lt _ _ _ _ _ I y J).
  - rewrite E6. apply I.
  - intros y NE. now rewrite E4.
  - intros y NE. rewrite E2. clear - NE. cbn. intuition congruence.
  - intros y NE. rewrite E3, !in_app_iff, in_oset. clear - NE. intuition congruence.
  - change (sl x (q_set_pumped (oset x (q_pumped q4)) q4)) with (sl x q4). rewrite SX4, E2, E3, E4.
    constructor; cbn [sl_b sl_m sl_out sl_con sl_td sl_log].
    + apply (xo_con _ _ _ _ _ _ _ XO).
    + apply (xo_sil _ _ _ _ _ _ _ XO).
    + intros W1. apply Forall_app. split; [apply (xo_gat _ _ _ _ _ _ _ XO W1)|]. specialize (HN2 W1). injection HN2 as _ _ ->. constructor.
    + exists side. constructor; cbn [sl_b sl_m sl_out sl_con sl_td sl_log]; rewrite ?X2, ?X3, ?X4; auto.
      * destruct (x_mint m) as [[sid|]|]; [|tauto|tauto]. destruct xl_mint0 as (Y1 & Y2 & Y3). split; [tauto|split; [exact Y2|]]. intros kd K. eapply adv_kindok; [exact A4|apply I|auto].
      * intros k kd K1 K2 K3. apply xl_kind0; auto. tauto.
      * intros S NT. apply S2 in S. apply xl_un0; [exact S|]. destruct (bi_none _ _ xl_b0 S) as ([Y|Y] & _); [|congruence]. unfold br_terminal. now rewrite Y.
      * intros Y. apply S2. auto.
      * congruence.
      * right. right. rewrite in_app_iff, in_oset. auto.
      * destruct xl_T0 as (n & T & HN). exists n. destruct HN as [->|(_ & Y)]; [|congruence]. rewrite app_assoc, T. split; [|auto]. cbn [repeat]. rewrite !app_nil_r.
        destruct (x_fin m) eqn:XF; [rewrite X7 by reflexivity; now rewrite app_nil_r|]. destruct (x_fin m'); reflexivity.
      * now rewrite filter_app, xl_count0, LE.
      * intros t Y. destruct LA as [LA|LA]; rewrite LA in Y; [discriminate|]. injection Y as <-. auto.
      * intros W1. specialize (HN2 W1). injection HN2 as -> _ _. auto.
      * intros W1. specialize (xl_fld0 W1). congruence.
Qed.
Lemma pump_all_ok w U P now q : (w_late w = None \/ w_late w = Some now) -> qinv w U [] P q -> qinv w U [] P (pump_all C W B rnd now q).
Proof.
  intros LA I. unfold pump_all. assert (qinv w U (q_dirty q) P (q_set_dirty [] q)) as I1.
  { destruct I. constructor; auto. intros x L. cbn. rewrite app_nil_r. apply (qi_x0 x L). }
  revert I1. generalize (q_set_dirty [] q) as q1. generalize (q_dirty q) as D. induction D as [|x D IH]; intros q1 I1; [exact I1|].
  cbn [fold_left]. apply IH. now apply pump_one_ok.
Qed.

(** ** Minting *)
Lemma cancel_spec x q : near x q (cancel x q) /\ sl x (cancel x q) = mkSl None None [] (cons_of x (q_con q)) [TAbort x] (logs_of x (q_log q)).
Proof.
  split.
  - split; [now apply adv_same|]. split; [reflexivity|]. split; [|split; cbn; apply nodup_adel].
    intros y NE. unfold sl, cancel, push_td, purge. cbn. rewrite !aget_adel_ne, outs_ne, tds_app, tds_ne, tds_one by exact NE. cbn.
    destruct (N.eqb_spec x y); [congruence|]. now rewrite app_nil_r.
  - unfold sl, cancel, push_td, purge. cbn. rewrite !aget_adel_eq, outs_eq, tds_app, tds_eq, tds_one. cbn. now rewrite N.eqb_refl.
Qed.
Lemma retire_spec x m q : aget x (q_ex q) = Some m -> near x q (retire_dial C x q) /\
  sl x (retire_dial C x q) = mkSl None None [] [] (tds_of x (q_td q) ++ [TAbort x])
    (logs_of x (q_log q) ++ match x_kind m with Some k => [ERequeue (EvExchange x (x_peer m) false k)] | None => [] end).
Proof.
  intros M. unfold retire_dial. set (q1 := q_set_conns _ _).
  assert (S1 : near x q q1 /\ sl x q1 = mkSl None (Some m) [] [] (tds_of x (q_td q)) (logs_of x (q_log q))).
  { split.
    - split; [now apply adv_same|]. split; [reflexivity|]. split; [|split; cbn; auto; apply nodup_adel].
      intros y NE. unfold sl, q1, purge, purge_connect. cbn. rewrite aget_adel_ne, outs_ne, cons_ne by exact NE. reflexivity.
    - unfold sl, q1, purge, purge_connect. cbn. rewrite aget_adel_eq, outs_eq, cons_eq, M. reflexivity. }
  destruct S1 as (N1 & S1). clearbody q1. assert (M1 : aget x (q_ex q1) = Some m) by (change (sl_m (sl x q1) = Some m); now rewrite S1). rewrite M1.
  set (q2 := q_set_ex (adel x (q_ex q1)) q1).
  assert (S2 : near x q q2 /\ sl x q2 = mkSl None None [] [] (tds_of x (q_td q)) (logs_of x (q_log q))).
  { split.
    - eapply near_trans; [exact N1|]. split; [now apply adv_same|]. split; [reflexivity|]. split; [|split; cbn; auto; apply nodup_adel].
      intros y NE. unfold sl, q2. cbn. now rewrite aget_adel_ne.
    - unfold sl in *. cbn. injection S1 as -> _ -> -> -> ->. now rewrite aget_adel_eq. }
  destruct S2 as (N2 & S2). clearbody q2. clear q1 N1 S1 M1.
  set (q3 := match x_kind m with Some k => _ | None => _ end).
  assert (S3 : near x q q3 /\ sl x q3 = mkSl None None [] [] (tds_of x (q_td q)) (logs_of x (q_log q) ++ match x_kind m with Some k => [ERequeue (EvExchange x (x_peer m) false k)] | None => [] end)).
  { subst q3. destruct (x_kind m) as [k|]; [|rewrite app_nil_r; auto]. split.
    - eapply near_trans; [exact N2|]. split; [apply adv_call|]. split; [apply gl_call|]. split; [|unfold call_; rewrite call_eq; auto].
      intros y NE. rewrite sl_call. cbn. destruct (N.eqb_spec x y); [congruence|]. now rewrite app_nil_r.
    - rewrite sl_call, S2. cbn. now rewrite N.eqb_refl. }
  destruct S3 as (N3 & S3). clearbody q3. clear q2 N2 S2. split.
  - eapply near_trans; [exact N3|]. split; [now apply adv_same|]. split; [reflexivity|]. split; [|auto].
    intros y NE. unfold sl, push_td. cbn. rewrite tds_app, tds_one. cbn. destruct (N.eqb_spec x y); [congruence|]. now rewrite app_nil_r.
  - unfold sl, push_td in *. cbn. rewrite tds_app, tds_one. cbn. rewrite N.eqb_refl. injection S3 as -> -> -> -> -> ->. reflexivity.
Qed.
Lemma nodup_oset x U l : NoDup (x :: U ++ l) -> NoDup (U ++ oset x l).
Proof.
  intros N. inversion N as [|? ? N1 N2]; subst. clear N. induction U as [|a U IH]; cbn in *.
  - induction l as [|a l IH]; cbn; [constructor; auto|]. destruct (x <? a); [constructor; auto|]. destruct (N.eqb_spec x a); [exact N2|].
    inversion N2; subst. constructor; [rewrite in_oset; intros [->|?]; auto|]. apply IH; auto. intros H. apply N1. now right.
  - inversion N2; subst. constructor; [|apply IH; auto]. rewrite in_app_iff, in_oset in *. intuition.
Qed.
Lemma binv_any k k' b : br_stream b = None -> binv (Some k) b -> binv (Some k') b.
Proof.
  intros S I. pose proof (bi_dialer _ _ I) as DI. destruct I. constructor; auto; intros; try congruence. apply DI. discriminate.
Qed.
Lemma mute_stream b : mute b -> br_stream b = None -> br_failed b = true.
Proof. intros (_ & [F|(s & S & _)]) E; [exact F|congruence]. Qed.
Lemma ending_prefix x T1 T2 f n : T1 ++ T2 = (if f : bool then [TShutdown x] else []) ++ repeat (TAbort x) n -> (n <= 1)%nat -> ending x (T1 ++ [TAbort x]).
Proof.
  intros E LE. unfold ending. destruct f; destruct n as [|[|n]]; try lia; cbn in E.
  - destruct T1 as [|a [|a2 T1]]; cbn in E; [exists [], [TAbort x]; auto 6| |discriminate]. injection E as -> _. exists [TShutdown x], [TAbort x]. auto 6.
  - destruct T1 as [|a [|a2 [|a3 T1]]]; cbn in E; [exists [], [TAbort x]; auto 6| | |discriminate].
    + injection E as -> _. exists [TShutdown x], [TAbort x]. auto 6.
    + injection E as -> -> _. exists [TShutdown x], [TAbort x; TAbort x]. auto 6.
  - apply app_eq_nil in E as (-> & _). exists [], [TAbort x]. auto 6.
  - destruct T1 as [|a [|a2 T1]]; cbn in E; [exists [], [TAbort x]; auto 6| |discriminate]. injection E as -> _. exists [], [TAbort x; TAbort x]. auto 6.
Qed.
Lemma mint_flags w U D P x q q' : qinv w (x :: U) D P q -> q_unminted q' = q_unminted q ->
  NoDup (U ++ q_unminted q') /\ (forall y, In y (U ++ q_unminted q') -> y < q_next q) /\ (forall y, y <> x -> In y ((x :: U) ++ q_unminted q) <-> In y (U ++ q_unminted q')) /\
  ~ In x (U ++ q_unminted q').
Proof.
  intros I ->. pose proof (qi_nu _ _ _ _ _ I) as N. cbn in N. inversion N; subst. split; [assumption|]. split; [|split; [|assumption]].
  - intros y J. apply (qi_lt _ _ _ _ _ I). now right.
  - intros y NE. cbn. intuition congruence.
Qed.
Lemma mint_one_ok w U D P now q x : qinv w (x :: U) D P q -> qinv w U D P (mint_one C W now q x).
Proof.
  intros I. unfold mint_one. destruct (aget x (q_conns q)) as [b|] eqn:G; [|eapply drop_U; [exact I|now rewrite G]].
  destruct (br_terminal b) eqn:T; [eapply drop_U; [exact I|now rewrite G]|].
  destruct (live_of _ _ _ _ _ _ _ I G) as (m & side & M & L). pose proof (live_lt _ _ _ _ _ _ _ I G) as LT. pose proof (qi_x _ _ _ _ _ I x LT) as XO.
  destruct (br_handshaking b) eqn:HS.
  { constructor; try apply I; cbn [mark_unminted q_set_unminted q_unminted q_next q_ep q_dirty q_pumped].
    - apply nodup_oset. apply (qi_nu _ _ _ _ _ I).
    - intros y J. apply (qi_lt _ _ _ _ _ I). rewrite in_app_iff, in_oset in J. cbn. rewrite in_app_iff. intuition.
    - intros y LY. eapply xok_mono; [now apply adv_same|apply I| |reflexivity|reflexivity|apply (qi_x _ _ _ _ _ I y LY)].
      rewrite !in_app_iff, in_oset. cbn. intuition. }
  rewrite M. destruct L. assert (S : br_stream b = None) by (apply xl_un'0; now left).
  assert (NF : br_failed b = false) by (destruct (br_failed b) eqn:F; [rewrite (failed_terminal _ F) in T; discriminate|reflexivity]).
  assert (PH : br_phase b = BHandshaking) by (destruct (bi_none _ _ xl_b0 S) as ([Y|Y] & _); [exact Y|congruence]).
  assert (RH : rl_is_handshaking (br_rec b) = false) by (unfold br_handshaking in HS; now rewrite PH in HS).
  assert (NS : ~ w_sil w x) by (intros W1; pose proof (mute_stream _ (xl_sil0 W1) S); congruence).
  set (q1 := mark_dirty x (q_set_ex (aset x (x_set_mint None m) (q_ex q)) q)).
  assert (SY1 : forall y, y <> x -> sl y q1 = sl y q). { intros y NE. unfold sl, q1. cbn. now rewrite aget_aset_ne. }
  assert (SX1 : sl x q1 = mkSl (Some b) (Some (x_set_mint None m)) (sl_out (sl x q)) (sl_con (sl x q)) (sl_td (sl x q)) (sl_log (sl x q))).
  { unfold sl, q1. cbn. now rewrite aget_aset_eq, G. }
  assert (E1 : q_ep q1 = q_ep q) by reflexivity.
  assert (K1 : q_next q1 = q_next q /\ q_dirty q1 = oset x (q_dirty q) /\ q_pumped q1 = q_pumped q /\ q_unminted q1 = q_unminted q /\ q_kinds q1 = q_kinds q /\ q_panic q1 = q_panic q) by auto 7.
  assert (A1 : adv q q1) by now apply adv_same.
  assert (N1 : NoDup (akeys (q_conns q1)) /\ NoDup (akeys (q_ex q1))) by (split; [apply I|cbn; apply nodup_aset, I]).
  clearbody q1.
  (* a state reached from [q1] by steps that concern [x] *)
  assert (END : forall q2, near x q1 q2 -> (In x (D ++ q_dirty q2) -> ~ In x (U ++ q_unminted q2) -> xok w (q_ep q2) (In x (U ++ q_unminted q2)) (In x (D ++ q_dirty q2)) (In x (P ++ q_pumped q2)) x (sl x q2)) -> qinv w U D P q2).
  { intros q2 NR X. destruct (near_gl _ _ _ NR) as (Y1 & Y2 & Y3 & Y4 & Y5 & Y6). destruct K1 as (Z1 & Z2 & Z3 & Z4 & Z5 & Z6). destruct NR as (A2 & _ & SY2 & ND1 & ND2).
    destruct (mint_flags _ _ _ _ _ _ q2 I) as (F1 & F2 & F3 & F4); [congruence|].
    eapply touch with (x := x); try exact I; auto; try congruence.
    - eapply adv_trans; eauto.
    - apply ND1, N1.
    - apply ND2, N1.
    - rewrite Y6, Z6. apply I.
    - intros y NE. rewrite SY2, SY1; auto.
    - intros y NE. rewrite Y2, Z2, !in_app_iff, in_oset. intuition congruence.
    - intros y NE. now rewrite Y3, Z3.
    - apply X; [|exact F4]. rewrite Y2, Z2, in_app_iff, in_oset. auto. }
  (* the call *)
  assert (CALL : forall o, exch o = false -> payload o = false -> near x q1 (fst (call C (Some x) o q1)) /\
    sl x (fst (call C (Some x) o q1)) = mkSl (Some b) (Some (x_set_mint None m)) (sl_out (sl x q)) (sl_con (sl x q)) (sl_td (sl x q)) (sl_log (sl x q) ++ [o])).
  { intros o _ _. change (fst (call C (Some x) o q1)) with (call_ C (Some x) o q1). split.
    - split; [apply adv_call|]. split; [apply gl_call|]. split; [|unfold call_; rewrite call_eq; auto].
      intros y NE. rewrite sl_call. cbn. destruct (N.eqb_spec x y); [congruence|]. now rewrite app_nil_r.
    - rewrite sl_call, SX1. cbn. now rewrite N.eqb_refl. }
  assert (PROM : forall o q2 st side', exch o = false -> payload o = false -> near x q1 q2 ->
    sl x q2 = mkSl (Some b) (Some (x_set_mint None m)) (sl_out (sl x q)) (sl_con (sl x q)) (sl_td (sl x q)) (sl_log (sl x q) ++ [o]) ->
    binv side' (br_promote st b) -> x_outbound m = match side' with Some _ => true | None => false end ->
    (forall k kd, side' = Some k -> x_kind m = Some kd -> kind_of k = kd) -> qinv w U D P (promote_in x st q2)).
  { intros o q2 st side' XO1 PO1 NR SX BI OUT KD. unfold promote_in.
    assert (G2 : aget x (q_conns q2) = Some b) by (change (sl_b (sl x q2) = Some b); now rewrite SX). rewrite G2.
    apply END; [eapply near_trans; [exact NR|apply near_put]|]. intros DU UN.
    assert (SX2 : sl x (q_set_conns (aset x (br_promote st b) (q_conns q2)) q2) = mkSl (Some (br_promote st b)) (Some (x_set_mint None m)) (sl_out (sl x q)) (sl_con (sl x q)) (sl_td (sl x q)) (sl_log (sl x q) ++ [o])).
    { unfold sl at 1. cbn. rewrite aget_aset_eq. unfold sl in SX at 1. injection SX as _ -> -> -> -> ->. reflexivity. }
    rewrite SX2. destruct XO as [O1 O2 O3 _]. constructor; cbn [sl_b sl_m sl_out sl_con sl_td sl_log]; auto.
    - intros W1. apply Forall_app. auto.
    - exists side'. constructor; cbn [sl_b sl_m sl_out sl_con sl_td sl_log x_set_mint x_mint x_outbound x_kind x_fin br_promote br_stream br_set_stream br_set_phase br_failed br_phase br_rec]; auto; try discriminate; try contradiction.
      + destruct xl_T0 as (n & T0 & HN). exists n. split; [exact T0|]. destruct HN as [->|(_ & Y)]; [auto|congruence].
      + rewrite filter_app, xl_count0. cbn. now rewrite XO1.
      + intros W1. apply noeof_promote. auto. 
      + intros W1. specialize (xl_fld0 W1). congruence. }
  destruct (x_mint m) as [[sid|from]|] eqn:MI; [| |contradiction].
  - destruct xl_mint0 as (_ & OB & KO). destruct (CALL (EDialOk sid now) eq_refl eq_refl) as (NR & SX).
    assert (OUTS : snd (call C (Some x) (EDialOk sid now) q1) = snd (dial_succeeded sid now (q_ep q))) by (rewrite call_eq, E1; reflexivity).
    destruct (call C (Some x) (EDialOk sid now) q1) as [q2 outs]. cbn [fst snd] in *.
    assert (RET : qinv w U D P (retire_dial C x q2)).
    { destruct (retire_spec x (x_set_mint None m) q2) as (NR2 & SX2); [change (sl_m (sl x q2) = Some (x_set_mint None m)); now rewrite SX|].
      apply END; [eapply near_trans; eauto|]. intros DU UN. rewrite SX2. change (tds_of x (q_td q2)) with (sl_td (sl x q2)). change (logs_of x (q_log q2)) with (sl_log (sl x q2)). rewrite SX.
      cbn [sl_b sl_m sl_out sl_con sl_td sl_log x_set_mint x_kind x_peer]. destruct XO as [O1 O2 O3 _]. constructor; cbn [sl_b sl_m sl_out sl_con sl_td sl_log]; auto.
      - split; [|reflexivity]. cbn [length]. destruct O1 as (O1 & _). clear - O1. lia.
      - intros W1. apply Forall_app. split; [apply Forall_app; auto|]. destruct (x_kind m); repeat constructor.
      - destruct xl_T0 as (n & T0 & HN). constructor; cbn [sl_b sl_m sl_out sl_con sl_td sl_log].
        + rewrite app_assoc, T0. exists (if x_fin m then [TShutdown x] else []), (repeat (TAbort x) n ++ [TAbort x]). rewrite <- app_assoc. split; [reflexivity|]. split; [destruct (x_fin m); auto|].
          destruct HN as [->|(-> & _)]; auto.
        + rewrite !filter_app, xl_count0. cbn. clear. destruct (x_kind m); cbn; auto.
        + intros W1. rewrite !filter_app, xl_count0. cbn. specialize (xl_kin0 W1). destruct (x_kind m); [discriminate|congruence].
        + destruct (x_kind m) as [k|].
          * apply earned_one; [rewrite filter_app, xl_count0; reflexivity|reflexivity|discriminate].
          * apply earned_none. rewrite !filter_app, xl_count0. reflexivity.
        + reflexivity. }
    unfold dial_succeeded in OUTS. destruct (aget sid (e_int (q_ep q))) as [i|] eqn:GI; [|cbn [snd] in OUTS; now rewrite OUTS].
    destruct (_ || _); cbn [snd] in OUTS; [now rewrite OUTS|]. rewrite OUTS.
    assert (SB : exists k0, side = Some k0). { destruct side as [k0|]; [eauto|]. rewrite xl_out0 in OB. discriminate. } destruct SB as (k0 & ->).
    eapply PROM with (o := EDialOk sid now) (side' := Some (in_kind i)); auto.
    + eapply promote_inv with (d := in_deadline i); try reflexivity; auto; [eapply binv_any; eauto|cbn; auto|intros ? Y; injection Y as <-; reflexivity].
    + intros k kd Q1 Q2. injection Q1 as <-. destruct (KO kd Q2) as [(_ & Y)|(j & Y1 & Y2)]; congruence.
  - destruct xl_mint0 as (_ & OB). destruct (CALL (EAccept from now) eq_refl eq_refl) as (NR & SX).
    assert (SB : side = None). { destruct side; [|reflexivity]. rewrite xl_out0 in OB. discriminate. } subst side.
    assert (OUTS : snd (call C (Some x) (EAccept from now) q1) = snd (accept_stream C from now (q_ep q))) by (rewrite call_eq, E1; reflexivity).
    destruct (call C (Some x) (EAccept from now) q1) as [q2 outs]. cbn [fst snd] in *. unfold accept_stream, alloc_sid in OUTS.
    destruct (negb (runs (q_ep q))); cbn [snd] in OUTS; rewrite OUTS.
    + destruct (cancel_spec x q2) as (NR2 & SX2). apply END; [eapply near_trans; eauto|]. intros DU UN. rewrite SX2.
      change (cons_of x (q_con q2)) with (sl_con (sl x q2)). change (logs_of x (q_log q2)) with (sl_log (sl x q2)). rewrite SX. cbn [sl_con sl_log].
      destruct XO as [O1 O2 O3 _]. constructor; cbn [sl_b sl_m sl_out sl_con sl_td sl_log]; auto.
      * intros W1. apply Forall_app. auto.
      * destruct xl_T0 as (n & T0 & HN). constructor; cbn [sl_b sl_m sl_out sl_con sl_td sl_log].
        -- eapply ending_prefix; [exact T0|]. clear - HN. destruct HN as [->|(-> & _)]; auto.
        -- rewrite !filter_app, xl_count0. cbn. auto.
        -- intros W1. specialize (xl_kin0 W1). rewrite (xl_in0 OB) in xl_kin0. congruence.
        -- apply earned_none. now rewrite !filter_app, xl_count0.
        -- reflexivity.
    + eapply PROM with (o := EAccept from now) (side' := None); auto; try discriminate.
      eapply promote_inv with (d := tadd now (c_stream_timeout C)); try reflexivity; auto; [cbn; auto|discriminate].
Qed.
Lemma mint_all_ok w D P now q : qinv w [] D P q -> qinv w [] D P (mint_all C W now q).
Proof.
  intros I. unfold mint_all. assert (qinv w (q_unminted q) D P (q_set_unminted [] q)) as I1.
  { destruct I. constructor; auto; cbn; rewrite ?app_nil_r; auto. }
  revert I1. generalize (q_set_unminted [] q) as q1. generalize (q_unminted q) as U. induction U as [|x U IH]; intros q1 I1; [exact I1|].
  cbn [fold_left]. apply IH. now apply mint_one_ok.
Qed.

(** ** Collecting *)
Lemma still w U D P q q' : adv q q' -> gl q' = gl q -> (forall x, sl x q' = sl x q) -> NoDup (akeys (q_conns q')) -> NoDup (akeys (q_ex q')) ->
  qinv w U D P q -> qinv w U D P q'.
Proof.
  intros A G SL N1 N2 I. unfold gl in G. injection G as G1 G2 G3 G4 G5 G6. constructor; auto.
  - eapply adv_einv; [exact A|apply I].
  - rewrite G4. apply I.
  - rewrite G4, G1. apply I.
  - rewrite G6. apply I.
  - intros id kd K. rewrite G5 in K. eapply adv_kindok; [exact A|apply I|]. now apply (qi_kinds _ _ _ _ _ I).
  - intros x L. rewrite G1 in L. rewrite SL. apply (qi_fresh _ _ _ _ _ I x L).
  - intros x L. rewrite G1 in L. rewrite SL, G2, G3, G4. eapply xok_mono; [exact A|apply I|reflexivity|reflexivity|reflexivity|apply (qi_x _ _ _ _ _ I x L)].
Qed.
Lemma transmit_same side b : binv side b -> let b' := br_set_rec (fst (rl_transmit (br_rec b))) b in
  binv side b' /\ (mute b -> mute b') /\ (noeof b -> noeof b').
Proof.
  intros I. split; [|split].
  - pose proof (bi_rec _ _ I) as R. destruct I. constructor; auto.
    destruct R as [(P & H)|(V & O & P & E)]; [left; split; auto|right; split; [exact V|split; [reflexivity|auto]]].
  - intros (_ & M). split; [reflexivity|exact M].
  - intros []. constructor; auto.
Qed.
Lemma collect_one_ok w U D P q x : qinv w U D (x :: P) q -> qinv w U D P (collect_one q x).
Proof.
  intros I. unfold collect_one. destruct (aget x (q_conns q)) as [b|] eqn:G.
  2: { constructor; try apply I. intros y L. pose proof (qi_x _ _ _ _ _ I y L) as X. destruct (N.eq_dec y x) as [->|NE].
    - destruct X as [X1 X2 X3 X4]. constructor; auto. change (sl_b (sl x q)) with (aget x (q_conns q)) in *. rewrite G in *. exact X4.
    - eapply xok_mono; [apply adv_refl|apply I|reflexivity|reflexivity| |exact X]. cbn. intuition congruence. }
  destruct (live_of _ _ _ _ _ _ _ I G) as (m & side & M & L). pose proof (live_lt _ _ _ _ _ _ _ I G) as LT. pose proof (qi_x _ _ _ _ _ I x LT) as XO.
  unfold collect. cbn [q_set_conns q_ex]. rewrite M. set (b' := br_set_rec (fst (rl_transmit (br_rec b))) b).
  change (rl_transmit (br_rec b)) with (fst (rl_transmit (br_rec b)), r_out (br_rec b)). cbv iota beta. fold b'.
  set (q1 := match r_out (br_rec b) with [] => _ | _ => _ end).
  assert (NR : near x q q1 /\ sl x q1 = mkSl None (Some m) (outs_of x (q_out q) ++ match r_out (br_rec b) with [] => [] | l => [(x, x_peer m, l)] end) (sl_con (sl x q)) (sl_td (sl x q)) (sl_log (sl x q))).
  { subst q1. destruct (r_out (br_rec b)) as [|c cs].
    - split; [apply near_take|]. unfold sl. cbn. now rewrite aget_adel_eq, M, app_nil_r.
    - split.
      + split; [now apply adv_same|]. split; [reflexivity|]. split; [|split; [cbn; apply nodup_adel|auto]].
        intros y NE. unfold sl. cbn. rewrite aget_adel_ne, outs_app, outs_one by exact NE. cbn. destruct (N.eqb_spec x y); [congruence|]. now rewrite app_nil_r.
      + unfold sl. cbn. rewrite aget_adel_eq, M, outs_app, outs_one. cbn. now rewrite N.eqb_refl. }
  destruct NR as (NR & SX). clearbody q1. pose proof (near_trans _ _ _ _ NR (near_put x b' q1)) as NR2. destruct (near_gl _ _ _ NR2) as (E1 & E2 & E3 & E4 & E5 & E6). destruct NR2 as (A & _ & SY & N1 & N2).
  destruct (transmit_same side b) as (T1 & T2 & T3); [apply L|]. destruct L.
  eapply touch with (x := x); try exact I; try exact A; auto.
  - apply N1, I.
  - apply N2, I.
  - rewrite E4. apply I.
  - rewrite E4. apply I.
  - rewrite E6. apply I.
  - intros y NE. now rewrite E4.
  - intros y NE. now rewrite E2.
  - intros y NE. rewrite E3. cbn. intuition congruence.
  - rewrite E2, E3, E4. unfold sl at 1. cbn [q_set_conns q_conns q_ex q_out q_con q_td q_log]. rewrite aget_aset_eq. unfold sl in SX at 1. injection SX as _ -> -> -> -> ->.
    destruct XO as [O1 O2 O3 _]. constructor; cbn [sl_b sl_m sl_out sl_con sl_td sl_log]; auto.
    + intros W1. pose proof (O2 W1) as Y. cbn [sl sl_out] in Y. rewrite Y. destruct (xl_sil0 W1) as (-> & _). reflexivity.
    + exists side. constructor; cbn [sl_b sl_m sl_out sl_con sl_td sl_log]; auto.
      destruct (x_mint m) as [[sid|]|]; auto. destruct xl_mint0 as (Y1 & Y2 & Y3). split; [exact Y1|split; [exact Y2|]]. intros kd K. eapply adv_kindok; [exact A|apply I|auto].
Qed.
Lemma collect_all_ok w U D q : qinv w U D [] q -> qinv w U D [] (collect_all q).
Proof.
  intros I. unfold collect_all. assert (qinv w U D (q_pumped q) (q_set_pumped [] q)) as I1.
  { destruct I. constructor; auto. intros x L. cbn. rewrite app_nil_r. apply (qi_x0 x L). }
  revert I1. generalize (q_set_pumped [] q) as q1. generalize (q_pumped q) as P. induction P as [|x P IH]; intros q1 I1; [exact I1|].
  cbn [fold_left]. apply IH. now apply collect_one_ok.
Qed.

(** ** Dialling *)
Lemma call_none_ok w U D P o q : qinv w U D P q -> qinv w U D P (call_ C None o q).
Proof.
  intros I. eapply still; [apply adv_call|apply gl_call| | | |exact I].
  - intros x. rewrite sl_call. cbn. now rewrite app_nil_r.
  - unfold call_. rewrite call_eq. apply I.
  - unfold call_. rewrite call_eq. apply I.
Qed.
Lemma calls_none_ok {A} (f : A -> eop) w U D P l : forall q, qinv w U D P q -> qinv w U D P (fold_left (fun q a => call_ C None (f a) q) l q).
Proof. induction l as [|a l IH]; intros q I; [exact I|]. cbn [fold_left]. apply IH. now apply call_none_ok. Qed.
Lemma set_dials_ok w U D P l q : qinv w U D P q -> qinv w U D P (q_set_dials l q).
Proof. intros I. eapply still with (q := q); [now apply adv_same|reflexivity|reflexivity|apply I|apply I|exact I]. Qed.
Lemma sieve_ok w U D P q : qinv w U D P q -> qinv w U D P (sieve C q).
Proof.
  intros I. unfold sieve. apply (calls_none_ok ERequeue). apply set_dials_ok. apply (calls_none_ok (fun _ => EPollEvent)). exact I.
Qed.
Lemma new_dialer_inv k label skip d o kr max : binv (Some k) (br_new (rl_dialer label skip) d o kr max).
Proof.
  constructor; cbn; try discriminate; auto.
  - left. apply dialer_hush.
  - intros _. split; [|reflexivity]. unfold gate_dialer. now destruct (effective_label label).
Qed.
Lemma new_acceptor_inv label skip d o kr max : binv None (br_new (rl_acceptor label skip) d o kr max).
Proof. constructor; cbn; try discriminate; auto. apply acceptor_rinv. congruence. Qed.
(** a new exchange *)
Lemma open_ok w U D P q q' b m side : qinv w U D P q -> let x := q_next q in
  adv q q' -> q_next q' = x + 1 -> q_conns q' = aset x b (q_conns q) -> q_ex q' = aset x m (q_ex q) -> q_out q' = q_out q ->
  (exists l, q_con q' = q_con q ++ l /\ Forall (fun t => fst (fst t) = x) l /\ (length l <= 1)%nat) -> q_td q' = q_td q -> logs_of x (q_log q') = [] ->
  (forall y, y <> x -> logs_of y (q_log q') = logs_of y (q_log q)) ->
  q_unminted q' = oset x (q_unminted q) -> (q_dirty q' = q_dirty q \/ q_dirty q' = oset x (q_dirty q)) -> q_pumped q' = q_pumped q ->
  (forall id kd, aget id (q_kinds q') = Some kd -> kindok (q_ep q) id kd) -> q_panic q' = false ->
  binv side b -> br_stream b = None -> br_terminal b = false -> br_fin b = false -> noeof b ->
  x_outbound m = match side with Some _ => true | None => false end -> x_fin m = false -> (x_outbound m = false -> x_kind m = None) ->
  match x_mint m with
  | None => False
  | Some (MOut sid) => x_outbound m = true /\ (forall kd, x_kind m = Some kd -> kindok (q_ep q') sid kd)
  | Some (MIn _) => x_outbound m = false
  end ->
  (In x (q_dirty q') \/ r_out (br_rec b) = [] /\ w_late w = None) ->
  qinv w U D P q'.
Proof.
  intros I x A NX CO EX OU (l & CN & CL & CN1) TD LG LGY UM DI PU KI PA BI SN NT FN NE OB XF IK MI DU.
  assert (FR : forall y, In y (U ++ q_unminted q) -> y < x) by apply I.
  assert (XN : ~ In x (U ++ q_unminted q)) by (intros J; specialize (FR x J); lia).
  assert (CNY : forall y, y <> x -> cons_of y (q_con q') = cons_of y (q_con q)).
  { intros y Y. rewrite CN, cons_app. replace (cons_of y l) with (@nil (N * N * N)); [now rewrite app_nil_r|]. clear CN CN1. induction CL as [|t l E _ IH]; [reflexivity|].
    change (t :: l) with ([t] ++ l). rewrite cons_app, <- IH, cons_one, E. destruct (N.eqb_spec x y); [congruence|reflexivity]. }
  assert (SY : forall y, y <> x -> sl y q' = sl y q). { intros y Y. unfold sl. rewrite CO, EX, OU, TD, CNY, LGY by exact Y. now rewrite !aget_aset_ne. }
  destruct (qi_fresh _ _ _ _ _ I x ltac:(reflexivity)) as (EM & TH & NS & NK & NF & NC). unfold sl, empty in EM. injection EM as F1 F2 F3 F4 F5 F6.
  assert (SX : sl x q' = mkSl (Some b) (Some m) [] (cons_of x l) [] []).
  { unfold sl. rewrite CO, EX, OU, TD, LG, CN, cons_app, F3, F4, F5. now rewrite !aget_aset_eq. }
  assert (ND : NoDup (U ++ q_unminted q')). { rewrite UM. apply nodup_oset. constructor; [exact XN|apply I]. }
  assert (IU : forall y, In y (U ++ q_unminted q') <-> y = x \/ In y (U ++ q_unminted q)). { intros y. rewrite UM, !in_app_iff, in_oset. tauto. }
  constructor; auto.
  - eapply adv_einv; [exact A|apply I].
  - rewrite CO. apply nodup_aset, I.
  - rewrite EX. apply nodup_aset, I.
  - intros y J. apply IU in J as [->|J]; [lia|]. specialize (FR y J). lia.
  - intros id kd K. eapply adv_kindok; [exact A|apply I|eauto].
  - intros y Y. rewrite SY by lia. apply (qi_fresh _ _ _ _ _ I y). unfold x in *. lia.
  - intros y Y. destruct (N.eq_dec y x) as [->|YN].
    + rewrite SX. constructor; cbn [sl_b sl_m sl_out sl_con sl_td sl_log]; auto.
      * rewrite NC, TH. split; [|congruence]. revert CN1. unfold cons_of. clear. destruct l as [|t [|]]; cbn; try lia. destruct (_ =? x); cbn; lia.
      * exists side. constructor; cbn [sl_b sl_m sl_out sl_con sl_td sl_log]; auto; try congruence; try contradiction.
        -- destruct (x_mint m) as [[sid|]|]; [tauto|tauto|contradiction].
        -- intros _ _. apply IU. auto.
        -- right. intros st E. congruence.
        -- destruct DU as [DU|(DU & _)]; [right; left; apply in_or_app; auto|auto].
        -- rewrite TH, XF. exists O. auto.
        -- intros t E. destruct DU as [DU|(_ & DU)]; [left; apply in_or_app; auto|congruence].
    + rewrite SY by exact YN. eapply xok_mono; [exact A|apply I| | | |apply (qi_x _ _ _ _ _ I y); unfold x in *; lia].
      * rewrite IU. intuition.
      * destruct DI as [->| ->]; rewrite !in_app_iff, ?in_oset; intuition congruence.
      * now rewrite PU.
Qed.
Lemma dial_one_ok w U D P now q t : qinv w U D P q -> qinv w U D P (dial_one C Q now q t).
Proof.
  intros I. destruct t as [[id peer] deadline]. unfold dial_one. set (q1 := q_set_kinds (adel id (q_kinds q)) q).
  assert (KS : forall j kd, aget j (adel id (q_kinds q)) = Some kd -> kindok (q_ep q) j kd).
  { intros j kd K. apply (qi_kinds _ _ _ _ _ I). destruct (N.eq_dec j id) as [->|NE]; [rewrite aget_adel_eq in K; discriminate|now rewrite aget_adel_ne in K]. }
  assert (I1 : qinv w U D P q1). { destruct I. constructor; auto. }
  destruct (deadline <=? now); [now apply call_none_ok|].
  eapply open_ok with (side := Some OKUserMessage) (q := q1); try exact I1; try reflexivity; try (now apply adv_same).
  - eexists [_]. split; [reflexivity|]. split; [repeat constructor|auto].
  - destruct (qi_fresh _ _ _ _ _ I (q_next q) ltac:(reflexivity)) as (E & _). unfold sl, empty in E. now injection E.
  - right. reflexivity.
  - exact KS.
  - apply I.
  - apply new_dialer_inv.
  - apply noeof_new.
  - discriminate.
  - split; [reflexivity|]. intros kd K. cbn in K. apply (qi_kinds _ _ _ _ _ I _ _ K).
  - left. cbn. apply in_oset. auto.
Qed.
Lemma dial_all_ok w U D P now q : qinv w U D P q -> qinv w U D P (dial_all C Q now q).
Proof.
  intros I. unfold dial_all. destruct (negb (q_runs q)); [exact I|]. apply sieve_ok in I. revert I. generalize (sieve C q) as q0. clear q. intros q I.
  apply (set_dials_ok _ _ _ _ []) in I. revert I. generalize (q_set_dials [] q) as q1. generalize (q_dials q) as l. induction l as [|t l IH]; intros q1 I1; [exact I1|].
  cbn [fold_left]. apply IH. now apply dial_one_ok.
Qed.
Lemma flush_ok w now q : (w_late w = None \/ w_late w = Some now) -> qinv w [] [] [] q -> qinv w [] [] [] (flush C W B rnd now q).
Proof. intros LA I. unfold flush. apply collect_all_ok, pump_all_ok; [exact LA|]. apply mint_all_ok, pump_all_ok; assumption. Qed.
Lemma set_pol_ok w U D P v q : qinv w U D P q -> qinv w U D P (q_set_pol v q).
Proof. intros I. eapply still with (q := q); [now apply adv_same|reflexivity|reflexivity|apply I|apply I|exact I]. Qed.
Lemma tick_ok w now q : (w_late w = None \/ w_late w = Some now) -> qinv w [] [] [] q -> qinv w [] [] [] (tick C Q W B rnd now q).
Proof.
  intros LA I. unfold tick. apply set_pol_ok, collect_all_ok, pump_all_ok; [exact LA|]. apply mint_all_ok, dial_all_ok, mint_all_ok, call_none_ok, pump_all_ok; assumption.
Qed.
End Coord.
