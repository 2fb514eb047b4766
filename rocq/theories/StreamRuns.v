(** What happens during a whole exchange. *)
From Verif Require Import Base BaseFacts CodecModel CodecSpec CodecFacts MsgModel EndpointModel WireModel WireSpec WireFacts StreamModel StreamSpec StreamFacts.
Local Open Scope N_scope.

Fixpoint may_load (may : bool) (tr : list sact) : bool :=
  match tr with
  | [] => may
  | (SoLoad _ _, _) :: t => may_load false t
  | (_, rs) :: t => may_load (may || existsb is_request rs) t
  end.
Lemma loads_ok_snoc tr o rs : forall b, loads_ok b (tr ++ [(o, rs)]) = loads_ok b tr && match o with SoLoad _ _ => may_load b tr | _ => true end.
Proof.
  induction tr as [|[o' rs'] tr IH]; intros b.
  - destruct o; cbn; rewrite ?andb_true_r; reflexivity.
  - destruct o'; cbn [app loads_ok may_load]; rewrite ?IH; try reflexivity. now rewrite andb_assoc.
Qed.
Lemma may_load_snoc tr o rs : forall b, may_load b (tr ++ [(o, rs)]) = match o with SoLoad _ _ => false | _ => may_load b tr || existsb is_request rs end.
Proof.
  induction tr as [|[o' rs'] tr IH]; intros b.
  - destruct o; reflexivity.
  - destruct o'; cbn [app may_load]; rewrite ?IH; reflexivity.
Qed.
Lemma loads_app a b : loads (a ++ b) = loads a ++ loads b.
Proof. unfold loads. now rewrite map_app, concat_app. Qed.
Lemma sent_one o rs : sent [(o, rs)] = concat (map (fun r => match r with SrSent c => [c] | _ => [] end) rs).
Proof. unfold sent, returned. cbn [map concat snd]. now rewrite app_nil_r. Qed.
Lemma delivered_one o rs : delivered [(o, rs)] = concat (map (fun r => match r with SrEndpoint c => [c] | _ => [] end) rs).
Proof. unfold delivered, returned. cbn [map concat snd]. now rewrite app_nil_r. Qed.
Lemma sent_chunks l : concat (map (fun r => match r with SrSent c => [c] | _ => [] end) (map SrSent l)) = l.
Proof. induction l as [|x l IH]; [reflexivity|]. cbn [map concat app]. now rewrite IH. Qed.
Lemma delivered_chunks l : concat (map (fun r => match r with SrEndpoint c => [c] | _ => [] end) (map SrSent l)) = [].
Proof. induction l as [|x l IH]; [reflexivity|]. exact IH. Qed.
Lemma request_chunks l : existsb is_request (map SrSent l) = false.
Proof. induction l; [reflexivity|assumption]. Qed.
Lemma fed_one o rs : fed [(o, rs)] = match o with SoData d _ => d | _ => [] end.
Proof. unfold fed. cbn [map concat fst]. now rewrite app_nil_r. Qed.
Lemma loads_one o rs : loads [(o, rs)] = match o with SoLoad b _ => [b] | _ => [] end.
Proof. unfold loads. cbn [map concat fst]. now rewrite app_nil_r. Qed.

Ltac snoc := rewrite ?sent_app, ?delivered_app, ?fed_app, ?loads_app, ?may_load_snoc, ?sent_one, ?delivered_one, ?fed_one, ?loads_one,
  ?sent_chunks, ?delivered_chunks, ?request_chunks; cbn [map concat app existsb is_request]; rewrite ?app_nil_r, ?orb_false_r.

Section Outbound.
Context (W : wcodec) (id peer local max : N) (k : outkind) (req : bytes) (d : N).

(** an event that is the outcome of this exchange, given the response bytes *)
Definition outcome (bs : bytes) (ev : sevent) : Prop :=
  match k with
  | OKPushPull join => exists j ss u, decode_message W bs = Some (blen bs, MPushPull j ss u) /\ ev = SEReply peer ss u join id
  | OKReliablePing seq => exists p t, decode_message W bs = Some (blen bs, MAck seq p) /\ ev = SEAcked seq t
  | OKUserMessage => False
  end.
Definition oinv (s : stream) (tr : list sact) : Prop :=
  may_load false tr = false /\ s_id s = id /\ s_peer s = peer /\ s_local s = local /\
  match s_phase s with
  | SpSending k' => k' = k /\ s_out s = [req] /\ sent tr = [] /\ s_ep s = [] /\ delivered tr = [] /\ s_in s = fed tr
  | SpAwaiting k' => k' = k /\ k <> OKUserMessage /\ s_out s = [] /\ sent tr = [req] /\ s_ep s = [] /\ delivered tr = [] /\ s_in s = fed tr
  | SpDone => s_out s = [] /\ sent tr = [req] /\
      (delivered tr ++ s_ep s = [] \/ exists ev, delivered tr ++ s_ep s = [ev] /\ outcome (fed tr) ev)
  | SpFailed _ => s_out s = [] /\ s_ep s = [] /\
      (sent tr = [] /\ delivered tr = [] \/
       sent tr = [req] /\ (delivered tr = [] \/ exists ev bs rest, delivered tr = [ev] /\ outcome bs ev /\ fed tr = bs ++ rest))
  | SpFirst | SpResponding => False
  end.
Lemma outcome_not_request bs ev : outcome bs ev -> is_request (SrEndpoint ev) = false.
Proof. unfold outcome. destruct k; intros H; [destruct H as (? & ? & ? & _ & ->)|destruct H as (? & ? & _ & ->)|destruct H]; reflexivity. Qed.

Lemma app_one {A} (l1 : list A) e r x : l1 ++ e :: r = [x] -> l1 = [] /\ e = x /\ r = [].
Proof. destruct l1 as [|y l1]; intros H; [injection H as -> ->; auto|]. destruct l1; discriminate. Qed.

Lemma oinv_failed s tr o rs e : oinv s tr -> s_failed s = None ->
  match o with SoLoad _ _ => False | _ => True end -> sent [(o, rs)] = [] -> delivered [(o, rs)] = [] -> existsb is_request rs = false ->
  oinv (enter_failed e s) (tr ++ [(o, rs)]).
Proof.
  intros (M & A & B & C & I) NF NL S D R. unfold oinv. rewrite sent_app, delivered_app, fed_app, S, D, !app_nil_r.
  rewrite may_load_snoc, M, R. cbn. split; [destruct o; auto|]. repeat (split; [assumption|]). split; [reflexivity|]. split; [reflexivity|].
  unfold s_failed in NF. destruct (s_phase s) as [k'|k'| | | |e']; try contradiction; try discriminate.
  - left. tauto.
  - right. tauto.
  - right. destruct I as (_ & I1 & I2). split; [assumption|]. destruct I2 as [I2|(ev & I2 & I3)].
    + apply app_eq_nil in I2 as [I2 _]. auto.
    + destruct (delivered tr) as [|ev' [|ev2 l]] eqn:E; [auto| |discriminate]. right. cbn in I2. injection I2 as -> I2.
      exists ev, (fed tr), (fed [(o, rs)]). auto.
Qed.

Lemma oinv_step s tr o s' rs : oinv s tr -> loads_ok false (tr ++ [(o, rs)]) = true -> stepped W s o s' rs -> oinv s' (tr ++ [(o, rs)]).
Proof.
  intros I LO ST. pose proof I as (M & A & B & C & P).
  inversion ST; subst o s' rs.
  - (* data *)
    match goal with T : taken _ _ _ _ _ |- _ => destruct T as [E|E L PR|frame rest t m s2 E SP L PR DM DI FB] end.
    + subst data. unfold oinv. snoc. exact I.
    + unfold oinv. snoc. cbn [s_id s_peer s_local s_phase s_out s_ep s_in s_set_in].
      repeat (split; [assumption|]). unfold s_terminal in *. destruct (s_phase s); try contradiction; try discriminate.
      * destruct P as (P1 & P2 & P3 & P4 & P5 & P6). rewrite P6. repeat split; assumption.
      * destruct P as (P0 & P1 & P2 & P3 & P4 & P5 & P6). rewrite P6. repeat split; assumption.
    + destruct DI as [join j states user PH EM|seq p PH EM|PH|join states user PH EM|seq src tgt PH EM TG|u PH EM]; cbn [s_phase s_set_in] in PH;
        rewrite PH in P; try contradiction.
      * destruct P as (P0 & P1 & P2 & P3 & P4 & P5 & P6). specialize (FB eq_refl). subst rest. rewrite app_nil_r in SP.
        unfold oinv. snoc. cbn [s_id s_peer s_local s_phase s_out s_ep s_in s_set_in s_set_ev s_set_phase s_set_ep].
        repeat (split; [assumption|]). right. rewrite P4, P5. cbn [app]. eexists. split; [reflexivity|].
        rewrite <- P6, SP. subst m. unfold outcome. rewrite <- P0. do 3 eexists. split; [exact DM|]. congruence.
      * destruct P as (P0 & P1 & P2 & P3 & P4 & P5 & P6). specialize (FB eq_refl). subst rest. rewrite app_nil_r in SP.
        unfold oinv. snoc. cbn [s_id s_peer s_local s_phase s_out s_ep s_in s_set_in s_set_ev s_set_phase s_set_ep].
        repeat (split; [assumption|]). right. rewrite P4, P5. cbn [app]. eexists. split; [reflexivity|].
        rewrite <- P6, SP. subst m. unfold outcome. rewrite <- P0. do 2 eexists. split; [exact DM|]. reflexivity.
      * destruct P as (P0 & P1 & _). congruence.
  - (* ignored *)
    unfold oinv. snoc. repeat (split; [assumption|]). unfold s_terminal, s_done in *.
    destruct (s_phase s); try discriminate.
    + rewrite H0 by reflexivity. rewrite app_nil_r. exact P.
    + destruct P as (P1 & P2 & P3). split; [assumption|]. split; [assumption|]. destruct P3 as [P3|(P3 & P4)]; [auto|]. right. split; [assumption|].
      destruct P4 as [P4|(ev & bs & rest & P4 & P5 & P6)]; [auto|]. right. exists ev, bs, (rest ++ data). rewrite P6, app_assoc. auto.
  - apply oinv_failed; auto.
  - unfold oinv. snoc. exact I.
  - apply oinv_failed; auto. now apply terminal_false.
  - unfold oinv. snoc. cbn [s_id s_peer s_local s_phase s_out s_ep s_in s_set_out s_set_ev s_set_phase].
    repeat (split; [assumption|]). destruct H as [PH|PH]; rewrite PH in P; [|contradiction].
    destruct P as (P1 & P2 & P3 & P4 & P5 & P6). rewrite P3, P4, P5, P2. cbn. auto.
  - unfold oinv. snoc. cbn [s_id s_peer s_local s_phase s_out s_ep s_in s_set_out s_set_ev s_set_phase].
    repeat (split; [assumption|]). rewrite H in P. destruct P as (P1 & P2 & P3 & P4 & P5 & P6). rewrite P3, P4, P5, P2, P6. subst. cbn. repeat split; auto.
  - exfalso. destruct H as [[k' PH]|PH]; rewrite PH in P; [|contradiction]. destruct P as (? & ? & P2 & _). congruence.
  - unfold oinv. snoc. exact I.
  - apply oinv_failed; auto. now apply terminal_false.
  - unfold oinv. snoc. exact I.
  - destruct (is_request (SrEndpoint e)) eqn:R.
    + exfalso. destruct (s_phase s); try contradiction.
      * destruct P as (_ & _ & _ & P4 & _). congruence.
      * destruct P as (_ & _ & _ & _ & P4 & _). congruence.
      * destruct P as (_ & _ & [P|(ev & P & Q)]).
        { apply app_eq_nil in P as [_ P]. congruence. }
        rewrite H in P. apply app_one in P as (_ & -> & _). apply outcome_not_request in Q. congruence.
      * destruct P as (_ & P4 & _). congruence.
    + unfold oinv. snoc. rewrite M. split; [exact R|]. cbn [s_id s_peer s_local s_phase s_out s_ep s_in s_set_ep].
      repeat (split; [assumption|]). destruct (s_phase s); try contradiction.
      * destruct P as (_ & _ & _ & P4 & _). congruence.
      * destruct P as (_ & _ & _ & _ & P4 & _). congruence.
      * destruct P as (P1 & P2 & P3). split; [assumption|]. split; [assumption|]. rewrite <- app_assoc. cbn [app]. rewrite <- H. exact P3.
      * destruct P as (_ & P4 & _). congruence.
  - unfold oinv. snoc. exact I.
  - unfold oinv. snoc. exact I.
  - unfold oinv. snoc. cbn [s_id s_peer s_local s_phase s_out s_ep s_in s_set_ev s_set_ep].
    repeat (split; [assumption|]). destruct (s_phase s); try contradiction; try tauto.
    destruct P as (P1 & P2 & P3). split; [assumption|]. split; [assumption|]. rewrite ?app_nil_r.
    destruct P3 as [P3|(ev & P3 & P4)].
    + apply app_eq_nil in P3 as [P3 _]. auto.
    + destruct (delivered tr) as [|ev' [|? ?]]; [auto| |discriminate]. right. exists ev. injection P3 as -> _. auto.
  - exfalso. rewrite loads_ok_snoc, M, andb_false_r in LO. discriminate.
Qed.

Lemma oinv_run os : req <> [] -> loads_ok false (s_trace W (stream_outbound id peer local max k req d) os) = true ->
  oinv (s_final W (stream_outbound id peer local max k req d) os) (s_trace W (stream_outbound id peer local max k req d) os).
Proof.
  intros NE. induction os as [|o os IH] using rev_ind; intros LO.
  { unfold oinv. cbn. repeat split. destruct req; congruence. }
  rewrite s_final_snoc, s_trace_snoc in *. apply oinv_step with (s := s_final W (stream_outbound id peer local max k req d) os).
  - apply IH. rewrite loads_ok_snoc in LO. now apply andb_prop in LO as [LO _].
  - exact LO.
  - apply step_stepped.
Qed.
End Outbound.

Section Inbound.
Context (W : wcodec) (id peer local max : N) (d : N).

(** what an inbound exchange may have done, given the bytes it was fed *)
Definition answered (tr : list sact) : Prop :=
  sent tr = [] /\ delivered tr = [] \/
  exists frame rest m, fed tr = frame ++ rest /\ decode_message W frame = Some (blen frame, m) /\
    match m with
    | MPing seq _ tgt => nd_id tgt = local /\ delivered tr = [] /\ (sent tr = [] \/ sent tr = [wire_enc W (MAck seq [])])
    | MPushPull j ss u =>
        (delivered tr = [] \/ delivered tr = [SERequest peer ss u j id]) /\
        (sent tr = [] \/ delivered tr = [SERequest peer ss u j id] /\ exists b, sent tr = [b] /\ loads tr = [b])
    | MUserData x => sent tr = [] /\ (delivered tr = [] \/ delivered tr = [SEUser peer x])
    | _ => False
    end.
Definition load_state (tr : list sact) : Prop :=
  (may_load false tr = true -> loads tr = []) /\ (delivered tr = [] -> may_load false tr = false /\ loads tr = []) /\ (blen (loads tr) <= 1).
Definition pending (s : stream) (tr : list sact) (ev : sevent) : Prop := delivered tr ++ s_ep s = [] \/ delivered tr ++ s_ep s = [ev].
Definition iinv (s : stream) (tr : list sact) : Prop :=
  load_state tr /\ s_id s = id /\ s_peer s = peer /\ s_local s = local /\
  match s_phase s with
  | SpFirst => s_out s = [] /\ sent tr = [] /\ s_ep s = [] /\ delivered tr = [] /\ s_in s = fed tr
  | SpResponding => exists frame m, fed tr = frame ++ s_in s /\ decode_message W frame = Some (blen frame, m) /\ sent tr = [] /\
      match m with
      | MPing seq _ tgt => nd_id tgt = local /\ s_out s = [wire_enc W (MAck seq [])] /\ delivered tr ++ s_ep s = []
      | MPushPull j ss u => pending s tr (SERequest peer ss u j id) /\ s_out s = loads tr
      | _ => False
      end
  | SpDone => s_out s = [] /\ exists frame rest m, fed tr = frame ++ rest /\ decode_message W frame = Some (blen frame, m) /\
      match m with
      | MPing seq _ tgt => nd_id tgt = local /\ sent tr = [wire_enc W (MAck seq [])] /\ delivered tr ++ s_ep s = []
      | MPushPull j ss u => delivered tr = [SERequest peer ss u j id] /\ s_ep s = [] /\ exists b, sent tr = [b] /\ loads tr = [b]
      | MUserData x => sent tr = [] /\ pending s tr (SEUser peer x) /\ may_load false tr = false
      | _ => False
      end
  | SpFailed _ => s_ep s = [] /\ answered tr
  | SpSending _ | SpAwaiting _ => False
  end.

Lemma pending_fst s tr ev : pending s tr ev -> delivered tr = [] \/ delivered tr = [ev] /\ s_ep s = [].
Proof.
  intros [H|H].
  - apply app_eq_nil in H as [H _]. auto.
  - destruct (delivered tr) as [|x l]; [auto|]. right. cbn in H. injection H as -> H. apply app_eq_nil in H as [-> ->]. auto.
Qed.
Lemma iinv_answered s tr : iinv s tr -> answered tr.
Proof.
  intros (LS & A & B & C & P). destruct (s_phase s) as [| | | | |]; try contradiction.
  - left. tauto.
  - destruct P as (frame & m & P1 & P2 & P3 & P4). right. exists frame, (s_in s), m. split; [assumption|]. split; [assumption|].
    destruct m; try contradiction.
    + destruct P4 as (Q1 & Q2 & Q3). apply app_eq_nil in Q3 as [Q3 _]. auto.
    + destruct P4 as (Q1 & Q2). apply pending_fst in Q1. tauto.
  - destruct P as (P0 & frame & rest & m & P1 & P2 & P3). right. exists frame, rest, m. split; [assumption|]. split; [assumption|].
    destruct m; try contradiction.
    + destruct P3 as (Q1 & Q2 & Q3). apply app_eq_nil in Q3 as [Q3 _]. auto.
    + destruct P3 as (Q1 & Q2 & Q3). auto.
    + destruct P3 as (Q1 & Q2 & Q3). apply pending_fst in Q2. tauto.
  - tauto.
Qed.
(** feeding more bytes, or loading a response that is not sent, keeps it *)
Lemma answered_more tr o rs : answered tr -> sent [(o, rs)] = [] -> delivered [(o, rs)] = [] -> load_state tr -> loads_ok false (tr ++ [(o, rs)]) = true ->
  answered (tr ++ [(o, rs)]).
Proof.
  intros AN S D (L1 & L2 & L3) LO. unfold answered in *. rewrite sent_app, delivered_app, S, D, !app_nil_r, fed_app, loads_app.
  destruct AN as [AN|(frame & rest & m & P1 & P2 & P3)]; [auto|]. right. exists frame, (rest ++ fed [(o, rs)]), m.
  rewrite P1, app_assoc. split; [reflexivity|]. split; [assumption|]. destruct m; auto.
  destruct P3 as (Q1 & Q2). split; [assumption|]. destruct Q2 as [Q2|(Q2 & b & Q3 & Q4)]; [auto|]. right. split; [assumption|]. exists b. split; [assumption|].
  rewrite loads_one. rewrite loads_ok_snoc in LO. apply andb_prop in LO as [_ LO].
  destruct o; rewrite ?app_nil_r; auto. rewrite (L1 LO) in Q4. discriminate.
Qed.
Lemma load_state_more tr o rs : load_state tr -> existsb is_request rs = false -> delivered [(o, rs)] = [] -> loads_ok false (tr ++ [(o, rs)]) = true ->
  load_state (tr ++ [(o, rs)]).
Proof.
  intros (L1 & L2 & L3) R D LO. unfold load_state. rewrite may_load_snoc, delivered_app, D, app_nil_r, loads_app, loads_one, R, orb_false_r.
  rewrite loads_ok_snoc in LO. apply andb_prop in LO as [_ LO].
  destruct o; rewrite ?app_nil_r; auto. rewrite (L1 LO). split; [discriminate|]. split; [|cbn; lia].
  intros H. apply L2 in H as [H _]. congruence.
Qed.
Lemma iinv_failed s tr o rs e : iinv s tr -> sent [(o, rs)] = [] -> delivered [(o, rs)] = [] -> existsb is_request rs = false ->
  loads_ok false (tr ++ [(o, rs)]) = true -> iinv (enter_failed e s) (tr ++ [(o, rs)]).
Proof.
  intros I S D R LO. pose proof (iinv_answered _ _ I) as AN. destruct I as (LS & A & B & C & P).
  split; [now apply load_state_more|]. cbn. repeat (split; [assumption|]). split; [reflexivity|]. now apply answered_more.
Qed.

Lemma iinv_quiet s tr o rs : iinv s tr -> sent [(o, rs)] = [] -> delivered [(o, rs)] = [] -> fed [(o, rs)] = [] -> loads [(o, rs)] = [] ->
  existsb is_request rs = false -> match o with SoLoad _ _ => False | _ => True end -> iinv s (tr ++ [(o, rs)]).
Proof.
  intros I S D F L R NL. unfold iinv, pending, answered, load_state in *. rewrite sent_app, delivered_app, fed_app, loads_app, may_load_snoc, S, D, F, L, R, orb_false_r, !app_nil_r.
  destruct o; try contradiction; exact I.
Qed.

Lemma iinv_step s tr o s' rs : iinv s tr -> loads_ok false (tr ++ [(o, rs)]) = true -> stepped W s o s' rs -> iinv s' (tr ++ [(o, rs)]).
Proof.
  intros I LO ST. pose proof I as (LS & A & B & C & P).
  inversion ST; subst o s' rs.
  - (* data *)
    assert (LS' : load_state (tr ++ [(SoData data now, [])])) by (apply load_state_more; auto).
    match goal with T : taken _ _ _ _ _ |- _ => destruct T as [E|E L PR|frame rest t m s2 E SP L PR DM DI FB] end.
    + subst data. now apply iinv_quiet.
    + split; [exact LS'|]. unfold pending. snoc. cbn [s_id s_peer s_local s_phase s_out s_ep s_in s_set_in].
      repeat (split; [assumption|]). unfold s_terminal in *. destruct (s_phase s); try contradiction; try discriminate.
      * destruct P as (P1 & P2 & P3 & P4 & P5). rewrite P5. repeat split; assumption.
      * destruct P as (frame & m & P1 & P2 & P3 & P4). exists frame, m. rewrite P1, app_assoc. auto.
    + destruct DI as [join j states user PH EM|seq p PH EM|PH|join states user PH EM|seq src tgt PH EM TG|u PH EM]; cbn [s_phase s_set_in] in PH;
        rewrite PH in P; try contradiction.
      * destruct P as (P1 & P2 & P3 & P4 & P5). specialize (FB eq_refl). subst rest. rewrite app_nil_r in SP.
        split; [exact LS'|]. unfold pending. snoc. cbn [s_id s_peer s_local s_phase s_out s_ep s_in s_set_in s_set_ev s_set_phase s_set_ep].
        repeat (split; [assumption|]). exists frame, m. rewrite <- P5, SP, app_nil_r. subst m. repeat (split; [assumption || reflexivity|]).
        rewrite P3, P4. cbn [app]. rewrite A, B. split; [auto|]. rewrite P1. symmetry. destruct LS as (_ & L2 & _). now apply L2.
      * destruct P as (P1 & P2 & P3 & P4 & P5). specialize (FB eq_refl). subst rest. rewrite app_nil_r in SP.
        split; [exact LS'|]. unfold pending. snoc. cbn [s_id s_peer s_local s_phase s_out s_ep s_in s_set_in s_set_ev s_set_phase s_set_ep s_set_out].
        repeat (split; [assumption|]). exists frame, m. rewrite <- P5, SP, app_nil_r. subst m. repeat (split; [assumption || reflexivity|]).
        cbn [s_local s_set_in] in TG. rewrite P1, P3, P4. split; [congruence|]. auto.
      * destruct P as (P1 & P2 & P3 & P4 & P5). specialize (FB eq_refl). subst rest. rewrite app_nil_r in SP.
        split; [exact LS'|]. unfold pending. snoc. cbn [s_id s_peer s_local s_phase s_out s_ep s_in s_set_in s_set_ev s_set_phase s_set_ep].
        repeat (split; [assumption|]). exists frame, [], m. rewrite <- P5, SP, app_nil_r. subst m. repeat (split; [assumption || reflexivity|]).
        rewrite P3, P4, B. cbn [app]. split; [auto|]. now apply LS.
  - (* ignored *)
    split; [now apply load_state_more|]. repeat (split; [assumption|]). unfold s_terminal, s_done in *.
    destruct (s_phase s); try discriminate.
    + unfold pending in *. snoc. rewrite H0 by reflexivity. rewrite app_nil_r. exact P.
    + destruct P as (P1 & P2). split; [assumption|]. now apply answered_more.
  - apply iinv_failed; auto.
  - now apply iinv_quiet.
  - apply iinv_failed; auto.
  - (* close *)
    assert (LS' : load_state (tr ++ [(SoTransmit now, map SrSent (s_out s))])) by (apply load_state_more; auto; [apply request_chunks|rewrite delivered_one; apply delivered_chunks]).
    split; [exact LS'|]. unfold pending. snoc. cbn [s_id s_peer s_local s_phase s_out s_ep s_in s_set_out s_set_ev s_set_phase].
    repeat (split; [assumption|]). destruct H as [PH|PH]; rewrite PH in P; [contradiction|].
    destruct P as (frame & m & P1 & P2 & P3 & P4). split; [reflexivity|]. exists frame, (s_in s), m. repeat (split; [assumption|]). rewrite P3. cbn [app].
    destruct m; try contradiction.
    + destruct P4 as (Q1 & Q2 & Q3). auto.
    + destruct P4 as (Q1 & Q2). destruct LS as (L1 & L2 & L3). apply pending_fst in Q1 as [Q1|[Q1 Q3]].
      * apply L2 in Q1 as [_ Q1]. congruence.
      * split; [assumption|]. split; [assumption|]. destruct (loads tr) as [|b [|b2 l]] eqn:LD.
        { congruence. }
        { exists b. auto. }
        { rewrite !blen_cons in L3. lia. }
  - exfalso. rewrite H in P. contradiction.
  - exfalso. destruct H as [[k' PH]|PH]; rewrite PH in P; [contradiction|]. destruct P as (P & _). congruence.
  - now apply iinv_quiet.
  - apply iinv_failed; auto.
  - now apply iinv_quiet.
  - (* endpoint event *)
    assert (X : delivered tr = [] /\ r = []).
    { destruct (s_phase s); try contradiction.
      * destruct P as (_ & _ & P3 & _). congruence.
      * destruct P as (frame & m & _ & _ & _ & P4). destruct m; try contradiction.
        { destruct P4 as (_ & _ & P4). apply app_eq_nil in P4 as [_ P4]. congruence. }
        { destruct P4 as ([P4|P4] & _); [apply app_eq_nil in P4 as [_ P4]; congruence|]. rewrite H in P4. apply app_one in P4. tauto. }
      * destruct P as (_ & frame & rest & m & _ & _ & P4). destruct m; try contradiction.
        { destruct P4 as (_ & _ & P4). apply app_eq_nil in P4 as [_ P4]. congruence. }
        { destruct P4 as (_ & P4 & _). congruence. }
        { destruct P4 as (_ & [P4|P4] & _); [apply app_eq_nil in P4 as [_ P4]; congruence|]. rewrite H in P4. apply app_one in P4. tauto. }
      * destruct P as (P & _). congruence. }
    destruct X as [X ->]. destruct LS as (L1 & L2 & L3). destruct (L2 X) as [L4 L5].
    split.
    { unfold load_state. snoc. rewrite X, L5. cbn. repeat split; auto; try discriminate; lia. }
    unfold pending. snoc. cbn [s_id s_peer s_local s_phase s_out s_ep s_in s_set_ep]. rewrite X, H in *. cbn [app] in *. repeat (split; [assumption|]).
    destruct (s_phase s); try contradiction.
    * destruct P as (_ & _ & P3 & _). discriminate.
    * destruct P as (frame & m & P1 & P2 & P3 & P4). exists frame, m. repeat (split; [assumption|]). destruct m; try contradiction.
      { destruct P4 as (_ & _ & P4). discriminate. }
      { unfold pending in P4. rewrite X, H in P4. destruct P4 as (P4 & P5). rewrite L5 in *. auto. }
    * destruct P as (P0 & frame & rest & m & P1 & P2 & P3). split; [assumption|]. exists frame, rest, m. repeat (split; [assumption|]). destruct m; try contradiction.
      { destruct P3 as (_ & _ & P4). discriminate. }
      { destruct P3 as (_ & P4 & _). discriminate. }
      { unfold pending in P3. rewrite X, H in P3. destruct P3 as (Q1 & Q2 & Q3). rewrite Q3. repeat split; auto.
        destruct Q2 as [Q2|Q2]; [discriminate|]. injection Q2 as ->. reflexivity. }
    * destruct P as (P & _). discriminate.
  - now apply iinv_quiet.
  - now apply iinv_quiet.
  - split; [now apply load_state_more|]. unfold pending. snoc. cbn [s_id s_peer s_local s_phase s_out s_ep s_in s_set_ev s_set_ep].
    repeat (split; [assumption|]). destruct (s_phase s); try contradiction; try tauto.
    + destruct P as (frame & m & P1 & P2 & P3 & P4). exists frame, m. repeat (split; [assumption|]). rewrite ?app_nil_r. destruct m; try contradiction.
      * destruct P4 as (Q1 & Q2 & Q3). apply app_eq_nil in Q3 as [Q3 _]. auto.
      * destruct P4 as (Q1 & Q2). apply pending_fst in Q1. tauto.
    + destruct P as (P0 & frame & rest & m & P1 & P2 & P3). split; [assumption|]. exists frame, rest, m. repeat (split; [assumption|]). rewrite ?app_nil_r. destruct m; try contradiction.
      * destruct P3 as (Q1 & Q2 & Q3). apply app_eq_nil in Q3 as [Q3 _]. auto.
      * tauto.
      * destruct P3 as (Q1 & Q2 & Q3). apply pending_fst in Q2. tauto.
    + destruct P as (P1 & P2). split; [reflexivity|]. unfold answered in *. snoc. exact P2.
  - (* load *)
    pose proof LO as LO'. rewrite loads_ok_snoc in LO'. apply andb_prop in LO' as [_ ML].
    split; [now apply load_state_more|]. cbn [s_id s_peer s_local s_phase s_out s_ep s_in s_set_deadline s_set_out].
    repeat (split; [assumption|]). destruct LS as (L1 & L2 & L3). pose proof (L1 ML) as L4.
    destruct (s_phase s); try contradiction.
    + destruct P as (_ & _ & _ & P4 & _). apply L2 in P4 as [P4 _]. congruence.
    + destruct P as (frame & m & P1 & P2 & P3 & P4). exists frame, m. unfold pending. snoc. repeat (split; [assumption|]). destruct m; try contradiction.
      * destruct P4 as (_ & _ & P4). apply app_eq_nil in P4 as [P4 _]. apply L2 in P4 as [P4 _]. congruence.
      * destruct P4 as (Q1 & Q2). split; [exact Q1|]. now rewrite Q2.
    + destruct P as (P0 & frame & rest & m & P1 & P2 & P3). exfalso. destruct m; try contradiction.
      * destruct P3 as (_ & _ & P4). apply app_eq_nil in P4 as [P4 _]. apply L2 in P4 as [P4 _]. congruence.
      * destruct P3 as (_ & _ & b' & _ & P4). congruence.
      * destruct P3 as (_ & _ & P4). congruence.
    + destruct P as (P1 & P2). split; [assumption|]. apply answered_more; auto. exact (conj L1 (conj L2 L3)).
Qed.

Lemma iinv_run os : loads_ok false (s_trace W (stream_inbound id peer local max d) os) = true ->
  iinv (s_final W (stream_inbound id peer local max d) os) (s_trace W (stream_inbound id peer local max d) os).
Proof.
  induction os as [|o os IH] using rev_ind; intros LO.
  { unfold iinv, load_state. cbn. repeat split; try discriminate; lia. }
  rewrite s_final_snoc, s_trace_snoc in *. apply iinv_step with (s := s_final W (stream_inbound id peer local max d) os).
  - apply IH. rewrite loads_ok_snoc in LO. now apply andb_prop in LO as [LO _].
  - exact LO.
  - apply step_stepped.
Qed.
End Inbound.

(** * How much a stream takes in *)
Section Intake.
Context (W : wcodec).
Definition binv (s : stream) (tr : list sact) : Prop :=
  blen (s_in s) <= s_max s /\
  match s_phase s with
  | SpFailed _ => True
  | SpDone => blen (fed tr) <= 2 * s_max s
  | SpResponding => blen (fed tr) <= s_max s + blen (s_in s)
  | SpAwaiting OKUserMessage => False
  | _ => fed tr = s_in s
  end.
Lemma binv_quiet s tr o rs : binv s tr -> fed [(o, rs)] = [] -> binv s (tr ++ [(o, rs)]).
Proof. intros I F. unfold binv in *. now rewrite fed_app, F, app_nil_r. Qed.
Lemma binv_step s tr o s' rs : binv s tr -> stepped W s o s' rs -> binv s' (tr ++ [(o, rs)]).
Proof.
  intros I ST. pose proof (stepped_bound _ _ _ _ _ (proj1 I) ST) as B'. destruct I as [B P].
  inversion ST; subst o s' rs; try (apply binv_quiet; [exact (conj B P)|reflexivity]); try (split; [exact B'|exact Logic.I]).
  - destruct H1 as [E|E L PR|frame rest t m s2 E SP L PR DM DI FB].
    + subst data. apply binv_quiet; [exact (conj B P)|reflexivity].
    + split; [exact B'|]. snoc. cbn [s_phase s_in s_max s_set_in]. unfold s_terminal in H.
      destruct (s_phase s) as [k|k| | | |]; try discriminate; rewrite ?P; auto.
      * destruct k; rewrite ?P; auto.
      * rewrite !blen_app. lia.
    + split; [exact B'|]. snoc. rewrite SP, blen_app in L.
      assert (FE : forall x, fed tr = s_in s -> blen (fed tr ++ data) <= s_max s + x) by (intros x ->; rewrite SP, blen_app; lia).
      destruct DI as [join j states user PH EM|seq p PH EM|PH|join states user PH EM|seq src tgt PH EM TG|u PH EM]; cbn [s_phase s_set_in] in PH;
        rewrite PH in P; cbn [s_phase s_max s_in s_set_phase s_set_ep s_set_ev s_set_in s_set_out]; try (apply FE; exact P);
        try (specialize (FE (s_max s) P); lia).
      contradiction.
  - split; [exact B'|]. snoc. unfold s_terminal in H. destruct (s_phase s) eqn:PH; try discriminate; auto.
    rewrite H0 by (unfold s_done; now rewrite PH). rewrite app_nil_r. exact P.
  - split; [exact B'|]. snoc. cbn [s_phase s_max s_in s_set_phase s_set_ep s_set_ev s_set_in s_set_out].
    destruct H as [PH|PH]; rewrite PH in P; [rewrite P|]; lia.
  - split; [exact B'|]. snoc. cbn [s_phase s_max s_in s_set_phase s_set_ep s_set_ev s_set_in s_set_out].
    rewrite H in P. destruct k; auto.
Qed.
Lemma binv_run s0 os : s_in s0 = [] -> s_phase s0 = SpFirst \/ (exists k, s_phase s0 = SpSending k) ->
  binv (s_final W s0 os) (s_trace W s0 os).
Proof.
  intros E P. apply (s_run_ind W binv).
  - unfold binv. rewrite E. split; [cbn; lia|]. destruct P as [P|[k P]]; rewrite P; reflexivity.
  - intros s tr o I. eapply binv_step; [exact I|apply step_stepped].
Qed.
Lemma intake s0 os : s_in s0 = [] -> s_phase s0 = SpFirst \/ (exists k, s_phase s0 = SpSending k) ->
  s_failed (s_final W s0 os) = None -> blen (fed (s_trace W s0 os)) <= 2 * s_max s0.
Proof.
  intros E P F. destruct (binv_run s0 os E P) as [B I].
  assert (M : s_max (s_final W s0 os) = s_max s0).
  { apply (s_run_ind W (fun s _ => s_max s = s_max s0)); [reflexivity|]. intros s tr o X.
    destruct (stepped_const _ _ _ _ _ (step_stepped W s o)) as (_ & _ & _ & Y). congruence. }
  rewrite M in *. unfold s_failed in F. clear P. destruct (s_phase (s_final W s0 os)) as [k|k| | | |]; try discriminate; try (rewrite I); try lia.
  destruct k; try contradiction; rewrite I; lia.
Qed.
End Intake.

(** * Chunks *)
Section Chunks.
Context (W : wcodec).
Lemma probe_loop_prefix f : forall tag max bl bl' v sh vb p q total, probe_loop f tag max bl v sh vb (p ++ q) = PFrame tag total ->
  bl' < total -> probe_loop f tag max bl' v sh vb p = PNeedMore.
Proof.
  induction f as [|f IH]; intros tag max bl bl' v sh vb p q total H L; [discriminate|].
  destruct p as [|b p]; [reflexivity|]. cbn [probe_loop app] in *.
  destruct (N.land b 128 =? 0).
  - destruct (u32_max <? _); [discriminate|]. destruct (max <? _); [discriminate|].
    destruct (_ <=? bl); [|discriminate]. injection H as <-.
    destruct (N.leb_spec (1 + (vb + 1) + N.lor v (N.shiftl (N.land b 127) sh)) bl'); [lia|reflexivity].
  - destruct (35 <=? sh + 7); [discriminate|]. eapply IH; eauto.
Qed.
Lemma probe_tag max p t total : probe_frame max p = PFrame t total -> exists r, p = t :: r.
Proof.
  unfold probe_frame. destruct p as [|b p]; [discriminate|]. intros H. exists p. f_equal.
  revert H. generalize 0 at 1; generalize 0 at 1; generalize 0; generalize p at 2; generalize 5%nat.
  intros f. induction f as [|f IH]; intros l a c e H; [discriminate|]. cbn [probe_loop] in H. destruct l; [discriminate|].
  destruct (N.land n 128 =? 0); [destruct (u32_max <? _); [discriminate|]; destruct (max <? _); [discriminate|]; destruct (_ <=? _); [|discriminate]; now injection H|].
  destruct (35 <=? _); [discriminate|]. eapply IH; eauto.
Qed.
Lemma probe_prefix max p q t total : probe_frame max (p ++ q) = PFrame t total -> blen p < total -> probe_frame max p = PNeedMore.
Proof.
  intros H L. destruct p as [|b p]; [reflexivity|]. pose proof (probe_tag _ _ _ _ H) as [r X]. cbn [app] in X. injection X as -> _.
  unfold probe_frame in *. cbn [app] in H. eapply probe_loop_prefix; eauto.
Qed.

Definition open_phase (s : stream) : bool := match s_phase s with SpFirst | SpAwaiting _ => true | _ => false end.
Lemma handle_open data now s : open_phase s = true -> s_handle_data W data now s =
  match s_data_inner W data now s with Ok s' => (s', None) | Err e => (enter_failed e s, Some e) end.
Proof. unfold open_phase, s_handle_data. destruct (s_phase s); try discriminate; reflexivity. Qed.
Lemma feed_joined cs : forall s c last frame t, open_phase s = true -> c <> [] -> Forall (fun x => fst x <> []) cs ->
  s_late last s = false -> Forall (fun x => s_late (snd x) s = false) cs ->
  s_in s ++ concat (map fst cs) ++ c = frame -> probe_frame (s_max s) frame = PFrame t (blen frame) ->
  s_final W s (feed cs ++ [SoData c last]) = fst (s_step W s (SoData (concat (map fst cs) ++ c) last)) /\
  returned (s_trace W s (feed cs ++ [SoData c last])) = snd (s_step W s (SoData (concat (map fst cs) ++ c) last)).
Proof.
  induction cs as [|[c0 t0] cs IH]; intros s c last frame t OP NE NES LT LTS EQ PF.
  { split; [reflexivity|]. cbn [feed map concat app s_trace]. unfold returned. cbn [map snd concat]. now rewrite app_nil_r. }
  inversion NES as [|? ? NE0 NES']; subst. inversion LTS as [|? ? LT0 LTS']; subst. cbn [fst snd] in *.
  cbn [feed map s_final app concat fst snd] in *.
  pose proof (probe_total _ _ _ _ PF) as [PL1 PL2].
  assert (ST : s_step W s (SoData c0 t0) = (s_set_in (s_in s ++ c0) s, [])).
  { unfold s_step. rewrite handle_open by assumption. unfold s_data_inner. rewrite LT0.
    destruct c0 as [|x c0]; [congruence|]. set (cc := x :: c0) in *.
    assert (NL : s_max s <? blen (s_in s) + blen cc = false).
    { apply N.ltb_ge. rewrite !blen_app in PL1. lia. }
    rewrite NL. unfold s_decode. cbn [s_max s_in s_set_in].
    rewrite (probe_prefix (s_max s) (s_in s ++ cc) (concat (map fst cs) ++ c) t (blen (s_in s ++ (cc ++ concat (map fst cs)) ++ c))).
    - reflexivity.
    - rewrite <- PF. f_equal. now rewrite <- !app_assoc.
    - rewrite !blen_app. destruct c as [|y c]; [congruence|]. rewrite blen_cons. lia. }
  unfold sact in *. rewrite ST. cbn [fst snd].
  specialize (IH (s_set_in (s_in s ++ c0) s) c last (s_in s ++ (c0 ++ concat (map fst cs)) ++ c) t OP NE NES' LT LTS').
  cbn [s_in s_max s_set_in] in IH. destruct IH as [IH1 IH2].
  { now rewrite <- !app_assoc. } { exact PF. }
  assert (X : s_data_inner W (concat (map fst cs) ++ c) last (s_set_in (s_in s ++ c0) s) = s_data_inner W ((c0 ++ concat (map fst cs)) ++ c) last s).
  { unfold s_data_inner. change (s_late last (s_set_in (s_in s ++ c0) s)) with (s_late last s). rewrite LT.
    destruct ((c0 ++ concat (map fst cs)) ++ c) as [|y l] eqn:E1.
    { apply app_eq_nil in E1 as [_ E1]. congruence. }
    destruct (concat (map fst cs) ++ c) as [|y' l'] eqn:E2.
    { apply app_eq_nil in E2 as [_ E2]. congruence. }
    rewrite <- E1, <- E2. cbn [s_in s_max s_set_in].
    replace (blen (s_in s ++ c0) + blen (concat (map fst cs) ++ c)) with (blen (s_in s) + blen ((c0 ++ concat (map fst cs)) ++ c)) by (rewrite !blen_app; lia).
    destruct (s_max s <? _); [reflexivity|].
    replace (s_set_in ((s_in s ++ c0) ++ concat (map fst cs) ++ c) (s_set_in (s_in s ++ c0) s)) with (s_set_in (s_in s ++ (c0 ++ concat (map fst cs)) ++ c) s); [reflexivity|].
    unfold s_set_in. cbn. f_equal. now rewrite <- !app_assoc. }
  change (map (fun c1 : bytes * N => SoData (fst c1) (snd c1)) cs) with (feed cs).
  change (map (fun c1 : bytes * N => SoData (fst c1) (snd c1)) ((c0, t0) :: cs)) with (SoData c0 t0 :: feed cs).
  assert (Y : s_step W s (SoData ((c0 ++ concat (map fst cs)) ++ c) last) =
    let '(s', r) := s_step W (s_set_in (s_in s ++ c0) s) (SoData (concat (map fst cs) ++ c) last) in (s', r)).
  { unfold s_step. rewrite !handle_open by assumption. rewrite X.
    destruct (s_data_inner W ((c0 ++ concat (map fst cs)) ++ c) last s); reflexivity. }
  rewrite Y. destruct (s_step W (s_set_in (s_in s ++ c0) s) (SoData (concat (map fst cs) ++ c) last)) as [s2 r2]. cbn [fst snd] in *.
  split; [exact IH1|]. cbn [app s_trace]. rewrite ST. cbn [fst snd]. rewrite returned_cons. exact IH2.
Qed.
End Chunks.
