(** The events show the address and the metadata of every member. *)
From Coq Require Import Permutation.
From Verif Require Import CoreModel MapFacts BaseFacts DeadlineFacts MembersFacts LabelFacts CoreFacts CoreInv CoreSteps BroadcastInv BroadcastHist CoreTrans CoreHist.
Local Open Scope N_scope.

Section Core.
Variable C : cfg.
Implicit Types (k : core) (m : member) (id : N).
Notation LID := (c_id C).
Notation kinv := (kinv C).
Notation kstep := (kstep C).

(** what the table says of a live member *)
Definition face (r : option member) : option (N * bytes) :=
  match r with Some m => if dead_or_left (m_state m) then None else Some (ns_addr (m_server m), ns_meta (m_server m)) | None => None end.
(** what the last event about it says *)
Definition tell1 id (b : option (N * bytes)) (e : event) : option (N * bytes) :=
  match e with
  | EvJoined s | EvUpdated s => if ns_id s =? id then Some (ns_addr s, ns_meta s) else b
  | EvLeft s => if ns_id s =? id then None else b
  | _ => b
  end.
Definition tell id (l : list event) : option (N * bytes) := fold_left (tell1 id) l None.
Lemma tell_app id l l' : tell id (l ++ l') = fold_left (tell1 id) l' (tell id l).
Proof. apply fold_left_app. Qed.
Lemma tell_filter id h l : tell id (h ++ filter (fun e => negb (is_dial e)) l) = tell id (h ++ l).
Proof.
  rewrite !tell_app. generalize (tell id h). induction l as [|e l IH]; intros b; [reflexivity|]. cbn [filter].
  destruct e; cbn [is_dial negb fold_left tell1]; apply IH.
Qed.
Definition shown h k : Prop := forall id, tell id (h ++ k_ev k) = face (rec_at k id).
Lemma shown_step h o now k k' : no_requeue o -> kinv k -> kstep o now k k' -> o <> KPoll -> shown h k -> shown h k'.
Proof.
  intros NR V S NP H.
  assert (forall e k1, k_ev k1 = k_ev k ++ [e] -> (forall id b, tell1 id b e = b) -> (forall id, face (rec_at k1 id) = face (rec_at k id)) -> shown h k1) as KQ.
  { intros e k1 E Q L id. rewrite E, app_assoc, tell_app. cbn [fold_left]. rewrite Q, L. apply H. }
  assert (forall e, quiet e = true -> forall id b, tell1 id b e = b) as QQ by (intros []; try discriminate; reflexivity).
  assert (forall k1, k_ev k1 = k_ev k -> (forall id, face (rec_at k1 id) = face (rec_at k id)) -> shown h k1) as KS.
  { intros k1 E L id. rewrite E, L. apply H. }
  destruct (local_rec C k V) as (ml & GL & EIL & EIDL & ESL & EAL & NLv & EAdr).
  destruct S as [k g accused m Go GA R G I A|k i m s s' d inc from Go R G I SU SC|k i m inc from Go R G I A NL|k i m inc from Go R G I DL NL
    |k m al Go R AD G NA|k al off draws Go R AD G MX|k al m tk Go R AD G NL T|k hh|k meta Eo R L|k i delta Eo|k Eo|k m Eo R G|k e Eo Q|k e Eo|k e r|k Q|k f|k n'];
    try contradiction; try (apply KS; [reflexivity|reflexivity]).
  - apply KS; [reflexivity|]. intros id. unfold rec_at. cbn. rewrite aget_mt_upd. destruct (id =? LID); [|reflexivity]. destruct (aget id (k_mem k)); reflexivity.
  - apply KS; [reflexivity|]. intros id. unfold rec_at. cbn. rewrite aget_mt_upd. destruct (id =? i); [|reflexivity]. destruct (aget id (k_mem k)); reflexivity.
  - apply KS; [reflexivity|]. intros id. unfold rec_at. cbn. rewrite aget_mt_upd. destruct (N.eqb_spec id i) as [->|]; [|reflexivity].
    unfold rec_at in G. rewrite G. cbn. rewrite A. reflexivity.
  - pose proof (ki_rec _ _ V _ _ G) as [EID _]. intros id. cbn. rewrite app_assoc, tell_app, (H id). cbn. rewrite EID. unfold rec_at. cbn. rewrite aget_mt_upd.
    rewrite (N.eqb_sym i id). destruct (N.eqb_spec id i) as [->|]; [|reflexivity]. unfold rec_at in G. rewrite G. cbn. destruct (i =? from); reflexivity.
  - eapply KQ; [reflexivity|reflexivity|reflexivity].
  - intros id. cbn. rewrite app_assoc, tell_app, (H id). cbn. unfold rec_at. cbn. rewrite aget_mt_insert by (exact (ki_nodup _ _ V) || exact G).
    rewrite (N.eqb_sym (al_id al) id). destruct (id =? al_id al); reflexivity.
  - cbn zeta. set (k2 := bcast _ _ _ _).
    assert (k_ev k2 = k_ev k /\ k_mem k2 = mt_upd (al_id al) (fun _ => mkM (alive_ns al PAlive) (al_inc al)
                   (if pstate_eqb (m_state m) PAlive then m_change m else now) PAlive None
                   (if tk then k_gen k else m_gen m)) (k_mem k)) as [E1 E2] by (unfold k2; destruct tk; split; reflexivity).
    assert (forall id, face (rec_at k2 id) = if id =? al_id al then Some (al_addr al, al_meta al) else face (rec_at k id)) as E3.
    { intros id. unfold rec_at. rewrite E2, aget_mt_upd. destruct (N.eqb_spec id (al_id al)) as [->|]; [|reflexivity]. unfold rec_at in G. rewrite G. reflexivity. }
    clearbody k2. destruct (dead_or_left (m_state m)) eqn:DL.
    + intros id. change (rec_at (emit (EvJoined (alive_ns al PAlive)) k2) id) with (rec_at k2 id). rewrite E3.
      cbn. rewrite E1, app_assoc, tell_app, (H id). cbn. rewrite (N.eqb_sym (al_id al) id).
      reflexivity.
    + destruct (bytes_eqb_spec (ns_meta (m_server m)) (al_meta al)) as [EM|NM]; cbn [negb].
      * apply KS; [cbn; exact E1|]. intros id. change (rec_at (bumpv k2) id) with (rec_at k2 id). rewrite E3.
        destruct (N.eqb_spec id (al_id al)) as [->|]; [|reflexivity]. rewrite G. cbn. rewrite DL.
        assert (ns_addr (m_server m) = al_addr al) as -> by (destruct tk; [destruct T as [_ [T|[T _]]]; rewrite T in DL; discriminate|exact (proj1 T)]).
        rewrite EM. reflexivity.
      * intros id. change (rec_at (emit (EvUpdated (alive_ns al PAlive)) k2) id) with (rec_at k2 id). rewrite E3.
        cbn. rewrite E1, app_assoc, tell_app, (H id). cbn. rewrite (N.eqb_sym (al_id al) id). reflexivity.
  - cbn zeta. intros id. cbn. rewrite app_assoc, tell_app, (H id). cbn. unfold rec_at. cbn. rewrite aget_mt_upd.
    rewrite (N.eqb_sym LID id). destruct (N.eqb_spec id LID) as [->|]; [|reflexivity]. unfold rec_at in GL. rewrite GL. cbn. rewrite (EAL R). reflexivity.
  - apply KS; [reflexivity|]. intros id. unfold rec_at. cbn. rewrite aget_mt_upd. destruct (id =? i); [|reflexivity]. destruct (aget id (k_mem k)); reflexivity.
  - apply KS.
    + destruct (reset_eq C now k V) as (d & ->). cbn. destruct (existsb _ _); reflexivity.
    + intros id. rewrite rec_reset by exact V. destruct (rec_at k id) as [m|]; [|reflexivity].
      unfold kept, removable. cbn [fst snd]. destruct (id =? LID); [reflexivity|]. destruct (dead_or_left (m_state m)) eqn:DL; [|reflexivity]. cbn.
      destruct (_ <? _); cbn; rewrite ?DL; reflexivity.
  - assert (ml = m) by congruence. subst ml. intros id. cbn. rewrite app_assoc, tell_app, tell_filter, (H id). cbn. rewrite EIDL. unfold rec_at. cbn. rewrite aget_mt_upd.
    rewrite (N.eqb_sym LID id). destruct (N.eqb_spec id LID) as [->|]; [|reflexivity]. unfold rec_at in G. rewrite G. reflexivity.
  - eapply KQ; [reflexivity|apply QQ; exact Q|reflexivity].
  - subst o. eapply KQ; [reflexivity|apply QQ; exact NR|reflexivity].
Qed.
Lemma shown_run os : forall k h, Forall no_requeue os -> kinv k -> shown h k ->
  let '(k', out) := core_run C k os in shown (h ++ out) k'.
Proof.
  induction os as [|o os IH]; intros k h F V H; cbn [core_run]; [rewrite app_nil_r; exact H|].
  inversion F as [|? ? F1 F2]; subst. pose proof (kinv_core_step C k o V) as V1.
  assert (let '(k1, e1) := core_step C k o in shown (h ++ e1) k1) as H1.
  { assert (o = KPoll \/ o <> KPoll) as [->|NP] by (destruct o; auto; right; discriminate).
    - cbn. destruct (k_ev k) as [|e r] eqn:E; [rewrite app_nil_r; exact H|]. intros id. cbn. rewrite <- app_assoc. cbn.
      specialize (H id). rewrite E in H. exact H.
    - assert (snd (core_step C k o) = []) as E by (destruct o; try reflexivity; congruence).
      destruct (core_step_chain C k o V) as (j & _ & S). destruct (core_step C k o) as [k1 e1]. cbn [fst snd] in *. subst e1. rewrite app_nil_r.
      clear - F1 V S NP H. induction S as [|n k1 k2 k3 S1 S2 IH]; [exact H|]. apply IH; [exact (kinv_step C _ _ _ _ V S1)|].
      exact (shown_step _ _ _ _ _ F1 V S1 NP H). }
  destruct (core_step C k o) as [k1 e1]. cbn [fst] in V1. specialize (IH k1 (h ++ e1) F2 V1 H1).
  destruct (core_run C k1 os) as [k2 e2]. rewrite app_assoc. exact IH.
Qed.
Lemma shown_new t0 : shown [] (core_new C t0).
Proof.
  intros id. unfold tell, rec_at. cbn. rewrite (N.eqb_sym LID id). destruct (id =? LID); reflexivity.
Qed.
End Core.
