(** Facts about histories of the membership core. *)
From Coq Require Import Permutation.
From Verif Require Import CoreModel MapFacts BaseFacts DeadlineFacts MembersFacts LabelFacts CoreFacts CoreInv CoreSteps BroadcastInv BroadcastHist CoreTrans.
Local Open Scope N_scope.

Section Core.
Variable C : cfg.
Implicit Types (k : core) (m : member) (id : N).
Notation LID := (c_id C).
Notation kinv := (kinv C).
Notation kstep := (kstep C).
Notation kchain := (kchain C).
Notation effort := (effort C).

(** ** Generations identify instances *)
Lemma next_gen_eq k : k_gen k < u64_max -> k_gen (next_gen k) = k_gen k + 1.
Proof.
  intros H0. unfold next_gen. cbn. assert (wadd64 (k_gen k) 1 = k_gen k + 1) as ->
    by (unfold wadd64, two64; unfold u64_max in H0; apply N.mod_small; lia). destruct (N.eqb_spec (k_gen k + 1) 0); lia.
Qed.
Lemma step_gen o now k k' : kinv k -> kstep o now k k' -> k_gen k < u64_max -> k_gen k <= k_gen k' <= k_gen k + 1.
Proof.
  intros V S H.
  destruct S as [k g accused m Go GA R G I A|k i m s s' d inc from Go R G I SU SC|k i m inc from Go R G I A NL|k i m inc from Go R G I DL NL
    |k m al Go R AD G NA|k al off draws Go R AD G MX|k al m tk Go R AD G NL T|k h|k meta Eo R L|k i delta Eo|k Eo|k m Eo R G|k e|k e|k e r|k Q|k f|k n'];
    try (cbn; lia).
  - pose proof (next_gen_eq k H). cbn in *. lia.
  - cbn zeta. pose proof (next_gen_eq k H). destruct tk; destruct (dead_or_left _); try destruct (negb _); cbn in *; lia.
  - destruct (reset_eq C now k V) as (d & ->). cbn. destruct (existsb _ _); cbn; lia.
Qed.
(** Within one step a record keeps its instance, or a new one starts *)
Definition same_inst id m m' : Prop :=
  m_gen m' = m_gen m /\ (id <> LID -> ns_addr (m_server m') = ns_addr (m_server m) /\ m_inc m <= m_inc m').
Lemma trans_inst o now k k' id r r' : mtrans C o now k k' id r r' ->
  match r' with
  | None => True
  | Some m' => m_gen m' = k_gen k /\ k_gen k' = k_gen (next_gen k) \/ match r with Some m => same_inst id m m' | None => False end
  end.
Proof.
  unfold same_inst. intros T. destruct T as [r|g accused m A B D E F I J|m s s' inc from d A B D E F I J|m s inc from A B D E F|m inc from A B D E F
    |al A B D E F I|al m tk A B D E F I J|m meta A B D E F I|m d A| |m A B D E F]; cbn;
    try (right; split; [reflexivity|]; intros NL; first [exfalso; exact (NL A)|exfalso; exact (NL B)|split; [reflexivity|lia]]).
  - destruct r as [m|]; [|exact I]. right. split; [reflexivity|]. intros _. split; [reflexivity|lia].
  - left. split; [reflexivity|exact I].
  - destruct tk; [left; split; [reflexivity|exact J]|right]. split; [reflexivity|]. intros _. destruct I as [I1 I2]. split; [congruence|lia].
  - exact I.
Qed.
Definition gens (n : N) k : Prop := n < u64_max -> k_gen k <= n /\ forall id m, rec_at k id = Some m -> m_gen m < k_gen k.
Lemma gens_le n n' k : n <= n' -> gens n k -> gens n' k.
Proof. intros L H L'. destruct (H ltac:(lia)) as [A B]. split; [lia|exact B]. Qed.
Lemma gens_step n o now k k' : kinv k -> kstep o now k k' -> gens n k -> gens (n + 1) k'.
Proof.
  intros V S H L. destruct (H ltac:(lia)) as [Hg Hm]. pose proof (step_gen o now k k' V S ltac:(lia)) as Hg'. split; [lia|].
  intros id m' G'. pose proof (trans_inst _ _ _ _ _ _ _ (step_trans C o now k k' id V S)) as T. rewrite G' in T.
  destruct T as [[T1 T2]|T]; [rewrite next_gen_eq in T2 by lia; lia|].
  destruct (rec_at k id) as [m|] eqn:G; [|contradiction]. destruct T as [T _]. specialize (Hm id m G). lia.
Qed.
Lemma gens_new t0 : gens 2 (core_new C t0).
Proof.
  intros _. cbn. split; [lia|]. intros id m. unfold rec_at. cbn. destruct (id =? LID); [|discriminate]. intros [= <-]. cbn. lia.
Qed.
Lemma gens_run os k n : kinv k -> gens n k -> gens (n + effort k os) (fst (core_run C k os)).
Proof.
  intros V H. apply (run_ind C (fun _ => True) gens); auto.
  - exact gens_le.
  - intros n0 o now k0 k' _ V0 S. exact (gens_step n0 o now k0 k' V0 S).
  - apply Forall_forall. auto.
Qed.
(** a record seen later is of the same instance or has a later generation *)
Lemma inst_run os k n id m : kinv k -> gens n k -> n + effort k os < u64_max -> rec_at k id = Some m ->
  match rec_at (fst (core_run C k os)) id with
  | None => True
  | Some m' => same_inst id m m' \/ k_gen k <= m_gen m'
  end.
Proof.
  intros V H L G.
  pose (P := fun n' k' => n' < u64_max -> gens n' k' /\ k_gen k <= k_gen k' /\ match rec_at k' id with None => True | Some m' => same_inst id m m' \/ k_gen k <= m_gen m' end).
  assert (P (n + effort k os) (fst (core_run C k os))) as K; [|exact (proj2 (proj2 (K L)))].
  apply (run_ind C (fun _ => True) P); unfold P.
  - intros n1 n2 k1 HL HP L2. destruct (HP ltac:(lia)) as (A & B & D). split; [exact (gens_le _ _ _ HL A)|auto].
  - intros n1 o now k1 k2 _ V1 S HP L2. destruct (HP ltac:(lia)) as (A & B & D). destruct (A ltac:(lia)) as [A1 A2].
    pose proof (step_gen o now k1 k2 V1 S ltac:(lia)) as HG. split; [exact (gens_step _ _ _ _ _ V1 S A)|]. split; [lia|].
    pose proof (trans_inst _ _ _ _ _ _ _ (step_trans C o now k1 k2 id V1 S)) as T.
    destruct (rec_at k2 id) as [m2|]; [|exact I]. destruct T as [[T1 T2]|T]; [right; lia|].
    destruct (rec_at k1 id) as [m1|]; [|contradiction]. destruct T as [T1 T2]. destruct D as [[D1 D2]|D]; [|right; lia].
    left. split; [congruence|]. intros NL. specialize (T2 NL). specialize (D2 NL). split; [destruct T2, D2; congruence|lia].
  - apply Forall_forall. auto.
  - exact V.
  - intros _. split; [exact H|]. split; [lia|]. rewrite G. left. split; [reflexivity|]. intros _. split; [reflexivity|lia].
Qed.

(** ** The snapshot version *)
Definition obs m : nstate * N * pstate := (m_server m, m_inc m, m_state m).
Definition same_view k k' : Prop := (forall id, option_map obs (rec_at k' id) = option_map obs (rec_at k id)) /\ k_aw k' = k_aw k.
Lemma same_view_refl k : same_view k k.
Proof. split; reflexivity. Qed.
Lemma same_view_trans k1 k2 k3 : same_view k1 k2 -> same_view k2 k3 -> same_view k1 k3.
Proof. intros [A B] [D E]. split; [intros id; rewrite D; apply A|congruence]. Qed.
Lemma step_ver o now k k' : kinv k -> kstep o now k k' ->
  (k_ver k' = k_ver k /\ same_view k k') \/ k_ver k' = wadd64 (k_ver k) 1.
Proof.
  intros V S.
  destruct S as [k g accused m Go GA R G I A|k i m s s' d inc from Go R G I SU SC|k i m inc from Go R G I A NL|k i m inc from Go R G I DL NL
    |k m al Go R AD G NA|k al off draws Go R AD G MX|k al m tk Go R AD G NL T|k h|k meta Eo R L|k i delta Eo|k Eo|k m Eo R G|k e|k e|k e r|k Q|k f|k n'];
    try (left; split; [reflexivity|split; reflexivity]); try (right; reflexivity).
  - left. split; [reflexivity|]. split; [|reflexivity]. intros id. unfold rec_at. cbn. rewrite aget_mt_upd.
    destruct (N.eqb_spec id i) as [->|]; [|reflexivity]. destruct (aget i (k_mem k)); reflexivity.
  - right. cbn zeta. destruct tk; destruct (dead_or_left _); try destruct (negb _); reflexivity.
  - left. split; [reflexivity|]. split; [|reflexivity]. intros id. unfold rec_at. cbn. rewrite aget_mt_upd.
    destruct (N.eqb_spec id i) as [->|]; [|reflexivity]. destruct (aget i (k_mem k)); reflexivity.
  - pose proof (fun id => rec_reset C now k id V) as RR. destruct (reset_eq C now k V) as (d & E). rewrite E.
    destruct (existsb (removable C now) (k_mem k)) eqn:EX; [right; reflexivity|]. left. split; [reflexivity|]. split; [|reflexivity].
    intros id. specialize (RR id). rewrite E in RR. rewrite RR. destruct (rec_at k id) as [m|] eqn:G; [|reflexivity].
    assert (kept C now (id, m) = true) as ->; [|reflexivity]. unfold kept.
    destruct (removable C now (id, m)) eqn:ER; [|reflexivity]. exfalso.
    assert (existsb (removable C now) (k_mem k) = true) as HT by (apply existsb_exists; exists (id, m); split; [apply aget_in; exact G|exact ER]).
    congruence.
Qed.
Definition vers k0 (n : N) k : Prop :=
  (k_ver k = k_ver k0 /\ same_view k0 k) \/ exists j, 1 <= j /\ j <= n /\ k_ver k = (k_ver k0 + j) mod two64.
Lemma vers_run os k : kinv k -> k_ver k < two64 -> vers k (effort k os) (fst (core_run C k os)).
Proof.
  intros V HV. replace (effort k os) with (0 + effort k os) by lia. apply (run_ind C (fun _ => True) (vers k)).
  - intros n1 n2 k1 L [A|(j & A1 & A2 & A3)]; [left; exact A|right; exists j; repeat split; try assumption; lia].
  - intros n o now k1 k2 _ V1 S [[A1 A2]|(j & A1 & A2 & A3)]; destruct (step_ver o now k1 k2 V1 S) as [[B1 B2]|B].
    + left. split; [congruence|exact (same_view_trans _ _ _ A2 B2)].
    + right. exists 1. repeat split; try lia. rewrite B, A1. reflexivity.
    + right. exists j. repeat split; try lia.
    + right. exists (j + 1). repeat split; try lia. rewrite B, A3. unfold wadd64.
      rewrite N.add_mod_idemp_l by (unfold two64; lia). f_equal. lia.
  - apply Forall_forall. auto.
  - exact V.
  - left. split; [reflexivity|apply same_view_refl].
Qed.
Lemma ver_same os k : kinv k -> k_ver k < two64 -> effort k os < two64 ->
  k_ver (fst (core_run C k os)) = k_ver k -> same_view k (fst (core_run C k os)).
Proof.
  intros V HV L E. destruct (vers_run os k V HV) as [[_ A]|(j & A1 & A2 & A3)]; [exact A|]. exfalso.
  rewrite A3 in E. assert (k_ver k + j < 2 * two64) as HB by lia.
  destruct (N.lt_ge_cases (k_ver k + j) two64) as [S|S].
  - rewrite N.mod_small in E by exact S. lia.
  - assert ((k_ver k + j) mod two64 = k_ver k + j - two64) as EM.
    { rewrite <- (N.mod_small (k_ver k + j - two64) two64) by lia.
      replace (k_ver k + j) with (k_ver k + j - two64 + 1 * two64) at 1 by lia. apply N.mod_add. unfold two64. lia. }
    lia.
Qed.
Lemma ver_lt os k : kinv k -> k_ver k < two64 -> k_ver (fst (core_run C k os)) < two64.
Proof.
  intros V HV. destruct (vers_run os k V HV) as [[A _]|(j & _ & _ & ->)]; [lia|]. apply N.mod_lt. unfold two64. lia.
Qed.

(** ** Events mirror the table *)
Definition live (r : option member) : bool := match r with Some m => negb (dead_or_left (m_state m)) | None => false end.
(** replay the events about one id: joined or not; [None] if they do not alternate *)
Definition track1 id (b : option bool) (e : event) : option bool :=
  match e with
  | EvJoined s => if ns_id s =? id then match b with Some false => Some true | _ => None end else b
  | EvLeft s => if ns_id s =? id then match b with Some true => Some false | _ => None end else b
  | _ => b
  end.
Definition track id (l : list event) : option bool := fold_left (track1 id) l (Some false).
Lemma track_app id l l' : track id (l ++ l') = fold_left (track1 id) l' (track id l).
Proof. apply fold_left_app. Qed.
Lemma track_quiet id l e : quiet e = true -> track id (l ++ [e]) = track id l.
Proof. intros Q. rewrite track_app. destruct e; try discriminate; reflexivity. Qed.
Lemma track_filter id h l : track id (h ++ filter (fun e => negb (is_dial e)) l) = track id (h ++ l).
Proof.
  rewrite !track_app. generalize (track id h). induction l as [|e l IH]; intros b; [reflexivity|]. cbn [filter].
  destruct e; cbn [is_dial negb fold_left track1]; apply IH.
Qed.
Definition mirrored h k : Prop := forall id, track id (h ++ k_ev k) = Some (live (rec_at k id)).
Definition no_requeue (o : cop) : Prop := match o with KRequeue e => quiet e = true | _ => True end.
Lemma mirrored_step h o now k k' : no_requeue o -> kinv k -> kstep o now k k' -> o <> KPoll -> mirrored h k -> mirrored h k'.
Proof.
  intros NR V S NP H.
  assert (forall e k1, k_ev k1 = k_ev k ++ [e] -> (forall id b, track1 id b e = b) -> (forall id, live (rec_at k1 id) = live (rec_at k id)) -> mirrored h k1) as KQ.
  { intros e k1 E Q L id. rewrite E, app_assoc, track_app. cbn [fold_left]. rewrite Q, L. apply H. }
  assert (forall e, quiet e = true -> forall id b, track1 id b e = b) as QQ by (intros []; try discriminate; reflexivity).
  assert (forall k1, k_ev k1 = k_ev k -> (forall id, live (rec_at k1 id) = live (rec_at k id)) -> mirrored h k1) as KS.
  { intros k1 E L id. rewrite E, L. apply H. }
  destruct (local_rec C k V) as (ml & GL & EIL & EIDL & ESL & EAL & NLv & EAdr).
  destruct S as [k g accused m Go GA R G I A|k i m s s' d inc from Go R G I SU SC|k i m inc from Go R G I A NL|k i m inc from Go R G I DL NL
    |k m al Go R AD G NA|k al off draws Go R AD G MX|k al m tk Go R AD G NL T|k hh|k meta Eo R L|k i delta Eo|k Eo|k m Eo R G|k e Eo Q|k e Eo|k e r|k Q|k f|k n'];
    try contradiction; try (apply KS; [reflexivity|reflexivity]).
  - apply KS; [reflexivity|]. intros id. unfold rec_at. cbn. rewrite aget_mt_upd. destruct (id =? LID); [|reflexivity]. destruct (aget id (k_mem k)); reflexivity.
  - apply KS; [reflexivity|]. intros id. unfold rec_at. cbn. rewrite aget_mt_upd. destruct (id =? i); [|reflexivity]. destruct (aget id (k_mem k)); reflexivity.
  - apply KS; [reflexivity|]. intros id. unfold rec_at. cbn. rewrite aget_mt_upd. destruct (N.eqb_spec id i) as [->|]; [|reflexivity].
    unfold rec_at in G. rewrite G. cbn. rewrite A. reflexivity.
  - pose proof (ki_rec _ _ V _ _ G) as [EID _]. intros id. cbn. rewrite app_assoc, track_app, (H id). cbn. rewrite EID. unfold rec_at. cbn. rewrite aget_mt_upd.
    rewrite (N.eqb_sym i id). destruct (N.eqb_spec id i) as [->|]; [|reflexivity]. unfold rec_at in G. rewrite G. cbn. rewrite DL. cbn. destruct (i =? from); reflexivity.
  - eapply KQ; [reflexivity|reflexivity|reflexivity].
  - intros id. cbn. rewrite app_assoc, track_app, (H id). cbn. unfold rec_at. cbn. rewrite aget_mt_insert by (exact (ki_nodup _ _ V) || exact G).
    rewrite (N.eqb_sym (al_id al) id). destruct (N.eqb_spec id (al_id al)) as [->|]; [|reflexivity]. unfold rec_at in G. rewrite G. reflexivity.
  - cbn zeta. set (k2 := bcast _ _ _ _).
    assert (k_ev k2 = k_ev k /\ k_mem k2 = mt_upd (al_id al) (fun _ => mkM (alive_ns al PAlive) (al_inc al)
                   (if pstate_eqb (m_state m) PAlive then m_change m else now) PAlive None
                   (if tk then k_gen k else m_gen m)) (k_mem k)) as [E1 E2] by (unfold k2; destruct tk; split; reflexivity).
    assert (forall id, live (rec_at k2 id) = if id =? al_id al then true else live (rec_at k id)) as E3.
    { intros id. unfold rec_at. rewrite E2, aget_mt_upd. destruct (N.eqb_spec id (al_id al)) as [->|]; [|reflexivity]. unfold rec_at in G. rewrite G. reflexivity. }
    clearbody k2. destruct (dead_or_left (m_state m)) eqn:DL.
    + intros id. change (rec_at (emit (EvJoined (alive_ns al PAlive)) k2) id) with (rec_at k2 id). rewrite E3.
      cbn. rewrite E1, app_assoc, track_app, (H id). cbn. rewrite (N.eqb_sym (al_id al) id).
      destruct (N.eqb_spec id (al_id al)) as [->|]; [|reflexivity]. rewrite G. cbn. rewrite DL. reflexivity.
    + assert (forall id, live (rec_at k2 id) = live (rec_at k id)) as E4.
      { intros id. rewrite E3. destruct (N.eqb_spec id (al_id al)) as [->|]; [|reflexivity]. rewrite G. cbn. rewrite DL. reflexivity. }
      destruct (negb _).
      * eapply KQ; [cbn; rewrite E1; reflexivity|reflexivity|exact E4].
      * apply KS; [cbn; exact E1|exact E4].
  - cbn zeta. eapply KQ; [reflexivity|reflexivity|]. intros id. unfold rec_at. cbn. rewrite aget_mt_upd. destruct (id =? LID); [|reflexivity]. destruct (aget id (k_mem k)); reflexivity.
  - apply KS; [reflexivity|]. intros id. unfold rec_at. cbn. rewrite aget_mt_upd. destruct (id =? i); [|reflexivity]. destruct (aget id (k_mem k)); reflexivity.
  - apply KS.
    + destruct (reset_eq C now k V) as (d & ->). cbn. destruct (existsb _ _); reflexivity.
    + intros id. rewrite rec_reset by exact V. destruct (rec_at k id) as [m|]; [|reflexivity].
      unfold kept, removable. cbn [fst snd]. destruct (id =? LID); [reflexivity|]. destruct (dead_or_left (m_state m)) eqn:DL; [|reflexivity]. cbn.
      destruct (_ <? _); cbn; rewrite ?DL; reflexivity.
  - assert (ml = m) by congruence. subst ml. intros id. cbn. rewrite app_assoc, track_app, track_filter, (H id). cbn. rewrite EIDL. unfold rec_at. cbn. rewrite aget_mt_upd.
    rewrite (N.eqb_sym LID id). destruct (N.eqb_spec id LID) as [->|]; [|reflexivity]. unfold rec_at in G. rewrite G. cbn. rewrite (EAL R). reflexivity.
  - eapply KQ; [reflexivity|apply QQ; exact Q|reflexivity].
  - subst o. eapply KQ; [reflexivity|apply QQ; exact NR|reflexivity].
Qed.
Lemma mirrored_run os : forall k h, Forall no_requeue os -> kinv k -> mirrored h k ->
  let '(k', out) := core_run C k os in mirrored (h ++ out) k'.
Proof.
  induction os as [|o os IH]; intros k h F V H; cbn [core_run]; [rewrite app_nil_r; exact H|].
  inversion F as [|? ? F1 F2]; subst. pose proof (kinv_core_step C k o V) as V1.
  assert (let '(k1, e1) := core_step C k o in mirrored (h ++ e1) k1) as H1.
  { assert (o = KPoll \/ o <> KPoll) as [->|NP] by (destruct o; auto; right; discriminate).
    - cbn. destruct (k_ev k) as [|e r] eqn:E; [rewrite app_nil_r; exact H|]. intros id. cbn. rewrite <- app_assoc. cbn.
      specialize (H id). rewrite E in H. exact H.
    - assert (snd (core_step C k o) = []) as E by (destruct o; try reflexivity; congruence).
      destruct (core_step_chain C k o V) as (j & _ & S). destruct (core_step C k o) as [k1 e1]. cbn [fst snd] in *. subst e1. rewrite app_nil_r.
      clear - F1 V S NP H. induction S as [|n k1 k2 k3 S1 S2 IH]; [exact H|]. apply IH; [exact (kinv_step C _ _ _ _ V S1)|].
      exact (mirrored_step _ _ _ _ _ F1 V S1 NP H). }
  destruct (core_step C k o) as [k1 e1]. cbn [fst] in V1. specialize (IH k1 (h ++ e1) F2 V1 H1).
  destruct (core_run C k1 os) as [k2 e2]. rewrite app_assoc. exact IH.
Qed.
Lemma mirrored_new t0 : mirrored [] (core_new C t0).
Proof.
  intros id. unfold track, rec_at. cbn. rewrite (N.eqb_sym LID id). destruct (id =? LID); reflexivity.
Qed.
End Core.
