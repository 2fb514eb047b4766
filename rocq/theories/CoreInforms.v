(** What a merged list of members leaves in the table. *)
From Coq Require Import Permutation.
From Verif Require Import CoreModel MapFacts BaseFacts DeadlineFacts MembersFacts LabelFacts CoreFacts CoreInv CoreSteps CoreTrans CoreSpec.
Local Open Scope N_scope.

Section Core.
Variable C : cfg.
Implicit Types (k : core) (m : member) (id : N).
Notation kinv := (kinv C).

(** nothing about [id] changes, and at most one record is new *)
Definition aside id k k' : Prop := rec_at k' id = rec_at k id /\ k_life k' = k_life k /\ k_adm k' = k_adm k /\ k_n k <= k_n k' <= k_n k + 1.
Lemma aside_mem id k k' : k_life k' = k_life k -> k_adm k' = k_adm k -> (k_mem k' = k_mem k \/ exists j f, j <> id /\ k_mem k' = mt_upd j f (k_mem k)) -> aside id k k'.
Proof.
  intros L A [E|(j & f & N & E)]; unfold aside, rec_at, k_n; rewrite E; repeat split; auto; try lia.
  - rewrite aget_mt_upd. destruct (N.eqb_spec id j); congruence.
  - rewrite blen_mt_upd. lia.
  - rewrite blen_mt_upd. lia.
Qed.
Ltac same := apply aside_mem; [reflexivity|reflexivity|left; reflexivity].
Lemma skip_same a k : k_mem (skip_past a k) = k_mem k /\ k_life (skip_past a k) = k_life k /\ k_adm (skip_past a k) = k_adm k.
Proof. unfold skip_past. repeat match goal with |- context [if ?b then _ else _] => destruct b end; repeat split; reflexivity. Qed.
Lemma refute_mem a k : (k_mem (refute C a k) = k_mem k \/ exists f, k_mem (refute C a k) = mt_upd (c_id C) f (k_mem k)) /\ k_life (refute C a k) = k_life k /\ k_adm (refute C a k) = k_adm k.
Proof.
  unfold refute. destruct (is_running _); [|auto]. cbv zeta. set (k1 := if _ <=? a then _ else _).
  assert (X : k_mem k1 = k_mem k /\ k_life k1 = k_life k /\ k_adm k1 = k_adm k) by (unfold k1; destruct (_ <=? a); [apply (skip_same a (next_inc k))|repeat split; reflexivity]).
  destruct X as (<- & <- & <-). clearbody k1. cbn [k_mem bumpv k_set_aw k_set_ver]. destruct (aget _ _); [|auto]. split; [right; eexists; reflexivity|split; reflexivity].
Qed.
Lemma refute_aside id a k : id <> c_id C -> aside id k (refute C a k).
Proof.
  intros N. destruct (refute_mem a k) as (M & L & A). apply aside_mem; auto. destruct M as [M|(f & M)]; [now left|]. right. exists (c_id C), f. split; [congruence|exact M].
Qed.
Lemma suspect_aside id inc j from now k : id <> c_id C -> j <> id -> aside id k (process_suspect C inc j from now k).
Proof.
  intros N J. unfold process_suspect. destruct (negb _); [same|]. destruct (aget j (k_mem k)) as [m|] eqn:G; [|same]. destruct (_ <? _); [same|].
  destruct (m_susp m) as [s|].
  - destruct (susp_confirm _ _ _ _) as [s' []]; [|same]. apply aside_mem; [reflexivity|reflexivity|right; exists j; eexists; split; [exact J|reflexivity]].
  - destruct (negb _); [same|]. destruct (_ =? _); [now apply refute_aside|]. destruct (c_sto C (k_n k)) as [mn mx]. unfold install_suspicion. rewrite G.
    apply aside_mem; [reflexivity|reflexivity|]. right. cbn. rewrite mt_upd_upd. exists j. eexists. split; [exact J|reflexivity].
Qed.
Lemma dead_aside id inc j from now k : k_life k = Running -> id <> c_id C -> j <> id -> aside id k (process_dead C inc j from now k).
Proof.
  intros R N J. unfold process_dead. destruct (aget j (k_mem k)) as [m|] eqn:G; [|same]. destruct (_ <? _); [same|]. destruct (dead_or_left _); [same|].
  destruct (_ =? _); [rewrite R; now apply refute_aside|]. destruct (negb _); [same|].
  apply aside_mem; [reflexivity|reflexivity|]. right. cbn. rewrite mt_upd_upd. exists j. eexists. split; [exact J|reflexivity].
Qed.
Lemma aside_upd id j f k1 k k' : aside id k k1 -> j <> id -> k_life k' = k_life k1 -> k_adm k' = k_adm k1 -> k_mem k' = mt_upd j f (k_mem k1) -> aside id k k'.
Proof.
  intros (A1 & A2 & A3 & A4) J L A E. unfold aside, rec_at, k_n in *. rewrite E, L, A. repeat split; auto.
  - rewrite aget_mt_upd. destruct (N.eqb_spec id j); congruence.
  - rewrite blen_mt_upd. apply A4.
  - rewrite blen_mt_upd. apply A4.
Qed.
Lemma aside_refute id a k1 k : id <> c_id C -> aside id k k1 -> aside id k (refute C a k1).
Proof.
  intros N (A1 & A2 & A3 & A4). destruct (refute_aside id a k1 N) as (B1 & B2 & B3 & B4). assert (k_n (refute C a k1) = k_n k1) as EN; [|unfold aside; rewrite EN; repeat split; try congruence; apply A4].
  unfold k_n. destruct (refute_mem a k1) as ([-> |(f & ->)] & _); [reflexivity|apply blen_mt_upd].
Qed.
Lemma apply_aside id al now ua nw k1 k : id <> c_id C -> al_id al <> id -> aside id k k1 -> aside id k (alive_apply C al now ua nw k1).
Proof.
  intros N J A. unfold alive_apply. destruct (aget (al_id al) (k_mem k1)) as [m|] eqn:G; [|exact A]. destruct (negb nw && negb ua && _ && _); [exact A|]. destruct (_ && (_ <? _)); [exact A|].
  assert (A1 : aside id k (clear_suspicion (al_id al) k1)) by (apply (aside_upd id (al_id al) (m_set_susp None) k1); auto).
  destruct (al_id al =? c_id C).
  - destruct (_ && _); [exact A1|]. now apply aside_refute.
  - set (k2 := clear_suspicion (al_id al) k1) in *. clearbody k2.
    destruct ua; (destruct (dead_or_left _); [|destruct (negb _)]); (eapply (aside_upd id (al_id al) _ k2); [exact A1|exact J|reflexivity|reflexivity|reflexivity]).
Qed.
Lemma alive_aside id al now k : kinv k -> id <> c_id C -> al_id al <> id -> aside id k (process_alive C al now k).
Proof.
  intros V N J. unfold process_alive. destruct (negb _); [same|]. destruct (k_adm _ _); [|same]. unfold alive_decided. destruct (aget (al_id al) (k_mem k)) as [m|] eqn:G.
  - destruct (_ =? _); [apply apply_aside; auto; same|]. destruct (match m_state m with PLeft => _ | PDead => _ | _ => _ end); [apply apply_aside; auto; same|same].
  - destruct (match c_max_members C with Some _ => _ | None => _ end); [same|]. cbv zeta.
    set (x := if k_n (next_gen k) =? 0 then _ else _). assert (X : k_mem (snd x) = k_mem k /\ k_life (snd x) = k_life k /\ k_adm (snd x) = k_adm k) by (unfold x; destruct (_ =? _); repeat split; reflexivity).
    destruct x as [off k1]. cbn [snd] in X. destruct X as (X1 & X2 & X3). apply apply_aside; auto. unfold aside, rec_at, k_n. cbn [k_mem k_life k_adm k_set_mem]. rewrite X1. repeat split; auto.
    + rewrite aget_mt_insert; [|apply (ki_nodup _ _ V)|exact G]. destruct (N.eqb_spec id (al_id al)); congruence.
    + rewrite blen_mt_insert. lia.
    + rewrite blen_mt_insert. lia.
Qed.
Lemma one_aside id p now k : kinv k -> k_life k = Running -> id <> c_id C -> pn_id p <> id -> aside id k (merge_one C now k p).
Proof.
  intros V R N J. unfold merge_one. destruct (pn_state p); [now apply alive_aside|now apply suspect_aside|now apply suspect_aside|now apply dead_aside|same].
Qed.
Lemma kinv_one p now k : kinv k -> kinv (merge_one C now k p).
Proof. intros V. exact (kinv_core_step C k (KMerge [p] now) V). Qed.
Lemma list_aside id now : forall l k, kinv k -> k_life k = Running -> id <> c_id C -> (forall p, In p l -> pn_id p <> id) ->
  let k' := merge_state C l now k in kinv k' /\ rec_at k' id = rec_at k id /\ k_life k' = Running /\ k_adm k' = k_adm k /\ k_n k <= k_n k' <= k_n k + blen l.
Proof.
  induction l as [|p l IH]; intros k V R N H; cbv zeta.
  - split; [exact V|]. split; [reflexivity|]. split; [exact R|]. split; [reflexivity|]. change (k_n k <= k_n k <= k_n k + 0). lia.
  - destruct (one_aside id p now k V R N (H p (or_introl eq_refl))) as (A1 & A2 & A3 & A4).
    destruct (IH (merge_one C now k p) (kinv_one p now k V) ltac:(congruence) N (fun q Q => H q (or_intror Q))) as (B1 & B2 & B3 & B4 & B5). change (merge_state C (p :: l) now k) with (merge_state C l now (merge_one C now k p)).
    split; [exact B1|]. split; [congruence|]. split; [exact B3|]. split; [congruence|]. unfold blen in *. cbn [length]. lia.
Qed.

(** a record that says what [al] says *)
Definition as_told (al : alive) m : Prop :=
  m_state m = PAlive /\ m_inc m = al_inc al /\ m_server m = alive_ns al PAlive /\ m_susp m = None.
Lemma alive_told al now k : kinv k -> k_life k = Running -> k_adm k (alive_ns al PAlive) = true -> al_id al <> c_id C ->
  match c_max_members C with Some mx => k_n k < mx | None => True end ->
  (forall m, rec_at k (al_id al) = Some m -> ns_addr (m_server m) = al_addr al) ->
  exists m', rec_at (process_alive C al now k) (al_id al) = Some m' /\
    match rec_at k (al_id al) with Some m => if al_inc al <=? m_inc m then m' = m else as_told al m' | None => as_told al m' end.
Proof.
  intros V R AD N CAP HA. unfold process_alive. rewrite R, AD. cbn [is_running negb]. unfold alive_decided. unfold rec_at in HA. unfold rec_at at 2.
  assert (K : forall nw k1 m, aget (al_id al) (k_mem k1) = Some m -> nw = true \/ m_inc m < al_inc al ->
    exists m', rec_at (alive_apply C al now false nw k1) (al_id al) = Some m' /\ as_told al m').
  { intros nw k1 m G L. unfold alive_apply. rewrite G. destruct (N.eqb_spec (al_id al) (c_id C)); [contradiction|]. cbn [negb andb].
    assert (negb nw && true && true && (al_inc al <=? m_inc m) = false) as ->.
    { destruct L as [->|L]; [reflexivity|]. destruct (N.leb_spec (al_inc al) (m_inc m)); [lia|]. apply andb_false_r. }
    unfold clear_suspicion, upd. cbn [k_set_sidx k_set_mem k_mem].
    rewrite mt_upd_upd. match goal with |- context [mt_upd (al_id al) (fun m : member => @?f m) (k_mem k1)] => set (m1 := f) end. set (k2 := bcast C _ _ _).
    assert (forall k3, k_mem k3 = k_mem k2 -> rec_at k3 (al_id al) = Some (m1 m)) as K.
    { intros k3 E3. unfold rec_at. rewrite E3. unfold k2. cbn. rewrite aget_mt_upd, N.eqb_refl, G. reflexivity. }
    exists (m1 m). split; [|unfold as_told, m1; cbn; destruct (pstate_eqb_spec (m_state m) PAlive) as [E|]; cbn; auto].
    destruct (dead_or_left _); [apply K; reflexivity|]. destruct (negb _); apply K; reflexivity. }
  destruct (aget (al_id al) (k_mem k)) as [m|] eqn:G.
  - rewrite (HA m eq_refl), N.eqb_refl. destruct (N.leb_spec (al_inc al) (m_inc m)) as [L|L].
    + exists m. split; [|reflexivity]. unfold alive_apply. rewrite G. destruct (N.eqb_spec (al_id al) (c_id C)); [contradiction|]. cbn [negb andb]. apply N.leb_le in L. rewrite L. exact G.
    + apply (K false k m G). now right.
  - destruct (match c_max_members C with Some _ => _ | None => _ end) eqn:FU.
    { exfalso. destruct (c_max_members C); [|discriminate]. apply N.leb_le in FU. lia. }
    cbv zeta. set (x := if k_n (next_gen k) =? 0 then _ else _). assert (X : k_mem (snd x) = k_mem k) by (unfold x; destruct (_ =? _); reflexivity).
    destruct x as [off k1]. cbn [snd] in X. eapply K; [|now left]. cbn [k_mem k_set_mem]. rewrite X, aget_mt_insert, N.eqb_refl; [reflexivity|apply (ki_nodup _ _ V)|exact G].
Qed.

Lemma merge_told l now k p : kinv k -> k_life k = Running -> NoDup (map pn_id l) -> In p l -> pn_state p = PAlive -> pn_id p <> c_id C ->
  k_adm k (alive_ns (pns_alive p) PAlive) = true -> match c_max_members C with Some mx => k_n k + blen l <= mx | None => True end ->
  (forall m, rec_at k (pn_id p) = Some m -> ns_addr (m_server m) = pn_addr p) ->
  exists m', rec_at (merge_state C l now k) (pn_id p) = Some m' /\
    match rec_at k (pn_id p) with Some m => if pn_inc p <=? m_inc m then m' = m else as_told (pns_alive p) m' | None => as_told (pns_alive p) m' end.
Proof.
  intros V R ND IN S N AD CAP HA. apply in_split in IN as (l1 & l2 & ->). rewrite map_app in ND. cbn [map] in ND.
  assert (H1 : forall q, In q l1 -> pn_id q <> pn_id p).
  { intros q Q E. apply NoDup_remove_2 in ND. apply ND, in_app_iff. left. rewrite <- E. now apply in_map. }
  assert (H2 : forall q, In q l2 -> pn_id q <> pn_id p).
  { intros q Q E. apply NoDup_remove_2 in ND. apply ND, in_app_iff. right. rewrite <- E. now apply in_map. }
  destruct (list_aside (pn_id p) now l1 k V R N H1) as (V1 & G1 & R1 & A1 & K1). set (k1 := merge_state C l1 now k) in *.
  destruct (alive_told (pns_alive p) now k1 V1 R1 ltac:(now rewrite A1) N) as (m' & G' & T).
  { destruct (c_max_members C); [|exact Logic.I]. unfold blen in *. rewrite app_length in CAP. cbn [length] in CAP. lia. }
  { intros m. cbn [al_id al_addr pns_alive]. rewrite G1. apply HA. }
  cbn [al_id al_inc pns_alive] in G', T. rewrite G1 in T.
  assert (EM : merge_state C (l1 ++ p :: l2) now k = merge_state C l2 now (process_alive C (pns_alive p) now k1)).
  { unfold merge_state. rewrite fold_left_app. cbn [fold_left]. unfold merge_one at 2. rewrite S. reflexivity. }
  assert (V2 : kinv (process_alive C (pns_alive p) now k1)) by exact (kinv_core_step C k1 (KAlive (pns_alive p) now) V1).
  assert (R2 : k_life (process_alive C (pns_alive p) now k1) = Running).
  { pose proof (proj1 (proj2 (alive_aside (N.max (c_id C) (pn_id p) + 1) (pns_alive p) now k1 V1 ltac:(lia) ltac:(cbn; lia)))). congruence. }
  destruct (list_aside (pn_id p) now l2 _ V2 R2 N H2) as (_ & G2 & _). rewrite EM, G2. eauto.
Qed.
(** the one entry of a list that is about [id], seen alone *)
Lemma merge_split l now k p : kinv k -> k_life k = Running -> NoDup (map pn_id l) -> In p l -> pn_id p <> c_id C ->
  (forall k1, kinv k1 -> k_life k1 = Running -> rec_at k1 (pn_id p) = rec_at k (pn_id p) -> k_life (merge_one C now k1 p) = Running) ->
  exists k1, kinv k1 /\ k_life k1 = Running /\ rec_at k1 (pn_id p) = rec_at k (pn_id p) /\ rec_at (merge_state C l now k) (pn_id p) = rec_at (merge_one C now k1 p) (pn_id p).
Proof.
  intros V R ND IN N HR. apply in_split in IN as (l1 & l2 & ->). rewrite map_app in ND. cbn [map] in ND.
  assert (H1 : forall q, In q l1 -> pn_id q <> pn_id p).
  { intros q Q E. apply NoDup_remove_2 in ND. apply ND, in_app_iff. left. rewrite <- E. now apply in_map. }
  assert (H2 : forall q, In q l2 -> pn_id q <> pn_id p).
  { intros q Q E. apply NoDup_remove_2 in ND. apply ND, in_app_iff. right. rewrite <- E. now apply in_map. }
  destruct (list_aside (pn_id p) now l1 k V R N H1) as (V1 & G1 & R1 & _). exists (merge_state C l1 now k). split; [exact V1|]. split; [exact R1|]. split; [exact G1|].
  replace (merge_state C (l1 ++ p :: l2) now k) with (merge_state C l2 now (merge_one C now (merge_state C l1 now k) p)) by (unfold merge_state; rewrite fold_left_app; reflexivity).
  exact (proj1 (proj2 (list_aside (pn_id p) now l2 _ (kinv_one p now _ V1) (HR _ V1 R1 G1) N H2))).
Qed.
Lemma life_one p now k : kinv k -> k_life k = Running -> pn_id p <> c_id C -> k_life (merge_one C now k p) = Running.
Proof. intros V R N. rewrite <- R. exact (proj1 (proj2 (one_aside (N.max (c_id C) (pn_id p) + 1) p now k V R ltac:(lia) ltac:(lia)))). Qed.
Lemma merge_suspects l now k p m : kinv k -> k_life k = Running -> NoDup (map pn_id l) -> In p l -> pn_state p = PSuspect \/ pn_state p = PDead -> pn_id p <> c_id C ->
  rec_at k (pn_id p) = Some m -> m_state m = PAlive -> m_inc m <= pn_inc p ->
  exists m', rec_at (merge_state C l now k) (pn_id p) = Some m' /\ m_state m' = PSuspect /\ m_inc m' = pn_inc p /\ m_susp m' <> None /\ m_server m' = m_server m.
Proof.
  intros V R ND IN S N G SA LI. destruct (merge_split l now k p V R ND IN N (fun k1 V1 R1 _ => life_one p now k1 V1 R1 N)) as (k1 & V1 & R1 & G1 & E). rewrite E. clear E.
  assert (E : merge_one C now k1 p = process_suspect C (pn_inc p) (pn_id p) (c_id C) now k1) by (unfold merge_one; destruct S as [-> | ->]; reflexivity). rewrite E. clear E.
  unfold process_suspect. rewrite R1. cbn [is_running negb]. rewrite G in G1. pose proof (proj2 (ki_rec _ _ V1 _ _ G1)) as OK. unfold rec_at in G1. rewrite G1.
  destruct (N.ltb_spec (pn_inc p) (m_inc m)); [lia|]. rewrite SA in OK |- *. destruct (m_susp m) as [s|] eqn:ES; [discriminate OK || contradiction OK || congruence|].
  cbn [pstate_eqb negb]. destruct (N.eqb_spec (pn_id p) (c_id C)); [contradiction|]. destruct (c_sto C (k_n k1)) as [mn mx]. unfold install_suspicion. rewrite G1.
  eexists. split. { unfold rec_at. cbn. rewrite mt_upd_upd, aget_mt_upd, N.eqb_refl, G1. reflexivity. } cbn. split; [reflexivity|]. split; [reflexivity|]. split; [discriminate|reflexivity].
Qed.
Lemma merge_departs l now k p m : kinv k -> k_life k = Running -> NoDup (map pn_id l) -> In p l -> pn_state p = PLeft -> pn_id p <> c_id C ->
  rec_at k (pn_id p) = Some m -> dead_or_left (m_state m) = false -> m_inc m <= pn_inc p ->
  exists m', rec_at (merge_state C l now k) (pn_id p) = Some m' /\ m_state m' = PDead /\ m_inc m' = pn_inc p /\ m_susp m' = None /\ m_server m' = m_server m.
Proof.
  intros V R ND IN S N G SA LI. destruct (merge_split l now k p V R ND IN N (fun k1 V1 R1 _ => life_one p now k1 V1 R1 N)) as (k1 & V1 & R1 & G1 & E). rewrite E. clear E.
  unfold merge_one. rewrite S. unfold process_dead. rewrite G in G1. unfold rec_at in G1. rewrite G1. destruct (N.ltb_spec (pn_inc p) (m_inc m)); [lia|]. rewrite SA.
  destruct (N.eqb_spec (pn_id p) (c_id C)); [contradiction|]. rewrite R1. cbn [is_running negb].
  eexists. split. { unfold rec_at. cbn. rewrite mt_upd_upd, aget_mt_upd, N.eqb_refl, G1. reflexivity. } cbn. repeat split; reflexivity.
Qed.

(** ** A list merged again *)
Lemma confirm_again lg s s' r from now now2 : susp_confirm lg s from now = (s', r) -> snd (susp_confirm lg s' from now2) = Ignored.
Proof.
  unfold susp_confirm. destruct (N.leb_spec (s_k s) (s_n s)) as [L|L].
  - intros [= <- <-]. apply N.leb_le in L. now rewrite L.
  - destruct (existsb (N.eqb from) (s_confirmed s)) eqn:E.
    + intros [= <- <-]. destruct (_ <=? _); [reflexivity|]. now rewrite E.
    + cbv zeta. intros [= <- <-]. cbn [s_k s_n s_confirmed existsb]. rewrite N.eqb_refl. cbn [orb]. destruct (_ <=? _); reflexivity.
Qed.
Lemma ignored_again lg s s' from now now2 : susp_confirm lg s from now = (s', Ignored) -> snd (susp_confirm lg s from now2) = Ignored.
Proof. unfold susp_confirm. destruct (s_k s <=? s_n s); [reflexivity|]. destruct (existsb _ _); [reflexivity|]. cbv zeta. discriminate. Qed.
Lemma new_again lg from kk mn mx now now2 : snd (susp_confirm lg (susp_new from kk mn mx now) from now2) = Ignored.
Proof. unfold susp_confirm, susp_new. cbn [s_k s_n s_confirmed existsb]. rewrite N.eqb_refl. destruct (_ <=? _); reflexivity. Qed.
Lemma apply_told al now ua nw k1 m : al_id al <> c_id C -> aget (al_id al) (k_mem k1) = Some m -> nw = true \/ ua = true \/ m_inc m < al_inc al ->
  exists m', rec_at (alive_apply C al now ua nw k1) (al_id al) = Some m' /\ ns_addr (m_server m') = al_addr al /\ al_inc al <= m_inc m'.
Proof.
  intros N G L. unfold alive_apply. rewrite G. destruct (N.eqb_spec (al_id al) (c_id C)); [contradiction|]. cbn [negb andb].
  assert (negb nw && negb ua && true && (al_inc al <=? m_inc m) = false) as ->.
  { destruct L as [->|[->|L]]; [reflexivity|destruct nw; reflexivity|]. destruct (N.leb_spec (al_inc al) (m_inc m)); [lia|]. apply andb_false_r. }
  match goal with |- context [upd (al_id al) ?f _] => set (f1 := f) end.
  assert (F : forall x, ns_addr (m_server (f1 x)) = al_addr al /\ m_inc (f1 x) = al_inc al) by (intros x; unfold f1; destruct ua; cbn; destruct (pstate_eqb _ _); split; reflexivity).
  assert (K : forall k3, k_mem k3 = mt_upd (al_id al) f1 (mt_upd (al_id al) (m_set_susp None) (k_mem k1)) -> exists m', rec_at k3 (al_id al) = Some m' /\ ns_addr (m_server m') = al_addr al /\ al_inc al <= m_inc m').
  { intros k3 E. exists (f1 (m_set_susp None m)). destruct (F (m_set_susp None m)) as (F1 & F2). split; [|rewrite F2; split; [exact F1|lia]]. unfold rec_at. rewrite E, mt_upd_upd, aget_mt_upd, N.eqb_refl, G. reflexivity. }
  destruct (dead_or_left _); [apply K; destruct ua; reflexivity|]. destruct (negb _); apply K; destruct ua; reflexivity.
Qed.
Lemma alive_stale al now k m : rec_at k (al_id al) = Some m -> al_id al <> c_id C -> ns_addr (m_server m) = al_addr al -> al_inc al <= m_inc m -> process_alive C al now k = k.
Proof.
  intros G N EA L. unfold process_alive. destruct (negb _); [reflexivity|]. destruct (k_adm _ _); [|reflexivity]. unfold alive_decided. unfold rec_at in G. rewrite G, EA, N.eqb_refl.
  unfold alive_apply. rewrite G. destruct (N.eqb_spec (al_id al) (c_id C)); [contradiction|]. cbn [negb andb]. apply N.leb_le in L. now rewrite L.
Qed.
Lemma one_again now now2 p k1 k2 : kinv k1 -> k_life k1 = Running -> k_life k2 = Running -> k_adm k2 = k_adm k1 -> k_n k1 <= k_n k2 -> pn_id p <> c_id C -> (c_reclaim C = 0 \/ now2 = now) ->
  rec_at k2 (pn_id p) = rec_at (merge_one C now k1 p) (pn_id p) -> rec_at (merge_one C now2 k2 p) (pn_id p) = rec_at k2 (pn_id p).
Proof.
  intros V R1 R2 AD KN N RC. unfold merge_one.
  assert (SU : rec_at k2 (pn_id p) = rec_at (process_suspect C (pn_inc p) (pn_id p) (c_id C) now k1) (pn_id p) -> rec_at (process_suspect C (pn_inc p) (pn_id p) (c_id C) now2 k2) (pn_id p) = rec_at k2 (pn_id p)).
  { unfold process_suspect. rewrite R1, R2. cbn [is_running negb]. unfold rec_at. destruct (aget (pn_id p) (k_mem k1)) as [m|] eqn:G; [|intros E; rewrite G in E; rewrite E; exact E].
    destruct (N.ltb_spec (pn_inc p) (m_inc m)) as [L|L].
    { intros E. rewrite G in E. rewrite E. apply N.ltb_lt in L. rewrite L. exact E. }
    destruct (N.eqb_spec (pn_id p) (c_id C)); [contradiction|].
    assert (FX : forall m', aget (pn_id p) (k_mem k2) = Some m' -> (forall s, m_susp m' = Some s -> snd (susp_confirm (c_lg C) s (c_id C) now2) = Ignored) -> (m_susp m' = None -> m_state m' <> PAlive) ->
      aget (pn_id p) (k_mem match aget (pn_id p) (k_mem k2) with None => k2 | Some m => if pn_inc p <? m_inc m then k2 else match m_susp m with Some s => let '(s', r) := susp_confirm (c_lg C) s (c_id C) now2 in match r with Accepted d => bcast C (pn_id p) (MSuspect (pn_inc p) (pn_id p) (c_id C)) (k_set_sidx (di_set (pn_id p) (Some d) (k_sidx k2)) (upd (pn_id p) (m_set_susp (Some s')) k2)) | Ignored => k2 end
        | None => if negb (pstate_eqb (m_state m) PAlive) then k2 else let '(mn, mx) := c_sto C (k_n k2) in bcast C (pn_id p) (MSuspect (pn_inc p) (pn_id p) (c_id C)) (bumpv (upd (pn_id p) (fun m => m_set_state PSuspect now2 (m_set_inc (pn_inc p) m)) (install_suspicion (pn_id p) (susp_new (c_id C) (if c_mult C <=? k_n k2 mod two32 then c_mult C - 2 else 0) mn mx now2) k2))) end end) = aget (pn_id p) (k_mem k2)).
    { intros m' E H1 H2. rewrite E. destruct (_ <? _); [now rewrite E|]. destruct (m_susp m') as [s|].
      - specialize (H1 s eq_refl). destruct (susp_confirm _ _ _ _) as [s' r]. cbn [snd] in H1. subst r. now rewrite E.
      - destruct (pstate_eqb_spec (m_state m') PAlive) as [X|X]; [now specialize (H2 eq_refl X)|]. cbn [negb]. now rewrite E. }
    destruct (m_susp m) as [s|] eqn:ES.
    - destruct (susp_confirm (c_lg C) s (c_id C) now) as [s' r] eqn:SC. intros E. destruct r as [d|].
      + cbn in E. rewrite aget_mt_upd, N.eqb_refl, G in E. cbn [option_map] in E. apply (FX _ E); cbn [m_susp m_set_susp]; [|discriminate]. intros ? [= <-]. exact (confirm_again _ _ _ _ _ _ _ SC).
      + rewrite G in E. apply (FX _ E); [|congruence]. intros s0 E0. assert (s0 = s) by congruence. subst s0. exact (ignored_again _ _ _ _ _ _ SC).
    - destruct (pstate_eqb_spec (m_state m) PAlive) as [X|X]; cbn [negb].
      + destruct (c_sto C (k_n k1)) as [mn mx]. unfold install_suspicion at 1. rewrite G. intros E. cbn in E. rewrite mt_upd_upd, aget_mt_upd, N.eqb_refl, G in E. cbn [option_map] in E. apply (FX _ E); cbn; [|discriminate]. intros ? [= <-]. apply new_again.
      + intros E. rewrite G in E. apply (FX _ E); [congruence|]. auto. }
  destruct (pn_state p); [|exact SU|exact SU| |auto].
  - assert (PA : forall m', rec_at k2 (pn_id p) = Some m' -> ns_addr (m_server m') = pn_addr p -> pn_inc p <= m_inc m' -> rec_at (process_alive C (pns_alive p) now2 k2) (pn_id p) = rec_at k2 (pn_id p)).
    { intros m' G A L. rewrite (alive_stale (pns_alive p) now2 k2 m' G N A L). reflexivity. }
    unfold process_alive at 1. rewrite R1, <- AD. cbn [is_running negb]. destruct (k_adm k2 _) eqn:AK; [|intros _; unfold process_alive; rewrite R2, AK; reflexivity].
    assert (TOLD : forall k3, rec_at k2 (pn_id p) = rec_at k3 (pn_id p) -> (exists m', rec_at k3 (pn_id p) = Some m' /\ ns_addr (m_server m') = pn_addr p /\ pn_inc p <= m_inc m') -> rec_at (process_alive C (pns_alive p) now2 k2) (pn_id p) = rec_at k2 (pn_id p)).
    { intros k3 E (m' & E1 & E2 & E3). apply (PA m'); congruence. }
    unfold alive_decided at 1. change (al_id (pns_alive p)) with (pn_id p). change (al_addr (pns_alive p)) with (pn_addr p). destruct (aget (pn_id p) (k_mem k1)) as [m|] eqn:G.
    + destruct (N.eqb_spec (ns_addr (m_server m)) (pn_addr p)) as [EA|EA].
      * destruct (N.le_gt_cases (pn_inc p) (m_inc m)) as [L|L].
        { intros E. apply (PA m); auto. rewrite E. assert (alive_apply C (pns_alive p) now false false k1 = k1) as ->; [|exact G]. unfold alive_apply. change (al_id (pns_alive p)) with (pn_id p). rewrite G. destruct (N.eqb_spec (pn_id p) (c_id C)); [contradiction|]. cbn [negb andb]. apply N.leb_le in L. change (al_inc (pns_alive p)) with (pn_inc p). now rewrite L. }
        { intros E. apply (TOLD _ E). apply (apply_told (pns_alive p) now false false k1 m N G). auto. }
      * destruct (match m_state m with PLeft => _ | PDead => _ | _ => _ end) eqn:TK.
        { intros E. apply (TOLD _ E). apply (apply_told (pns_alive p) now true false k1 m N G). auto. }
        { intros E. cbn in E. change (rec_at k2 (pn_id p) = rec_at k1 (pn_id p)) in E. unfold process_alive. rewrite R2, AK. cbn [is_running negb]. unfold alive_decided. change (al_id (pns_alive p)) with (pn_id p). change (al_addr (pns_alive p)) with (pn_addr p).
          unfold rec_at in E |- *. rewrite E, G. destruct (N.eqb_spec (ns_addr (m_server m)) (pn_addr p)); [contradiction|].
          assert (match m_state m with PLeft => true | PDead => (0 <? c_reclaim C) && (c_reclaim C <? tsub now2 (m_change m)) | _ => false end = false) as ->; [|cbn; congruence].
          destruct (m_state m); try discriminate; try reflexivity. destruct RC as [RC| ->]; [rewrite RC; reflexivity|exact TK]. }
    + destruct (match c_max_members C with Some _ => _ | None => _ end) eqn:FU.
      * intros E. assert (G2 : aget (pn_id p) (k_mem k2) = None) by (unfold rec_at in E; congruence). unfold process_alive. rewrite R2, AK. cbn [is_running negb]. unfold alive_decided. change (al_id (pns_alive p)) with (pn_id p). rewrite G2.
        assert (match c_max_members C with Some mx => mx <=? k_n k2 | None => false end = true) as ->; [|reflexivity]. destruct (c_max_members C); [|discriminate]. apply N.leb_le in FU. apply N.leb_le. lia.
      * cbv zeta. set (x := if k_n (next_gen k1) =? 0 then _ else _). assert (X : k_mem (snd x) = k_mem k1) by (unfold x; destruct (_ =? _); reflexivity).
        destruct x as [off k3]. cbn [snd] in X. intros E. apply (TOLD _ E). eapply (apply_told (pns_alive p) now false true); [exact N| |now left]. cbn [k_mem k_set_mem]. change (al_id (pns_alive p)) with (pn_id p). rewrite X, aget_mt_insert, N.eqb_refl; [reflexivity|apply (ki_nodup _ _ V)|exact G].
  - unfold process_dead. rewrite R1, R2. cbn [is_running negb]. unfold rec_at. destruct (aget (pn_id p) (k_mem k1)) as [m|] eqn:G; [|intros E; rewrite G in E; rewrite E; exact E].
    destruct (N.eqb_spec (pn_id p) (c_id C)); [contradiction|]. destruct (N.ltb_spec (pn_inc p) (m_inc m)) as [L|L].
    { intros E. rewrite G in E. rewrite E. apply N.ltb_lt in L. rewrite L. exact E. }
    destruct (dead_or_left (m_state m)) eqn:DL.
    { intros E. rewrite G in E. rewrite E. destruct (_ <? _); [exact E|]. rewrite DL. exact E. }
    intros E. cbn in E. rewrite mt_upd_upd, aget_mt_upd, N.eqb_refl, G in E. cbn [option_map] in E. rewrite E. cbn. destruct (_ <? _); exact E.
Qed.
Lemma merge_again l now now2 k id : kinv k -> k_life k = Running -> NoDup (map pn_id l) -> id <> c_id C -> (c_reclaim C = 0 \/ now2 = now) ->
  rec_at (merge_state C l now2 (merge_state C l now k)) id = rec_at (merge_state C l now k) id.
Proof.
  intros V R ND N RC. assert (RA : forall l k, kinv k -> k_life k = Running -> let k' := merge_state C l now k in kinv k' /\ k_life k' = Running /\ k_adm k' = k_adm k /\ k_n k <= k_n k').
  { clear. induction l as [|p l IH]; intros k V R; cbv zeta; [repeat (split; [assumption || reflexivity|]); reflexivity|].
    destruct (one_aside (N.max (c_id C) (pn_id p) + 1) p now k V R ltac:(lia) ltac:(lia)) as (_ & A2 & A3 & A4). change (merge_state C (p :: l) now k) with (merge_state C l now (merge_one C now k p)).
    destruct (IH (merge_one C now k p) (kinv_one p now k V) ltac:(congruence)) as (B1 & B2 & B3 & B4). split; [exact B1|]. split; [exact B2|]. split; [congruence|lia]. }
  destruct (RA l k V R) as (VK & RK & AK & _).
  destruct (in_dec N.eq_dec id (map pn_id l)) as [IN|NI].
  2: { refine (proj1 (proj2 (list_aside id now2 l _ VK RK N _))). intros p P E. apply NI. rewrite <- E. now apply in_map. }
  apply in_map_iff in IN as (p & <- & IN). apply in_split in IN as (l1 & l2 & ->). rewrite map_app in ND. cbn [map] in ND.
  assert (H1 : forall q, In q l1 -> pn_id q <> pn_id p).
  { intros q Q E. apply NoDup_remove_2 in ND. apply ND, in_app_iff. left. rewrite <- E. now apply in_map. }
  assert (H2 : forall q, In q l2 -> pn_id q <> pn_id p).
  { intros q Q E. apply NoDup_remove_2 in ND. apply ND, in_app_iff. right. rewrite <- E. now apply in_map. }
  assert (SP : forall t x, merge_state C (l1 ++ p :: l2) t x = merge_state C l2 t (merge_one C t (merge_state C l1 t x) p)) by (intros t x; unfold merge_state; rewrite fold_left_app; reflexivity).
  destruct (list_aside (pn_id p) now l1 k V R N H1) as (V1 & _ & R1 & A1 & _). set (k1 := merge_state C l1 now k) in *.
  pose proof (one_aside (N.max (c_id C) (pn_id p) + 1) p now k1 V1 R1 ltac:(lia) ltac:(lia)) as (_ & L1 & _ & M1).
  destruct (list_aside (pn_id p) now l2 _ (kinv_one p now k1 V1) ltac:(congruence) N H2) as (_ & G2 & _ & _ & M2).
  set (K := merge_state C (l1 ++ p :: l2) now k) in *. assert (EK : K = merge_state C l2 now (merge_one C now k1 p)) by apply SP.
  destruct (list_aside (pn_id p) now2 l1 K VK RK N H1) as (V3 & G3 & R3 & A3 & M3). set (k2 := merge_state C l1 now2 K) in *.
  assert (E : rec_at (merge_one C now2 k2 p) (pn_id p) = rec_at k2 (pn_id p)).
  { apply (one_again now now2 p k1 k2); auto; [congruence|rewrite EK in M3; lia|]. rewrite G3, EK, G2. reflexivity. }
  rewrite SP. fold k2. rewrite (proj1 (proj2 (list_aside (pn_id p) now2 l2 _ (kinv_one p now2 k2 V3) (life_one p now2 k2 V3 R3 N) N H2))). congruence.
Qed.
End Core.
