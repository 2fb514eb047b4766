(** Property C50: what the nodes of a cluster may come to believe about each
    other.  [after Cs os] is the cluster after the history [os]: nodes start,
    are called in any order, and get any message any of them handed out, any
    number of times, in any order, or never. *)
From Verif Require Import CodecModel EndpointModel ClusterModel ClusterSpec MapFacts BaseFacts CoreFacts CoreInv CoreSteps CoreTrans CoreHist CoreSpec
  EndpointSteps EndpointInv EndpointFacts EndpointHist EndpointRuns ClusterFacts PropsCore PropsEndpoint.
Local Open Scope N_scope.

(** ** Concrete clusters for the examples: node [i] lives at address [100+i] *)
Definition cc_cfg (inc0 i : N) : cfg :=
  mkCfg i (100 + i) 1 1 inc0 [7] 512 4 (fun _ => (1000, 6000)) (fun _ _ _ _ => 2%Z) (fun _ => 4)
    8 500 30000 None (fun i => i * 7 + 3) ee_enc
    1400 65536 [] 2 1000 500 3 200 3 30000 10000 2 true.
Lemma cc_ok inc0 : well_configured (cc_cfg inc0).
Proof. intros i. split; [reflexivity|]. exact (proj1 ee_sizes). Qed.
(** nodes 1, 2 and 3 start; 2 hears of node 1, whose metadata then changes
    from [7] to [8]; 3 hears of that, probes node 1 in vain and suspects it *)
Definition cc_os : list clop :=
  [CStart 1 0; CStart 2 0; CStart 3 0; CLocal 1 EDrain; CPacket 2 0 101 5; CLocal 1 (EMeta [8]); CLocal 1 EDrain; CPacket 3 1 101 6;
   CLocal 3 (EStartProbe 10); CLocal 3 (ETimeout 600); CLocal 3 (ETimeout 1200); CLocal 3 EDrain].
(** 2 hears of the suspicion *)
Definition cc_os2 : list clop := cc_os ++ [CPacket 2 2 103 1300].
(** node 1 hears of the suspicion and announces itself anew; 2 hears of that *)
Definition cc_os3 : list clop := cc_os2 ++ [CPacket 1 2 103 1400; CLocal 1 EDrain; CPacket 2 4 101 1500].
Lemma cc_calm : calm (cc_cfg 0) cc_os.
Proof. apply (calmb_calm _ [1; 2; 3]). vm_compute. reflexivity. Qed.
Lemma cc_calm2 : calm (cc_cfg 0) cc_os2.
Proof. apply (calmb_calm _ [1; 2; 3]). vm_compute. reflexivity. Qed.
Lemma cc_calm3 : calm (cc_cfg 0) cc_os3.
Proof. apply (calmb_calm _ [1; 2; 3]). vm_compute. reflexivity. Qed.
(** what node [i] has on record about node [j] *)
Definition view (c : cluster) (i j : N) : option (N * pstate * bytes) :=
  match cl_node c i with
  | Some e => option_map (fun m => (m_inc m, m_state m, ns_meta (m_server m))) (aget j (k_mem (e_core e)))
  | None => None
  end.

(** * C50 *)
(** No node ever records, and no message ever carries, an incarnation of a
    node above the one that node has itself: incarnations are only ever made
    up by their owner. *)
Theorem C50_incarnation_authority : forall Cs os id inc, well_configured Cs -> calm Cs os ->
  known (after Cs os) id inc -> exists n, own_inc (after Cs os) id n /\ inc <= n.
Proof. intros Cs os id inc W K. apply known_le; assumption. Qed.
Print Assumptions C50_incarnation_authority.
Example C50_incarnation_authority_ex :
  view (after (cc_cfg 0) cc_os2) 2 1 = Some (1, PSuspect, [7]) /\ view (after (cc_cfg 0) cc_os2) 1 1 = Some (1, PAlive, [8]) /\
  view (after (cc_cfg 0) cc_os3) 2 1 = Some (2, PAlive, [8]) /\ view (after (cc_cfg 0) cc_os3) 1 1 = Some (2, PAlive, [8]) /\
  view (after (cc_cfg 0) cc_os3) 3 1 = Some (1, PSuspect, [8]) /\
  nth_error (cl_net (after (cc_cfg 0) cc_os3)) 2 = Some (MSuspect 1 1 3) /\ known (after (cc_cfg 0) cc_os3) 1 1.
Proof. repeat split; try (vm_compute; reflexivity). right. exists (MSuspect 1 1 3). split; [vm_compute; tauto|]. cbn. auto. Qed.

(** A node's own incarnation never goes down, so what was once above every
    claim stays above it. *)
Theorem C50_own_incarnation_grows : forall Cs pre suf id n, well_configured Cs -> calm Cs (pre ++ suf) ->
  own_inc (after Cs pre) id n -> exists n', own_inc (after Cs (pre ++ suf)) id n' /\ n <= n'.
Proof.
  intros Cs pre suf id n W K O. destruct (own_published Cs W (pre ++ suf) pre suf id n K eq_refl O) as (al & P & <- & <-).
  destruct (ci_le _ _ _ (cinv_run Cs W _ K) al P) as (e & G & L). exists (k_inc (e_core e)). split; [exists e; auto|exact L].
Qed.
Print Assumptions C50_own_incarnation_grows.
Example C50_own_incarnation_grows_ex : exists n n', own_inc (after (cc_cfg 0) cc_os2) 1 n /\ own_inc (after (cc_cfg 0) cc_os3) 1 n' /\ n < n' /\ calm (cc_cfg 0) cc_os3.
Proof. exists 1, 2. split; [eexists; split; vm_compute; reflexivity|]. split; [eexists; split; vm_compute; reflexivity|]. split; [lia|exact cc_calm3]. Qed.

(** Whatever address, metadata and versions a member recorded as alive has,
    and whatever an alive announcement or a state listing says about a member
    it lists as alive, is how that member described itself at some moment
    under exactly that incarnation. *)
Theorem C50_descriptions_come_from_their_owner : forall Cs os al, well_configured Cs -> calm Cs os ->
  vouched (after Cs os) al -> exists pre suf, os = pre ++ suf /\ self (after Cs pre) (al_id al) al.
Proof. intros Cs os al W K. apply vouched_published; assumption. Qed.
Print Assumptions C50_descriptions_come_from_their_owner.
Example C50_descriptions_come_from_their_owner_ex :
  let al := mkAlive 0 1 101 [7] 1 1 in let al' := mkAlive 1 1 101 [8] 1 1 in
  vouched (after (cc_cfg 0) cc_os) al /\ vouched (after (cc_cfg 0) cc_os) al' /\
  self (after (cc_cfg 0) (firstn 3 cc_os)) 1 al /\ self (after (cc_cfg 0) cc_os) 1 al' /\ ~ self (after (cc_cfg 0) cc_os) 1 al.
Proof.
  cbv zeta. split; [right; exists (MAlive (mkAlive 0 1 101 [7] 1 1)); split; [vm_compute; tauto|reflexivity]|].
  split; [right; exists (MAlive (mkAlive 1 1 101 [8] 1 1)); split; [vm_compute; tauto|reflexivity]|].
  split; [eexists; eexists; split; [|split]; vm_compute; reflexivity|]. split; [eexists; eexists; split; [|split]; vm_compute; reflexivity|].
  intros (e & m & G & _ & X). assert (k_inc (e_core e) = 1) as Y by (revert G; vm_compute; intros [= <-]; reflexivity).
  apply (f_equal al_inc) in X. cbn in X. congruence.
Qed.

(** At equal incarnation such descriptions agree everywhere in the cluster,
    on the wire and on record, now and at any two moments. *)
Theorem C50_descriptions_agree : forall Cs os pre1 suf1 pre2 suf2 al al', well_configured Cs -> calm Cs os ->
  os = pre1 ++ suf1 -> os = pre2 ++ suf2 -> vouched (after Cs pre1) al -> vouched (after Cs pre2) al' ->
  al_id al = al_id al' -> al_inc al = al_inc al' -> al = al'.
Proof.
  intros Cs os pre1 suf1 pre2 suf2 al al' W K E1 E2 V1 V2.
  assert (forall pre suf al, os = pre ++ suf -> vouched (after Cs pre) al -> published Cs os al) as P.
  { intros pre suf x E V. assert (calm Cs pre) as KP by (intros p s i k X; apply (K p (s ++ suf)); rewrite E, X, app_assoc; reflexivity).
    destruct (vouched_published Cs W pre x KP V) as (p & s & X & S). exists p, (s ++ suf). split; [rewrite E, X, app_assoc; reflexivity|exact S]. }
  apply (published_fun Cs W os); [exact K|exact (P pre1 suf1 al E1 V1)|exact (P pre2 suf2 al' E2 V2)].
Qed.
Print Assumptions C50_descriptions_agree.
Example C50_descriptions_agree_ex : let al := mkAlive 1 1 101 [8] 1 1 in
  vouched (after (cc_cfg 0) (firstn 7 cc_os)) al /\ vouched (after (cc_cfg 0) cc_os) al /\ view (after (cc_cfg 0) (firstn 8 cc_os)) 3 1 = Some (1, PAlive, [8]).
Proof.
  cbv zeta. split; [right; exists (MAlive (mkAlive 1 1 101 [8] 1 1)); split; [vm_compute; tauto|reflexivity]|].
  split; [right; exists (MAlive (mkAlive 1 1 101 [8] 1 1)); split; [vm_compute; tauto|reflexivity]|]. vm_compute. reflexivity.
Qed.

(** For members that are not recorded as alive the agreement fails: a
    suspicion raises the incarnation on record without bringing the metadata,
    and the announcement that would bring it is then taken for old news and
    changes nothing.  Node 2 keeps [7] for incarnation 1, which never had it. *)
Theorem C50_suspect_metadata_refuted : exists Cs os n al e m, well_configured Cs /\ calm Cs os /\
  self (after Cs os) 1 al /\ cl_node (after Cs os) 2 = Some e /\ aget 1 (k_mem (e_core e)) = Some m /\
  m_state m = PSuspect /\ m_inc m = al_inc al /\ ns_meta (m_server m) <> al_meta al /\
  nth_error (cl_net (after Cs os)) n = Some (MAlive al) /\
  exists e', cl_node (after Cs (os ++ [CPacket 2 n 101 1350])) 2 = Some e' /\ aget 1 (k_mem (e_core e')) = Some m.
Proof.
  exists (cc_cfg 0), cc_os2, 1%nat, (mkAlive 1 1 101 [8] 1 1). eexists. eexists.
  split; [apply cc_ok|]. split; [exact cc_calm2|]. split; [eexists; eexists; split; [|split]; vm_compute; reflexivity|].
  split; [vm_compute; reflexivity|]. split; [vm_compute; reflexivity|]. split; [vm_compute; reflexivity|]. split; [vm_compute; reflexivity|].
  split; [vm_compute; discriminate|]. split; [vm_compute; reflexivity|]. eexists. split; vm_compute; reflexivity.
Qed.
Print Assumptions C50_suspect_metadata_refuted.

(** And once a node has used up its incarnations they start again from 0:
    others then record one above its own, and take what it says for old news. *)
Theorem C50_wrap_refuted : exists Cs os inc n, well_configured Cs /\
  known (after Cs os) 1 inc /\ own_inc (after Cs os) 1 n /\ n < inc.
Proof.
  exists (cc_cfg u32_max), [CStart 1 0; CStart 2 0; CLocal 1 EDrain; CPacket 2 0 101 5; CLocal 1 (EMeta [8])], u32_max, 0.
  split; [apply cc_ok|]. split; [|split; [eexists; split; vm_compute; reflexivity|vm_compute; reflexivity]].
  left. exists 2. eexists. eexists. split; [|split]; vm_compute; reflexivity.
Qed.
Print Assumptions C50_wrap_refuted.
