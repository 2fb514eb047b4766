(** Property C16: CIDR admission. *)
From Verif Require Import Base CidrModel CidrSpec CidrFacts.
Local Open Scope N_scope.

(** 10.0.0.0/8, 10.1.0.0/16, 192.168.1.0/24 *)
Definition net_a := Net4 167772160 8.
Definition net_b := Net4 167837696 16.
Definition net_c := Net4 3232235776 24.

(** C16: over every history of a policy, an address is admitted exactly when
    the policy was never restricted or a network listed now contains it. *)
Theorem C16_admission_iff : forall ops i, is_allowed (cidr_run allow_all ops) i = true <->
  never_restricted ops \/ exists n, listed [] ops n /\ in_net n i.
Proof. intros ops i. rewrite (admission_iff allow_all ops i). unfold allow_all. cbn [nets]. intuition. Qed.
Print Assumptions C16_admission_iff.
Example C16_admission_iff_ex :
  is_allowed (cidr_run allow_all [CAdd net_a; CAdd net_c; CRemoveIp (V4 167772161)]) (V4 3232235777) = true /\
  is_allowed (cidr_run allow_all [CAdd net_a; CAdd net_c; CRemoveIp (V4 167772161)]) (V4 167772161) = false /\
  is_allowed (cidr_run allow_all [CRemove net_a]) (V6 1) = true.
Proof. repeat split. Qed.

(** C16: the same for a policy built from a list of networks, even an empty
    one: it is restricted from the start. *)
Theorem C16_from_list_admission_iff : forall l ops i,
  is_allowed (cidr_run (cidr_from l) ops) i = true <-> exists n, listed l ops n /\ in_net n i.
Proof.
  intros l ops i. rewrite (admission_iff (cidr_from l) ops i). split.
  - intros [[E _]|(n & [[Hin Hr]|H] & C)]; [destruct (from_some l E)| |]; exists n; split; try exact C.
    + left. rewrite from_in in Hin. auto.
    + right. exact H.
  - intros (n & [[Hin Hr]|H] & C); right; exists n; split; try exact C.
    + left. rewrite from_in. auto.
    + right. exact H.
Qed.
Print Assumptions C16_from_list_admission_iff.
Example C16_from_list_admission_iff_ex :
  is_allowed (cidr_run (cidr_from [net_a; net_c; net_a]) [CRemove net_a]) (V4 167772161) = false /\
  is_allowed (cidr_from []) (V4 1) = false /\ is_allowed (cidr_from [Net6 0 0]) (V6 7) = true /\
  is_allowed (cidr_from [Net6 0 0]) (V4 7) = false.
Proof. repeat split. Qed.

(** C16: once restricted, a policy with nothing listed blocks everything: it
    never falls back to allow-all. *)
Theorem C16_fail_closed : forall c ops, c <> None \/ ~ never_restricted ops ->
  (forall n, ~ listed (nets c) ops n) ->
  is_block_all (cidr_run c ops) = true /\ forall i, is_allowed (cidr_run c ops) i = false.
Proof. exact fail_closed. Qed.
Print Assumptions C16_fail_closed.
Example C16_fail_closed_ex : ~ never_restricted [CAdd net_a; CRemove net_a] /\
  cidr_run allow_all [CAdd net_a; CRemove net_a] = Some [].
Proof. split; [|reflexivity]. intros H. apply (H net_a). left. reflexivity. Qed.

(** C16: allow-all survives only as long as nothing is ever added. *)
Theorem C16_allow_all_only_explicit : forall c ops,
  is_allow_all (cidr_run c ops) = true <-> c = None /\ never_restricted ops.
Proof.
  intros c ops. rewrite <- run_unrestricted. destruct (cidr_run c ops); cbn; split; congruence.
Qed.
Print Assumptions C16_allow_all_only_explicit.
Example C16_allow_all_only_explicit_ex : is_allow_all (cidr_run allow_all [CAdd net_b; CRemove net_b]) = false.
Proof. reflexivity. Qed.

(** C16: a composed delegate admits exactly what both admit. *)
Theorem C16_composition : forall c inner i,
  cidr_and c inner i = true <-> (is_allowed c i = true /\ inner = true).
Proof. intros. unfold cidr_and. apply andb_true_iff. Qed.
Print Assumptions C16_composition.
Example C16_composition_ex : cidr_and (Some [net_a]) true (V4 167772161) = true /\ cidr_and (Some [net_a]) true (V4 1) = false.
Proof. split; reflexivity. Qed.

(** C16, finding: networks are compared by their written address, so the
    claim "removing a network stops admitting its addresses" is false when the
    same network was added with other host bits. *)
Theorem C16_removed_network_blocked_refuted : exists n m i,
  (forall j, in_net n j <-> in_net m j) /\ in_net n i /\
  is_allowed (cidr_run allow_all [CAdd n; CRemove m]) i = true.
Proof.
  exists (Net4 167772161 8), (Net4 167772160 8), (V4 167772163). split; [|split; [|reflexivity]].
  - intros j. rewrite <- !contains_iff. destruct j as [x|x]; reflexivity.
  - apply contains_iff. reflexivity.
Qed.
Print Assumptions C16_removed_network_blocked_refuted.
