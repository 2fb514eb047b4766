(** Vocabulary of the cluster properties. *)
From Verif Require Import ClusterModel.
Local Open Scope N_scope.

(** the cluster after a history that starts with nobody *)
Definition after (Cs : N -> cfg) (os : list clop) : cluster := cl_run Cs cl_new os.
(** every node is configured under its own id, with messages of sane size *)
Definition well_configured (Cs : N -> cfg) : Prop :=
  forall i, c_id (Cs i) = i /\ forall m, blen (c_enc (Cs i) m) <= u64_max.
(** node [id]'s own incarnation number *)
Definition own_inc (c : cluster) (id n : N) : Prop :=
  exists e, cl_node c id = Some e /\ k_inc (e_core e) = n.
(** how node [id] describes itself: its own record under its own incarnation *)
Definition self (c : cluster) (id : N) (al : alive) : Prop :=
  exists e m, cl_node c id = Some e /\ aget id (k_mem (e_core e)) = Some m /\
    al = mkAlive (k_inc (e_core e)) id (ns_addr (m_server m)) (ns_meta (m_server m)) (ns_pv (m_server m)) (ns_dv (m_server m)).
(** no node has used up its incarnation numbers at any moment *)
Definition calm (Cs : N -> cfg) (os : list clop) : Prop :=
  forall pre suf i n, os = pre ++ suf -> own_inc (after Cs pre) i n -> n < u32_max.

(** a message names incarnation [inc] of node [id] *)
Definition names (m : msg) (id inc : N) : Prop :=
  match m with
  | MAlive al => al_id al = id /\ al_inc al = inc
  | MSuspect i j _ | MDead i j _ => j = id /\ i = inc
  | MPushPull _ st _ => exists p, In p st /\ pn_id p = id /\ pn_inc p = inc
  | _ => False
  end.
(** a message says that the node is alive and described by [al] *)
Definition describes (m : msg) (al : alive) : Prop :=
  match m with
  | MAlive a => a = al
  | MPushPull _ st _ => exists p, In p st /\ pn_state p = PAlive /\
      al = mkAlive (pn_inc p) (pn_id p) (pn_addr p) (pn_meta p) (pn_pv p) (pn_dv p)
  | _ => False
  end.
(** somewhere in the cluster incarnation [inc] of [id] is on record or on the wire *)
Definition known (c : cluster) (id inc : N) : Prop :=
  (exists i e m, cl_node c i = Some e /\ aget id (k_mem (e_core e)) = Some m /\ m_inc m = inc) \/
  (exists x, In x (cl_net c) /\ names x id inc).
(** somewhere a node is on record as alive, or said on the wire to be, and described by [al] *)
Definition vouched (c : cluster) (al : alive) : Prop :=
  (exists i e m, cl_node c i = Some e /\ aget (al_id al) (k_mem (e_core e)) = Some m /\ m_state m = PAlive /\
     al = mkAlive (m_inc m) (ns_id (m_server m)) (ns_addr (m_server m)) (ns_meta (m_server m)) (ns_pv (m_server m)) (ns_dv (m_server m))) \/
  (exists x, In x (cl_net c) /\ describes x al).
