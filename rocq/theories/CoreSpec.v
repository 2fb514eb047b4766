(** Vocabulary for the statements about the membership core. *)
From Verif Require Import CoreModel CoreInv CoreSteps CoreTrans CoreHist.
Local Open Scope N_scope.

(** The core after a history of operations *)
Definition core_at (C : cfg) (t0 : N) (os : list cop) : core := fst (core_run C (core_new C t0) os).
(** An operation delivers an alive message: directly or as an [Alive] entry of
    a push/pull listing *)
Definition carries (o : cop) (al : alive) : Prop :=
  match o with
  | KAlive al' _ => al = al'
  | KMerge l _ => exists p, In p l /\ pn_state p = PAlive /\
      al = mkAlive (pn_inc p) (pn_id p) (pn_addr p) (pn_meta p) (pn_pv p) (pn_dv p)
  | _ => False
  end.
(** an alive message that may bring back the departed record [m] at [now]: a
    newer incarnation from the same address, or a take-over of the name *)
Definition readmits (C : cfg) (now : N) (m : member) (al : alive) : Prop :=
  if al_addr al =? ns_addr (m_server m) then m_inc m < al_inc al
  else m_state m = PLeft \/ (m_state m = PDead /\ 0 < c_reclaim C < tsub now (m_change m)).
Definition departed (m : member) : Prop := m_state m = PDead \/ m_state m = PLeft.
(** single operations, as opposed to a listing of many *)
Definition single (o : cop) : Prop := match o with KMerge _ _ => False | _ => True end.
(** a listing as the single operations it stands for *)
Definition as_gossip (C : cfg) (now : N) (p : pns) : list cop :=
  match pn_state p with
  | PAlive => [KAlive (mkAlive (pn_inc p) (pn_id p) (pn_addr p) (pn_meta p) (pn_pv p) (pn_dv p)) now]
  | PSuspect | PDead => [KSuspect (pn_inc p) (pn_id p) (c_id C) now]
  | PLeft => [KDead (pn_inc p) (pn_id p) (c_id C) now]
  | PUnknown _ => []
  end.
(** the incarnation an operation accuses the local node of, if any *)
Definition accused_below (C : cfg) (bound : N) (o : cop) : Prop :=
  match o with
  | KAlive al _ => al_id al = c_id C -> al_inc al < bound
  | KSuspect inc id _ _ | KDead inc id _ _ => id = c_id C -> inc < bound
  | KMerge l _ => forall p, In p l -> pn_id p = c_id C -> pn_inc p < bound
  | _ => True
  end.
