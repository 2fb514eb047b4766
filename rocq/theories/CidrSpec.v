(** Specification vocabulary for the CIDR policy. *)
From Verif Require Import Base CidrModel.
Local Open Scope N_scope.

(** Address [i] lies in network [n]: same family, and the leading [p] bits
    agree (bits counted from the most significant). *)
Definition in_net (n : ip_net) (i : ip_addr) : Prop :=
  match n, i with
  | Net4 a p, V4 x => forall b, 32 - p <= b -> N.testbit a b = N.testbit x b
  | Net6 a p, V6 x => forall b, 128 - p <= b -> N.testbit a b = N.testbit x b
  | _, _ => False
  end.
(** Operation [o] takes network [n] off the list. *)
Definition removes (o : cidr_op) (n : ip_net) : Prop :=
  match o with
  | CRemove m => m = n
  | CRemoveIp i => in_net n i
  | CAdd _ => False
  end.
(** After the history [ops], started from networks [l], network [n] is listed:
    it was listed or added, and not removed since. *)
Definition listed (l : list ip_net) (ops : list cidr_op) (n : ip_net) : Prop :=
  (In n l /\ forall o, In o ops -> ~ removes o n) \/
  (exists pre post, ops = pre ++ CAdd n :: post /\ forall o, In o post -> ~ removes o n).
(** No network was ever added. *)
Definition never_restricted (ops : list cidr_op) : Prop := forall n, ~ In (CAdd n) ops.
