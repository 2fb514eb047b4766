(** CIDR admission policy.  Models memberlist-proto/src/cidr/mod.rs. *)
From Verif Require Import Base.
Local Open Scope N_scope.

(** [core::net::IpAddr]: the address as an integer of 32 or 128 bits.
    Used at cidr/mod.rs:114, 136 *)
Inductive ip_addr := V4 (a : N) | V6 (a : N).
(** [ipnet::IpNet] (external crate): an address, not truncated to its prefix,
    and a prefix length; equality is of both fields. Used at cidr/mod.rs:35, 61 *)
Inductive ip_net := Net4 (a p : N) | Net6 (a p : N).
(** derived [PartialEq] of [ipnet::IpNet];
    what the hash set of cidr/mod.rs:61 compares *)
Definition net_eqb (x y : ip_net) : bool :=
  match x, y with
  | Net4 a p, Net4 b q | Net6 a p, Net6 b q => (a =? b) && (p =? q)
  | _, _ => false
  end.
(** [ipnet::IpNet::contains(&IpAddr)]: same family and same leading [p] bits.
    Used at cidr/mod.rs:114-118, 136-141 *)
Definition net_contains (n : ip_net) (i : ip_addr) : bool :=
  match n, i with
  | Net4 a p, V4 x => a / 2 ^ (32 - p) =? x / 2 ^ (32 - p)
  | Net6 a p, V6 x => a / 2 ^ (128 - p) =? x / 2 ^ (128 - p)
  | _, _ => false
  end.

(** cidr/mod.rs:60-62 [CidrPolicy].  The hash set is a list; only membership is
    observed. *)
Definition cidr_policy := option (list ip_net).
(** cidr/mod.rs:74-78 [allow_all] (also [new], 90-92, and [Default], 64-69) *)
Definition allow_all : cidr_policy := None.
(** cidr/mod.rs:82-86 [block_all] *)
Definition block_all : cidr_policy := Some [].
(** cidr/mod.rs:95-100 [add] *)
Definition cidr_add (c : cidr_policy) (n : ip_net) : cidr_policy :=
  let l := match c with Some l => l | None => [] end in
  Some (if existsb (net_eqb n) l then l else l ++ [n]).
(** cidr/mod.rs:105-109 [remove] *)
Definition cidr_remove (c : cidr_policy) (n : ip_net) : cidr_policy :=
  match c with Some l => Some (filter (fun x => negb (net_eqb n x)) l) | None => None end.
(** cidr/mod.rs:114-118 [remove_by_ip] *)
Definition cidr_remove_by_ip (c : cidr_policy) (i : ip_addr) : cidr_policy :=
  match c with Some l => Some (filter (fun x => negb (net_contains x i)) l) | None => None end.
(** cidr/mod.rs:126-128 [is_allowed_net] *)
Definition is_allowed_net (c : cidr_policy) (n : ip_net) : bool :=
  match c with None => true | Some l => existsb (net_eqb n) l end.
(** cidr/mod.rs:136-141 [is_allowed] *)
Definition is_allowed (c : cidr_policy) (i : ip_addr) : bool :=
  match c with None => true | Some l => existsb (fun n => net_contains n i) l end.
(** cidr/mod.rs:149-154 [is_block_all] *)
Definition is_block_all (c : cidr_policy) : bool :=
  match c with Some [] => true | _ => false end.
(** cidr/mod.rs:157-159 [is_allow_all] *)
Definition is_allow_all (c : cidr_policy) : bool :=
  match c with None => true | Some _ => false end.
(** cidr/mod.rs:167-188 [From<HashSet>], [FromIterator]; 190-210 [TryFrom] once
    the strings are parsed *)
Definition cidr_from (l : list ip_net) : cidr_policy := fold_left cidr_add l block_all.
(** cidr/mod.rs:228-249 [CidrAnd::notify_alive]; [inner] is the wrapped
    delegate's answer for the peer. *)
Definition cidr_and (c : cidr_policy) (inner : bool) (i : ip_addr) : bool :=
  is_allowed c i && inner.

(** One mutation of a policy. See cidr/mod.rs:95-118 *)
Inductive cidr_op := CAdd (n : ip_net) | CRemove (n : ip_net) | CRemoveIp (i : ip_addr).
(** cidr/mod.rs:95-118: one call *)
Definition cidr_step (c : cidr_policy) (o : cidr_op) : cidr_policy :=
  match o with
  | CAdd n => cidr_add c n
  | CRemove n => cidr_remove c n
  | CRemoveIp i => cidr_remove_by_ip c i
  end.
(** a sequence of calls of cidr/mod.rs:95-118 (model only) *)
Definition cidr_run (c : cidr_policy) (ops : list cidr_op) : cidr_policy := fold_left cidr_step ops c.
