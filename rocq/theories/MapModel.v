(** Finite maps keyed by [N] as association lists: the model of every
    [HashMap]/[BTreeMap] of the code whose iteration order is not observed.
    At most one binding per key is visible. *)
From Verif Require Import Base.
Local Open Scope N_scope.

(** The hash maps of ack/mod.rs:164, endpoint/mod.rs:244-246, 340 and members/mod.rs as association lists (the maps are external: hashbrown, indexmap) *)
Definition amap (A : Type) := list (N * A).
(** [HashMap::get]; ack/mod.rs:238, endpoint/mod.rs (many) *)
Fixpoint aget {A} (k : N) (m : amap A) : option A :=
  match m with
  | [] => None
  | (k', a) :: r => if k =? k' then Some a else aget k r
  end.
(** [HashMap::remove] (removes every shadowed binding as well); ack/mod.rs:247 *)
Fixpoint adel {A} (k : N) (m : amap A) : amap A :=
  match m with
  | [] => []
  | (k', a) :: r => if k =? k' then adel k r else (k', a) :: adel k r
  end.
(** [HashMap::insert]; ack/mod.rs:204 *)
Definition aset {A} (k : N) (a : A) (m : amap A) : amap A := (k, a) :: adel k m.
(** [HashMap::contains_key]; ack/mod.rs:197 *)
Definition ahas {A} (k : N) (m : amap A) : bool := match aget k m with Some _ => true | None => false end.
(** keys; model only; ack/mod.rs:164 *)
Definition akeys {A} (m : amap A) : list N := map fst m.
