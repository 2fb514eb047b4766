(** Health awareness.  Models memberlist-proto/src/awareness/mod.rs. *)
From Verif Require Import Base TimeModel.
Local Open Scope N_scope.

(** awareness/mod.rs:13-16 [Awareness] *)
Record awareness := mkAware { aw_max : N; aw_score : N }.
(** awareness/mod.rs:22-25 [new]; [None] is the panic for [max = 0] *)
Definition aware_new (max : N) : option awareness :=
  if max =? 0 then None else Some (mkAware max 0).
(** awareness/mod.rs:30-32 [record_success] *)
Definition record_success (a : awareness) : awareness := mkAware (aw_max a) (aw_score a - 1).
(** awareness/mod.rs:37-39 [record_failure] *)
Definition record_failure (a : awareness) (severity : N) : awareness :=
  mkAware (aw_max a) (N.min (sadd32 (aw_score a) severity) (aw_max a - 1)).
(** awareness/mod.rs:61-63 [scale_timeout] *)
Definition scale_timeout (a : awareness) (t : N) : N :=
  match dmul t (aw_score a + 1) with Some x => x | None => t end.

(** One recorded signal. See awareness/mod.rs:30-56 *)
Inductive aw_op := Success | Failure (severity : N).
(** awareness/mod.rs:30-56: one call *)
Definition aw_step (a : awareness) (o : aw_op) : awareness :=
  match o with Success => record_success a | Failure s => record_failure a s end.
(** a sequence of calls of awareness/mod.rs:30-56 (model only) *)
Definition aw_run (a : awareness) (ops : list aw_op) : awareness := fold_left aw_step ops a.
