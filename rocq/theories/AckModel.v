(** Model of memberlist-proto/src/ack/mod.rs [AckRegistry]. *)
From Verif Require Import Base MapModel TimeModel.
Local Open Scope N_scope.

(** ack/mod.rs:13-50 [AckKind]; the reply address of a forward is an [N] *)
Inductive ack_kind := AKProbe | AKForward (reply_to : N) | AKPing.
(** ack/mod.rs:53-58 [AckEntry] *)
Record ack_entry := mkAck { a_sent : N; a_deadline : N; a_kind : ack_kind }.
(** ack/mod.rs:163-165 [AckRegistry] *)
Definition ack_registry := amap ack_entry.
(** ack/mod.rs:197-199 [contains] *)
Definition ack_contains (seq : N) (R : ack_registry) : bool := ahas seq R.
(** ack/mod.rs:204-206 [register]; the returned old entry is dropped *)
Definition ack_register (seq : N) (e : ack_entry) (R : ack_registry) : ack_registry := aset seq e R.
(** ack/mod.rs:210-223 [handle_ack] (payload and timestamp pass through) *)
Definition ack_handle (seq : N) (R : ack_registry) : ack_registry * option ack_entry := (adel seq R, aget seq R).
(** ack/mod.rs:228-230, 238-240 [handle_nack], [get] *)
Definition ack_get (seq : N) (R : ack_registry) : option ack_entry := aget seq R.
(** ack/mod.rs:247-249 [remove] *)
Definition ack_remove (seq : N) (R : ack_registry) : ack_registry * option ack_entry := (adel seq R, aget seq R).
(** [Iterator::min_by_key] on the deadline: the first of the minima;
    ack/mod.rs:261 *)
Fixpoint min_deadline (l : list (N * ack_entry)) : option (N * ack_entry) :=
  match l with
  | [] => None
  | x :: r =>
    match min_deadline r with
    | Some y => if a_deadline (snd y) <? a_deadline (snd x) then Some y else Some x
    | None => Some x
    end
  end.
(** ack/mod.rs:253-271 [poll_expired]; [it] is the iteration order of the
    hash map, a permutation of [R] *)
Definition ack_poll_expired (now : N) (it : list (N * ack_entry)) (R : ack_registry) : ack_registry * option (N * ack_entry) :=
  match min_deadline (filter (fun p => a_deadline (snd p) <=? now) it) with
  | Some (seq, e) => (adel seq R, Some (seq, e))
  | None => (R, None)
  end.
(** ack/mod.rs:275-277 [next_deadline] *)
Definition ack_next_deadline (R : ack_registry) : option N :=
  option_map (fun p => a_deadline (snd p)) (min_deadline R).

(** The calls ack/mod.rs:204-271 offers, as data (model only) *)
Inductive ack_op :=
| ARegister (seq : N) (e : ack_entry)
| AHandle (seq : N)
| ARemove (seq : N)
| APoll (now : N) (reorder : list (N * ack_entry) -> list (N * ack_entry)).
(** One operation and the entry it resolves, if any; [APoll] carries the
    hash map's choice of iteration order. See ack/mod.rs:204-271 *)
Definition ack_step (R : ack_registry) (o : ack_op) : ack_registry * option (N * ack_entry) :=
  match o with
  | ARegister s e => (ack_register s e R, None)
  | AHandle s => let '(R', e) := ack_handle s R in (R', option_map (pair s) e)
  | ARemove s => let '(R', e) := ack_remove s R in (R', option_map (pair s) e)
  | APoll now f => ack_poll_expired now (f R) R
  end.
(** a sequence of calls on ack/mod.rs:163-165 [AckRegistry] (model only) *)
Fixpoint ack_run (R : ack_registry) (os : list ack_op) : ack_registry * list (N * ack_entry) :=
  match os with
  | [] => (R, [])
  | o :: r =>
    let '(R1, x) := ack_step R o in
    let '(R2, l) := ack_run R1 r in
    (R2, match x with Some p => p :: l | None => l end)
  end.
