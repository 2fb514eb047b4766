(** Model of memberlist-proto/src/endpoint/deadline/mod.rs [DeadlineIndex]. *)
From Verif Require Import Base MapModel.
Local Open Scope N_scope.

(** deadline/mod.rs:54-80: [by_deadline] is the [BTreeMap<(Instant, u64), K>]
    as its sorted list of bindings, [current] the hash map, [seq] the tie
    breaker.  Simplified: keys and instants are [N], [seq] does not overflow
    (it counts calls of [set]), the test-only scan counter is left out. *)
Record dindex := mkDI { di_by : list ((N * N) * N); di_cur : amap (N * N); di_seq : N }.
(** deadline/mod.rs:84-92 [new] *)
Definition di_new : dindex := mkDI [] [] 0.

(** order of the [BTreeMap] keys; endpoint/deadline/mod.rs:60 *)
Definition dk_cmp (a b : N * N) : comparison :=
  match fst a ?= fst b with Eq => snd a ?= snd b | c => c end.
(** [BTreeMap::insert]; endpoint/deadline/mod.rs:182-210 *)
Fixpoint bt_insert (key : N * N) (v : N) (l : list ((N * N) * N)) : list ((N * N) * N) :=
  match l with
  | [] => [(key, v)]
  | (k, w) :: r =>
    match dk_cmp key k with
    | Lt => (key, v) :: l
    | Eq => (key, v) :: r
    | Gt => (k, w) :: bt_insert key v r
    end
  end.
(** [BTreeMap::remove]; endpoint/deadline/mod.rs:182-210 *)
Fixpoint bt_remove (key : N * N) (l : list ((N * N) * N)) : list ((N * N) * N) :=
  match l with
  | [] => []
  | (k, w) :: r => match dk_cmp key k with Eq => r | _ => (k, w) :: bt_remove key r end
  end.

(** deadline/mod.rs:98-110 [earliest]: the first key of the [BTreeMap] *)
Definition di_earliest (D : dindex) : option N :=
  match di_by D with [] => None | ((d, _), _) :: _ => Some d end.
(** deadline/mod.rs:122-124 [is_empty] *)
Definition di_is_empty (D : dindex) : bool := match di_by D with [] => true | _ => false end.
(** deadline/mod.rs:131-134 [clear]; [seq] is kept *)
Definition di_clear (D : dindex) : dindex := mkDI [] [] (di_seq D).
(** deadline/mod.rs:182-206 [set] *)
Definition di_set (key : N) (deadline : option N) (D : dindex) : dindex :=
  match deadline with
  | Some d =>
    match aget key (di_cur D) with
    | Some (old_d, old_seq) =>
      if old_d =? d then D
      else let s := di_seq D + 1 in
           mkDI (bt_insert (d, s) key (bt_remove (old_d, old_seq) (di_by D))) (aset key (d, s) (di_cur D)) s
    | None => let s := di_seq D + 1 in mkDI (bt_insert (d, s) key (di_by D)) (aset key (d, s) (di_cur D)) s
    end
  | None =>
    match aget key (di_cur D) with
    | Some (old_d, old_seq) => mkDI (bt_remove (old_d, old_seq) (di_by D)) (adel key (di_cur D)) (di_seq D)
    | None => D
    end
  end.
(** endpoint/deadline/mod.rs:131-210: [set] and [clear], as data *)
Inductive di_op := DSet (key : N) (d : option N) | DClear.
(** endpoint/deadline/mod.rs:131-210: one call *)
Definition di_step (D : dindex) (o : di_op) : dindex :=
  match o with DSet k d => di_set k d D | DClear => di_clear D end.
(** a sequence of calls of endpoint/deadline/mod.rs:131-210 (model only) *)
Definition di_run (os : list di_op) : dindex := fold_left di_step os di_new.
