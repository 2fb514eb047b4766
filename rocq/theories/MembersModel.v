(** Model of the container of memberlist-proto/src/members/mod.rs [Members]:
    a vector of members and a map from id to vector index.  A member is its
    id and a payload [V] (the rest of [Member], which the container does not
    look at). *)
From Verif Require Import Base MapModel.
Local Open Scope N_scope.

Section M.
Context {V : Type}.
(** members/mod.rs:238-243; [node_map]'s [IndexMap] order is not observed *)
Record members := mkMs { ms_nodes : list (N * V); ms_map : amap N }.
(** members/mod.rs:249-255 [new] *)
Definition ms_new : members := mkMs [] [].
(** members/mod.rs:264-266 [len] *)
Definition ms_len (M : members) : N := blen (ms_nodes M).
(** members/mod.rs:305-307 [contains] *)
Definition ms_contains (id : N) (M : members) : bool := ahas id (ms_map M).
(** members/mod.rs:311-314 [get] *)
Definition ms_get (id : N) (M : members) : option (N * V) :=
  match aget id (ms_map M) with Some i => nth_error (ms_nodes M) (N.to_nat i) | None => None end.

(** [slice[i] = v]; members/mod.rs:376 *)
Fixpoint list_set {A} (i : nat) (v : A) (l : list A) : list A :=
  match l, i with
  | [], _ => []
  | _ :: r, O => v :: r
  | x :: r, S i => x :: list_set i v r
  end.
(** members/mod.rs:318-321 [get_mut]: replace the payload of a present id
    (the id of a member is never changed through it) *)
Definition ms_update (id : N) (v : V) (M : members) : members :=
  match aget id (ms_map M) with
  | Some i => mkMs (list_set (N.to_nat i) (id, v) (ms_nodes M)) (ms_map M)
  | None => M
  end.
(** [Vec::remove]; members/mod.rs:329 *)
Fixpoint list_remove {A} (i : nat) (l : list A) : list A :=
  match l, i with
  | [], _ => []
  | _ :: r, O => r
  | x :: r, S i => x :: list_remove i r
  end.
(** members/mod.rs:325-335 [remove] *)
Definition ms_remove (id : N) (M : members) : members * option (N * V) :=
  match aget id (ms_map M) with
  | Some i =>
    (mkMs (list_remove (N.to_nat i) (ms_nodes M))
          (map (fun p => (fst p, if i <? snd p then snd p - 1 else snd p)) (adel id (ms_map M))),
     nth_error (ms_nodes M) (N.to_nat i))
  | None => (M, None)
  end.
(** [slice.swap(i, j)]; [None] models the out-of-range panic;
    members/mod.rs:353, 404 *)
Definition list_swap {A} (i j : nat) (l : list A) : option (list A) :=
  match nth_error l i, nth_error l j with
  | Some a, Some b => Some (list_set j a (list_set i b l))
  | _, _ => None
  end.
(** [*map.get_mut(&id).unwrap() = i]; [None] models the panic;
    members/mod.rs:354-355, 406-407 *)
Definition map_put (id i : N) (m : amap N) : option (amap N) :=
  match aget id m with Some _ => Some (aset id i m) | None => None end.
(** members/mod.rs:348-356: one turn of the Fisher-Yates loop *)
Definition ms_swap (i j : nat) (M : members) : option members :=
  if (i =? j)%nat then Some M else
  match nth_error (ms_nodes M) i, nth_error (ms_nodes M) j with
  | Some (id_i, _), Some (id_j, _) =>
    match list_swap i j (ms_nodes M) with
    | Some nodes =>
      match map_put id_i (N.of_nat j) (ms_map M) with
      | Some m1 => match map_put id_j (N.of_nat i) m1 with Some m2 => Some (mkMs nodes m2) | None => None end
      | None => None
      end
    | None => None
    end
  | _, _ => None
  end.
(** members/mod.rs:345-358 [shuffle]: [i] runs from [n-1] down to 1; the
    [k]-th random draw is [nth k draws 0] taken modulo [i+1] (any value of
    [random_range(0..=i)] is obtained) *)
Fixpoint ms_shuffle_loop (i : nat) (draws : list N) (M : members) : option members :=
  match i with
  | O => Some M
  | S i' =>
    let j := N.to_nat (hd 0 draws mod (N.of_nat i + 1)) in
    match ms_swap i j M with
    | Some M' => ms_shuffle_loop i' (tl draws) M'
    | None => None
    end
  end.
(** members/mod.rs:345-358 [shuffle] *)
Definition ms_shuffle (draws : list N) (M : members) : option members :=
  ms_shuffle_loop (Nat.pred (length (ms_nodes M))) draws M.
(** members/mod.rs:372-382 [insert] *)
Definition ms_insert (id : N) (v : V) (M : members) : members :=
  match aget id (ms_map M) with
  | Some i => mkMs (list_set (N.to_nat i) (id, v) (ms_nodes M)) (ms_map M)
  | None => mkMs (ms_nodes M ++ [(id, v)]) (aset id (blen (ms_nodes M)) (ms_map M))
  end.
(** members/mod.rs:390-410 [insert_at_random_at]; [None] models the asserts
    and unwraps *)
Definition ms_insert_at (id : N) (v : V) (target : N) (M : members) : option members :=
  if ahas id (ms_map M) then None else
  let n := blen (ms_nodes M) in
  if n <? target then None else
  let nodes := ms_nodes M ++ [(id, v)] in
  let m1 := aset id n (ms_map M) in
  if target =? n then Some (mkMs nodes m1) else
  match list_swap (N.to_nat n) (N.to_nat target) nodes with
  | Some nodes' =>
    match nth_error nodes' (N.to_nat n) with
    | Some (did, _) =>
      match map_put id target m1 with
      | Some m2 => match map_put did n m2 with Some m3 => Some (mkMs nodes' m3) | None => None end
      | None => None
      end
    | None => None
    end
  | None => None
  end.

(** The calls members/mod.rs:327-410 offers, as data *)
Inductive ms_op :=
| MInsert (id : N) (v : V)
| MInsertAt (id : N) (v : V) (target : N)
| MUpdate (id : N) (v : V)
| MRemove (id : N)
| MShuffle (draws : list N).
(** One operation; [None] is a panic.  [MInsertAt] is the call as the code
    makes it: only for an absent id and with an in-range target.
    See members/mod.rs:327-410 *)
Definition ms_step (M : members) (o : ms_op) : option members :=
  match o with
  | MInsert id v => Some (ms_insert id v M)
  | MInsertAt id v t => if ahas id (ms_map M) then Some M else ms_insert_at id v (t mod (ms_len M + 1)) M
  | MUpdate id v => Some (ms_update id v M)
  | MRemove id => Some (fst (ms_remove id M))
  | MShuffle d => ms_shuffle d M
  end.
(** a sequence of calls of members/mod.rs:327-410 (model only) *)
Fixpoint ms_run (M : members) (os : list ms_op) : option members :=
  match os with
  | [] => Some M
  | o :: r => match ms_step M o with Some M' => ms_run M' r | None => None end
  end.
End M.
Arguments members : clear implicits. Arguments ms_op : clear implicits.
