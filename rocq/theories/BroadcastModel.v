(** Model of memberlist-proto/src/broadcast/mod.rs: the gossip retransmit
    queue and its ranked composition. *)
From Verif Require Import Base MapModel.
Local Open Scope N_scope.

(** broadcast/mod.rs:21-57 [trait Broadcast]: the methods of one implementor.
    Simplified: an id is an [N] (only equality is used), the message is the
    broadcast itself, [finished] is recorded in the queue's trace. *)
Record bcast_impl (B : Type) := {
  b_id : B -> option N;
  b_invalidates : B -> B -> bool;
  b_len : B -> N;
  b_unique : B -> bool }.
Arguments b_id {B}. Arguments b_invalidates {B}. Arguments b_len {B}. Arguments b_unique {B}.

(** broadcast/mod.rs:59-68 [LimitedBroadcast] *)
Record item (B : Type) := mkItem { i_tr : N; i_len : N; i_id : N; i_b : B }.
Arguments mkItem {B}. Arguments i_tr {B}. Arguments i_len {B}. Arguments i_id {B}. Arguments i_b {B}.

(** broadcast/mod.rs:94-102 [Ord for LimitedBroadcast]: transmits ascending,
    then length descending, then id descending *)
Definition item_cmp {B} (x y : item B) : comparison :=
  match i_tr x ?= i_tr y with
  | Eq => match i_len y ?= i_len x with Eq => i_id y ?= i_id x | c => c end
  | c => c
  end.

(** [BTreeSet::insert]: the set is the sorted list of its elements; inserting
    an element equal to a present one changes nothing and returns [false];
    broadcast/mod.rs:138, 215 *)
Fixpoint set_insert {B} (x : item B) (l : list (item B)) : list (item B) * bool :=
  match l with
  | [] => ([x], true)
  | y :: r =>
    match item_cmp x y with
    | Lt => (x :: l, true)
    | Eq => (l, false)
    | Gt => let '(r', b) := set_insert x r in (y :: r', b)
    end
  end.
(** [BTreeSet::remove]; broadcast/mod.rs:254, 272, 373, 437 *)
Fixpoint set_remove {B} (x : item B) (l : list (item B)) : list (item B) :=
  match l with
  | [] => []
  | y :: r => match item_cmp x y with Eq => r | _ => y :: set_remove x r end
  end.

(** broadcast/mod.rs:135-140 [BroadcastQueue] (the retransmit multiplier only
    enters through the limit, which is an argument of the take functions),
    plus the trace of broadcasts on which [finished] was called, latest last *)
Record bqueue (B : Type) := mkQ { bq_q : list (item B); bq_m : amap (item B); bq_gen : N; bq_fin : list B }.
Arguments mkQ {B}. Arguments bq_q {B}. Arguments bq_m {B}. Arguments bq_gen {B}. Arguments bq_fin {B}.
(** broadcast/mod.rs:144-151 [new] *)
Definition bq_new {B} : bqueue B := mkQ [] [] 0 [].

Section Queue.
Context {B : Type} (I : bcast_impl B).

(** [self.m.remove(id)] for the id of an item, if it has one;
    broadcast/mod.rs:273-275, 374-376, 438-440, 484-486 *)
Definition m_forget (x : item B) (m : amap (item B)) : amap (item B) :=
  match b_id I (i_b x) with Some k => adel k m | None => m end.
(** [if self.q.is_empty() { self.id_gen = 0 }];
    broadcast/mod.rs:257-260, 277-279, 395-397, 450-452 *)
Definition idle_gen (q : list (item B)) (g : N) : N := match q with [] => 0 | _ => g end.

(** broadcast/mod.rs:175-181 [peek_first_sendable_encoded_len] *)
Definition peek_first_sendable (Q : bqueue B) (mtu : N) : option N :=
  option_map i_len (find (fun x => i_len x <=? mtu) (bq_q Q)).
(** broadcast/mod.rs:183-190 [next_id] *)
Definition next_id (g : N) : N := if g =? u64_max then 1 else g + 1.

(** broadcast/mod.rs:205-228 [insert_into]; the [debug_assert] on a collision
    is not modelled (release behaviour: nothing is inserted) *)
Definition insert_into (x : item B) (Q : bqueue B) : bqueue B :=
  let '(q', inserted) := set_insert x (bq_q Q) in
  mkQ q' (if inserted then match b_id I (i_b x) with Some k => aset k x (bq_m Q) | None => bq_m Q end else bq_m Q)
      (bq_gen Q) (bq_fin Q).

(** broadcast/mod.rs:253-264: drop the queued broadcast with the same id *)
Definition invalidate_same_id (k : N) (Q : bqueue B) : bqueue B :=
  match aget k (bq_m Q) with
  | Some old =>
    let q' := set_remove old (bq_q Q) in
    mkQ q' (adel k (bq_m Q)) (idle_gen q' (bq_gen Q)) (bq_fin Q ++ [i_b old])
  | None => Q
  end.
(** broadcast/mod.rs:265-283: the slow path for broadcasts without id *)
Definition invalidate_scan (b : B) (Q : bqueue B) : bqueue B :=
  let inv := filter (fun x => b_invalidates I b (i_b x)) (bq_q Q) in
  let q' := fold_left (fun q x => set_remove x q) inv (bq_q Q) in
  mkQ q' (fold_left (fun m x => m_forget x m) inv (bq_m Q)) (idle_gen q' (bq_gen Q)) (bq_fin Q ++ map i_b inv).
(** broadcast/mod.rs:232-289 [queue_broadcast] *)
Definition queue_broadcast (b : B) (Q : bqueue B) : bqueue B :=
  let Q1 := match b_id I b with
            | Some k => invalidate_same_id k Q
            | None => if b_unique I b then Q else invalidate_scan b Q
            end in
  let g := next_id (bq_gen Q1) in
  insert_into (mkItem 0 (b_len I b) g b) (mkQ (bq_q Q1) (bq_m Q1) g (bq_fin Q1)).

(** broadcast/mod.rs:107-126, 353-362: the scan of one tier — [geq <= item],
    [lt > item] where [geq = (tr, fit, MAX)] and [lt = (tr+1, MAX, MAX)] —
    followed by [find(msg_len <= fit)] *)
Definition in_tier (tr fit : N) (x : item B) : bool :=
  let probe (t l : N) := mkItem t l u64_max (i_b x) in
  match item_cmp (probe tr fit) x with Gt => false | _ => true end &&
  match item_cmp (probe (tr + 1) u64_max) x with Gt => true | _ => false end.
(** broadcast/mod.rs:332-356, 417-428: the first item of the range that fits *)
Definition tier_candidate (tr fit : N) (q : list (item B)) : option (item B) :=
  find (fun x => i_len x <=? fit) (filter (in_tier tr fit) q).

(** broadcast/mod.rs:192-197 [transmit_range] *)
Definition transmit_range (q : list (item B)) : N * N :=
  match q with
  | [] => (0, 0)
  | x :: _ => (i_tr x, i_tr (last q x))
  end.

(** [(keep.transmits as u32) + 1 >= transmit_limit], broadcast/mod.rs:382;
    the debug-build overflow check of the addition is not modelled *)
Definition spent (x : item B) (lim : N) : bool := lim <=? i_tr x mod two32 + 1.
(** broadcast/mod.rs:385, [keep.transmits += 1] *)
Definition bump (x : item B) : item B := mkItem (i_tr x + 1) (i_len x) (i_id x) (i_b x).

(** The loop of broadcast/mod.rs:339-392.  [lim] is the value of
    [retransmit_limit(mult, num_nodes)] (floating point, so an argument).
    Returns the queue, what is sent, the bytes used and the reinsert list.
    Every turn either removes an item or passes to the next tier, so
    [length q + (max_tr + 1 - transmits)] is enough fuel. *)
Fixpoint take_loop (fuel : nat) (lim overhead limit max_tr : N) (tr used : N) (Q : bqueue B)
    (sent : list B) (re : list (item B)) : bqueue B * list B * N * list (item B) :=
  match fuel with
  | O => (Q, sent, used, re)
  | S f =>
    if max_tr <? tr then (Q, sent, used, re) else
    let free := limit - used in
    if free <? overhead then (Q, sent, used, re) else
    match tier_candidate tr (free - overhead) (bq_q Q) with
    | Some keep =>
      let fin := spent keep lim in
      take_loop f lim overhead limit max_tr tr (used + (i_len keep + overhead))
        (mkQ (set_remove keep (bq_q Q)) (m_forget keep (bq_m Q)) (bq_gen Q)
             (if fin then bq_fin Q ++ [i_b keep] else bq_fin Q))
        (sent ++ [i_b keep]) (if fin then re else re ++ [bump keep])
    | None => take_loop f lim overhead limit max_tr (tr + 1) used Q sent re
    end
  end.
(** broadcast/mod.rs:320-399 [take_broadcasts_measured] *)
Definition take_broadcasts_measured (lim overhead limit : N) (Q : bqueue B) : bqueue B * list B * N :=
  match bq_q Q with
  | [] => (Q, [], 0)
  | _ =>
    let '(min_tr, max_tr) := transmit_range (bq_q Q) in
    let '(Q1, sent, used, re) :=
      take_loop (length (bq_q Q) + N.to_nat (max_tr + 1 - min_tr)) lim overhead limit max_tr min_tr 0 Q [] [] in
    let Q2 := fold_left (fun Q x => insert_into x Q) re Q1 in
    (mkQ (bq_q Q2) (bq_m Q2) (idle_gen (bq_q Q2) (bq_gen Q2)) (bq_fin Q2), sent, used)
  end.

(** The loop of broadcast/mod.rs:418-459: the first candidate over the tiers *)
Fixpoint one_loop (fuel : nat) (limit max_tr tr : N) (q : list (item B)) : option (item B) :=
  match fuel with
  | O => None
  | S f =>
    if max_tr <? tr then None else
    match tier_candidate tr limit q with
    | Some keep => Some keep
    | None => one_loop f limit max_tr (tr + 1) q
    end
  end.
(** broadcast/mod.rs:410-461 [take_one_broadcast] *)
Definition take_one_broadcast (lim limit : N) (Q : bqueue B) : bqueue B * option B :=
  match bq_q Q with
  | [] => (Q, None)
  | _ =>
    let '(min_tr, max_tr) := transmit_range (bq_q Q) in
    match one_loop (N.to_nat (max_tr + 1 - min_tr)) limit max_tr min_tr (bq_q Q) with
    | None => (Q, None)
    | Some keep =>
      let fin := spent keep lim in
      let Q1 := mkQ (set_remove keep (bq_q Q)) (m_forget keep (bq_m Q)) (bq_gen Q)
                    (if fin then bq_fin Q ++ [i_b keep] else bq_fin Q) in
      let Q2 := if fin then Q1 else insert_into (bump keep) Q1 in
      (mkQ (bq_q Q2) (bq_m Q2) (idle_gen (bq_q Q2) (bq_gen Q2)) (bq_fin Q2), Some (i_b keep))
    end
  end.

(** broadcast/mod.rs:464-471 [reset] *)
Definition bq_reset (Q : bqueue B) : bqueue B := mkQ [] [] 0 (bq_fin Q ++ map i_b (bq_q Q)).

(** The loop of broadcast/mod.rs:480-487: [pop_last] while too long *)
Fixpoint prune_loop (fuel : nat) (keep : N) (Q : bqueue B) : bqueue B :=
  match fuel with
  | O => Q
  | S f =>
    if blen (bq_q Q) <=? keep then Q else
    match bq_q Q with
    | [] => Q
    | x :: _ =>
      let l := last (bq_q Q) x in
      prune_loop f keep (mkQ (removelast (bq_q Q)) (m_forget l (bq_m Q)) (bq_gen Q) (bq_fin Q ++ [i_b l]))
    end
  end.
(** broadcast/mod.rs:480-492 [prune] *)
Definition bq_prune (max_retain : N) (Q : bqueue B) : bqueue B :=
  let Q1 := prune_loop (length (bq_q Q)) max_retain Q in
  mkQ (bq_q Q1) (bq_m Q1) (idle_gen (bq_q Q1) (bq_gen Q1)) (bq_fin Q1).

(** The operations of a queue, with what each hands out;
    broadcast/mod.rs:232-491 *)
Inductive bq_op :=
| OQueue (b : B)
| OTake (lim overhead limit : N)
| OTakeOne (lim limit : N)
| OReset
| OPrune (max_retain : N).
(** broadcast/mod.rs:232-491: one call *)
Definition bq_step (Q : bqueue B) (o : bq_op) : bqueue B * list B :=
  match o with
  | OQueue b => (queue_broadcast b Q, [])
  | OTake lim ov limit => let '(Q', sent, _) := take_broadcasts_measured lim ov limit Q in (Q', sent)
  | OTakeOne lim limit =>
    let '(Q', s) := take_one_broadcast lim limit Q in (Q', match s with Some b => [b] | None => [] end)
  | OReset => (bq_reset Q, [])
  | OPrune n => (bq_prune n Q, [])
  end.
(** A history: the final queue and everything handed out;
    broadcast/mod.rs:136-142 [BroadcastQueue], over time *)
Fixpoint bq_run (Q : bqueue B) (os : list bq_op) : bqueue B * list B :=
  match os with
  | [] => (Q, [])
  | o :: r => let '(Q1, s) := bq_step Q o in let '(Q2, s') := bq_run Q1 r in (Q2, s ++ s')
  end.

(** broadcast/mod.rs:642-650 [UserBroadcasts]: one queue per tier *)
(** broadcast/mod.rs:642-650 [new] *)
Definition ub_new (tiers : nat) : list (bqueue B) := repeat bq_new tiers.
(** broadcast/mod.rs:687 [self.tiers[idx]], mutably *)
Fixpoint upd_nth {A} (n : nat) (f : A -> A) (l : list A) : list A :=
  match l, n with
  | [], _ => []
  | x :: r, O => f x :: r
  | x :: r, S n => x :: upd_nth n f r
  end.
(** broadcast/mod.rs:685-688 [queue_ranked] *)
Definition queue_ranked (rank : N) (b : B) (T : list (bqueue B)) : list (bqueue B) :=
  upd_nth (N.to_nat (N.min rank (blen T - 1))) (queue_broadcast b) T.
(** broadcast/mod.rs:694-698 [reset] *)
Definition ub_reset (T : list (bqueue B)) : list (bqueue B) := map bq_reset T.
(** The loop of broadcast/mod.rs:714-721 *)
Fixpoint ub_take_loop (lim overhead limit : N) (T : list (bqueue B)) (used : N) : list (bqueue B) * list B * N :=
  match T with
  | [] => ([], [], used)
  | Q :: r =>
    if limit <=? used then (T, [], used) else
    let '(Q', got, charged) := take_broadcasts_measured lim overhead (limit - used) Q in
    let '(r', got', used') := ub_take_loop lim overhead limit r (used + charged) in
    (Q' :: r', got ++ got', used')
  end.
(** broadcast/mod.rs:706-723 [take_broadcasts_measured] *)
Definition ub_take (lim overhead limit : N) (T : list (bqueue B)) : list (bqueue B) * list B * N :=
  ub_take_loop lim overhead limit T 0.
End Queue.
Arguments bq_op : clear implicits.

(** broadcast/mod.rs:602-632 [BytesBroadcast]: opaque user payloads, no id,
    unique; the length is the number of bytes *)
Definition bytes_broadcast : bcast_impl bytes :=
  {| b_id := fun _ => None; b_invalidates := fun _ _ => false; b_len := blen; b_unique := fun _ => true |}.
(** broadcast/mod.rs:499-565 [MemberlistBroadcast]: a message about one node;
    the encoded length is a parameter *)
Definition memberlist_broadcast {M} (mlen : M -> N) : bcast_impl (N * M) :=
  {| b_id := fun b => Some (fst b); b_invalidates := fun a b => fst a =? fst b;
     b_len := fun b => mlen (snd b); b_unique := fun _ => false |}.
