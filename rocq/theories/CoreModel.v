(** The membership core of memberlist-proto/src/endpoint/mod.rs: the member
    table, the suspicion timers and their deadline index, the local
    incarnation, the lifecycle, the health score, the gossip queue and the
    pending application events.  EndpointModel.v adds probing, relaying,
    streams and scheduling around it. *)
From Verif Require Export Base MapModel TimeModel AwarenessModel SuspicionModel BroadcastModel
  DeadlineModel MembersModel MsgModel LabelModel.
Local Open Scope N_scope.

(** The parts of config/mod.rs [EndpointOptions] the endpoint reads, and the
    oracles: [c_sto] is endpoint/mod.rs:1222-1252 [suspicion_timeouts] and
    [c_lim] the [retransmit_limit] of broadcast/mod.rs:12-18, both floating
    point functions of the number of members; [c_lg] the floating point part
    of suspicion/mod.rs:16-32; [c_rng] the random stream ([c_rng i] is the
    [i]-th draw); [c_enc] framing/mod.rs [encode_message] of one message. *)
Record cfg := mkCfg {
  c_id : N; c_addr : N; c_pv : N; c_dv : N;
  c_inc0 : N; c_meta0 : bytes; c_meta_max : N;
  c_mult : N; c_sto : N -> N * N; c_lg : lifeguard; c_lim : N -> N;
  c_aware_max : N; c_reclaim : N; c_dead_window : N; c_max_members : option N;
  c_rng : N -> N; c_enc : msg -> bytes;
  c_mtu : N; c_frame_max : N; c_snapshot0 : bytes; c_tiers : N;
  c_probe_interval : N; c_probe_timeout : N; c_indirect : N;
  c_gossip_interval : N; c_gossip_nodes : N; c_pp_interval : N;
  c_stream_timeout : N; c_max_forwards : N; c_ack_members_only : bool }.

(** endpoint/mod.rs:54-74 [Lifecycle] *)
Inductive life := Running | Leaving | LeftLife.
(** endpoint/mod.rs:54-74, 400-402 *)
Definition is_running (l : life) : bool := match l with Running => true | _ => false end.

(** members/mod.rs:25-30, 127-147: [LocalNodeState] and [Member] *)
Record member := mkM {
  m_server : nstate; m_inc : N; m_change : N; m_state : pstate;
  m_susp : option suspicion; m_gen : N }.
(** members/mod.rs:71-95, 184-203: the setters of [LocalNodeState]/[Member] *)
Definition m_set_state (st : pstate) (now : N) (m : member) : member :=
  mkM (m_server m) (m_inc m) now st (m_susp m) (m_gen m).
(** members/mod.rs:71-95: the incarnation *)
Definition m_set_inc (inc : N) (m : member) : member :=
  mkM (m_server m) inc (m_change m) (m_state m) (m_susp m) (m_gen m).
(** members/mod.rs:184-203: the suspicion *)
Definition m_set_susp (s : option suspicion) (m : member) : member :=
  mkM (m_server m) (m_inc m) (m_change m) (m_state m) s (m_gen m).
(** members/mod.rs:59-62 [set_server] *)
Definition m_set_server (s : nstate) (m : member) : member :=
  mkM s (m_inc m) (m_change m) (m_state m) (m_susp m) (m_gen m).
(** members/mod.rs:127-203: the generation *)
Definition m_set_gen (g : N) (m : member) : member :=
  mkM (m_server m) (m_inc m) (m_change m) (m_state m) (m_susp m) g.
(** members/mod.rs:71-95: the time of the last change *)
Definition m_set_change (t : N) (m : member) : member :=
  mkM (m_server m) (m_inc m) t (m_state m) (m_susp m) (m_gen m).

(** members/mod.rs:238-243: the member vector as a list of [(id, member)];
    [C25_list_behaviour] proves that lookups, updates, removals, shuffles and
    insertions of the modelled container (a vector and an index map) act on
    this list as [aget], [adel] and the functions below do. *)
Definition mtable := list (N * member).
(** members/mod.rs:318-321 [get_mut] followed by a mutation *)
Definition mt_upd (id : N) (f : member -> member) (t : mtable) : mtable :=
  map (fun p => if fst p =? id then (fst p, f (snd p)) else p) t.
(** members/mod.rs:390-410 [insert_at_random_at]: the new member takes the
    place at [off], the one there moves to the end *)
Definition mt_insert (off : N) (id : N) (m : member) (t : mtable) : mtable :=
  match bdrop off t with
  | [] => t ++ [(id, m)]
  | d :: r => btake off t ++ (id, m) :: r ++ [d]
  end.
(** members/mod.rs:345-358 [shuffle]: Fisher-Yates, the draw for step [i] is
    reduced modulo [i + 1] *)
Fixpoint shuffle_loop {A} (i : nat) (draw : nat -> N) (l : list A) : list A :=
  match i with
  | O => l
  | S i' =>
    let j := N.to_nat (draw i mod (N.of_nat i + 1)) in
    shuffle_loop i' draw (match list_swap i j l with Some l' => l' | None => l end)
  end.
(** members/mod.rs:345-358 [shuffle] *)
Definition shuffle {A} (draw : nat -> N) (l : list A) : list A :=
  shuffle_loop (Nat.pred (length l)) draw l.

(** The fields of endpoint/mod.rs:216-367 [Endpoint] that make the core.
    [k_draws] counts the random numbers drawn; the alive delegate is the
    admission predicate itself (all true when none is installed). *)
Record core := mkCore {
  k_mem : mtable; k_sidx : dindex; k_inc : N; k_gen : N; k_life : life;
  k_ver : N; k_aw : awareness; k_bc : bqueue (N * msg); k_ev : list event;
  k_draws : N; k_adm : nstate -> bool }.
(** endpoint/mod.rs:220 [members], assigned *)
Definition k_set_mem x k := mkCore x (k_sidx k) (k_inc k) (k_gen k) (k_life k) (k_ver k) (k_aw k) (k_bc k) (k_ev k) (k_draws k) (k_adm k).
(** endpoint/mod.rs:234 [suspicion_deadlines], assigned *)
Definition k_set_sidx x k := mkCore (k_mem k) x (k_inc k) (k_gen k) (k_life k) (k_ver k) (k_aw k) (k_bc k) (k_ev k) (k_draws k) (k_adm k).
(** endpoint/mod.rs:269 [incarnation], assigned *)
Definition k_set_inc x k := mkCore (k_mem k) (k_sidx k) x (k_gen k) (k_life k) (k_ver k) (k_aw k) (k_bc k) (k_ev k) (k_draws k) (k_adm k).
(** endpoint/mod.rs:227 [next_member_generation], assigned *)
Definition k_set_gen x k := mkCore (k_mem k) (k_sidx k) (k_inc k) x (k_life k) (k_ver k) (k_aw k) (k_bc k) (k_ev k) (k_draws k) (k_adm k).
(** endpoint/mod.rs:310 [lifecycle], assigned *)
Definition k_set_life x k := mkCore (k_mem k) (k_sidx k) (k_inc k) (k_gen k) x (k_ver k) (k_aw k) (k_bc k) (k_ev k) (k_draws k) (k_adm k).
(** endpoint/mod.rs:255 [snapshot_version], assigned *)
Definition k_set_ver x k := mkCore (k_mem k) (k_sidx k) (k_inc k) (k_gen k) (k_life k) x (k_aw k) (k_bc k) (k_ev k) (k_draws k) (k_adm k).
(** endpoint/mod.rs:237 [awareness], assigned *)
Definition k_set_aw x k := mkCore (k_mem k) (k_sidx k) (k_inc k) (k_gen k) (k_life k) (k_ver k) x (k_bc k) (k_ev k) (k_draws k) (k_adm k).
(** endpoint/mod.rs:240 [broadcast], assigned *)
Definition k_set_bc x k := mkCore (k_mem k) (k_sidx k) (k_inc k) (k_gen k) (k_life k) (k_ver k) (k_aw k) x (k_ev k) (k_draws k) (k_adm k).
(** endpoint/mod.rs:313 [pending_events], assigned *)
Definition k_set_ev x k := mkCore (k_mem k) (k_sidx k) (k_inc k) (k_gen k) (k_life k) (k_ver k) (k_aw k) (k_bc k) x (k_draws k) (k_adm k).
(** endpoint/mod.rs:217 [rng], assigned *)
Definition k_set_draws x k := mkCore (k_mem k) (k_sidx k) (k_inc k) (k_gen k) (k_life k) (k_ver k) (k_aw k) (k_bc k) (k_ev k) x (k_adm k).
(** endpoint/mod.rs:332 [alive_delegate], assigned *)
Definition k_set_adm x k := mkCore (k_mem k) (k_sidx k) (k_inc k) (k_gen k) (k_life k) (k_ver k) (k_aw k) (k_bc k) (k_ev k) (k_draws k) x.

Section Core.
Variable C : cfg.

(** endpoint/mod.rs:1216-1219 [num_members] *)
Definition k_n (k : core) : N := blen (k_mem k).
(** endpoint/mod.rs:483-485 [bump_snapshot_version] *)
Definition bumpv (k : core) : core := k_set_ver (wadd64 (k_ver k) 1) k.
(** endpoint/mod.rs:467-480 [emit_event] *)
Definition emit (e : event) (k : core) : core :=
  let k := match e with EvJoined _ | EvUpdated _ | EvLeft _ => bumpv k | _ => k end in
  k_set_ev (k_ev k ++ [e]) k.
(** broadcast/mod.rs:499-565: the broadcasts of this queue *)
Definition mbcast : bcast_impl (N * msg) := memberlist_broadcast (fun m => blen (c_enc C m)).
(** endpoint/mod.rs:1596-1600 [broadcast_message]; also 1578-1594
    [broadcast_alive], which queues the same message *)
Definition bcast (id : N) (m : msg) (k : core) : core :=
  k_set_bc (queue_broadcast mbcast (id, m) (k_bc k)) k.
(** endpoint/mod.rs:515-518 [next_incarnation] *)
Definition next_inc (k : core) : core := k_set_inc (wadd32 (k_inc k) 1) k.
(** endpoint/mod.rs:522-527 [skip_incarnation_past] *)
Definition skip_past (accused : N) (k : core) : core :=
  if k_inc k <=? accused then k_set_inc (wadd32 accused 1) k else k.
(** endpoint/mod.rs:536-543 [next_member_generation]: the counter after it *)
Definition next_gen (k : core) : core :=
  k_set_gen (let g := wadd64 (k_gen k) 1 in if g =? 0 then 1 else g) k.
(** apply [f] to a member record;
    endpoint/mod.rs: every [self.members.get_mut(id)] *)
Definition upd (id : N) (f : member -> member) (k : core) : core := k_set_mem (mt_upd id f (k_mem k)) k.
(** [rng.random_range(0..=n)]: the next draw modulo [n + 1];
    endpoint/mod.rs:217 [rng] *)
Definition draw (n : N) (k : core) : N * core :=
  (c_rng C (k_draws k) mod (n + 1), k_set_draws (k_draws k + 1) k).

(** the [Alive] broadcast about a stored record, endpoint/mod.rs:1622-1634 *)
Definition alive_of (inc : N) (s : nstate) : alive :=
  mkAlive inc (ns_id s) (ns_addr s) (ns_meta s) (ns_pv s) (ns_dv s).
(** endpoint/mod.rs:1607-1637 [refute] *)
Definition refute (accused : N) (k : core) : core :=
  if is_running (k_life k) then
    let k := next_inc k in
    let k := if k_inc k <=? accused then skip_past accused k else k in
    let k := bumpv (k_set_aw (record_failure (k_aw k) 1) k) in
    match aget (c_id C) (k_mem k) with
    | Some m =>
      let k := upd (c_id C) (m_set_inc (k_inc k)) k in
      bcast (ns_id (m_server m)) (MAlive (alive_of (k_inc k) (m_server m))) k
    | None => k
    end
  else k.

(** endpoint/mod.rs:1645-1654 [install_suspicion] *)
Definition install_suspicion (id : N) (s : suspicion) (k : core) : core :=
  match aget id (k_mem k) with
  | None => k
  | Some _ => k_set_sidx (di_set id (Some (s_deadline s)) (k_sidx k)) (upd id (m_set_susp (Some s)) k)
  end.
(** endpoint/mod.rs:1661-1667 [clear_suspicion] *)
Definition clear_suspicion (id : N) (k : core) : core :=
  k_set_sidx (di_set id None (k_sidx k)) (upd id (m_set_susp None) k).

(** endpoint/mod.rs:1677-1773 [process_suspect] *)
Definition process_suspect (inc id from now : N) (k : core) : core :=
  if negb (is_running (k_life k)) then k else
  match aget id (k_mem k) with
  | None => k
  | Some m =>
    if inc <? m_inc m then k else
    match m_susp m with
    | Some s =>
      let '(s', r) := susp_confirm (c_lg C) s from now in
      match r with
      | Accepted d =>
        bcast id (MSuspect inc id from)
          (k_set_sidx (di_set id (Some d) (k_sidx k)) (upd id (m_set_susp (Some s')) k))
      | Ignored => k
      end
    | None =>
      if negb (pstate_eqb (m_state m) PAlive) then k else
      if id =? c_id C then refute inc k else
      let '(mn, mx) := c_sto C (k_n k) in
      let kk := if c_mult C <=? k_n k mod two32 then c_mult C - 2 else 0 in
      let k := install_suspicion id (susp_new from kk mn mx now) k in
      let k := upd id (fun m => m_set_state PSuspect now (m_set_inc inc m)) k in
      bcast id (MSuspect inc id from) (bumpv k)
    end
  end.

(** endpoint/mod.rs:1783-1881 [process_dead] *)
Definition process_dead (inc id from now : N) (k : core) : core :=
  match aget id (k_mem k) with
  | None => k
  | Some m =>
    if inc <? m_inc m then k else
    if dead_or_left (m_state m) then k else
    if id =? c_id C then
      match k_life k with
      | Leaving =>
        let k := clear_suspicion id k in
        let k := upd id (fun m => m_set_state PLeft now (m_set_inc inc m)) k in
        let k := bcast id (MDead inc id from) k in
        k_set_life LeftLife (emit (EvLeft (m_server m)) k)
      | _ => refute inc k
      end
    else if negb (is_running (k_life k)) then k else
    let k := clear_suspicion id k in
    let k := upd id (fun m => m_set_state (if id =? from then PLeft else PDead) now (m_set_inc inc m)) k in
    emit (EvLeft (m_server m)) (bcast id (MDead inc id from) k)
  end.

(** endpoint/mod.rs:3936-4058: the second half of [process_alive_decided], run
    once the record is known to exist.  [bootstrap = true] is passed by no
    caller outside the tests and is left out. *)
Definition alive_apply (al : alive) (now : N) (updates_address is_new : bool) (k : core) : core :=
  let id := al_id al in
  let is_local := id =? c_id C in
  match aget id (k_mem k) with
  | None => k
  | Some m =>
    if negb is_new && negb updates_address && negb is_local && (al_inc al <=? m_inc m) then k else
    if is_local && (al_inc al <? m_inc m) then k else
    let k := clear_suspicion id k in
    if is_local then
      if (al_inc al =? m_inc m) && bytes_eqb (ns_meta (m_server m)) (al_meta al)
         && (ns_pv (m_server m) =? al_pv al) && (ns_dv (m_server m) =? al_dv al)
      then k else refute (al_inc al) k
    else
      let g := k_gen k in
      let k := if updates_address then next_gen k else k in
      let k := upd id (fun m =>
        let m := if updates_address then m_set_gen g m else m in
        let m := m_set_server (alive_ns al PAlive) (m_set_inc (al_inc al) m) in
        if pstate_eqb (m_state m) PAlive then m else m_set_state PAlive now m) k in
      let k := bcast id (MAlive al) k in
      if dead_or_left (m_state m) then emit (EvJoined (alive_ns al PAlive)) k
      else if negb (bytes_eqb (ns_meta (m_server m)) (al_meta al)) then emit (EvUpdated (alive_ns al PAlive)) k
      else bumpv k
  end.

(** endpoint/mod.rs:3865-4059 [process_alive_decided]; the
    [members_rejected] counter is not modelled *)
Definition alive_decided (al : alive) (now : N) (k : core) : core :=
  let id := al_id al in
  match aget id (k_mem k) with
  | Some m =>
    if ns_addr (m_server m) =? al_addr al then alive_apply al now false false k
    else
      let can_reclaim := (0 <? c_reclaim C) && (c_reclaim C <? tsub now (m_change m)) in
      if match m_state m with PLeft => true | PDead => can_reclaim | _ => false end
      then alive_apply al now true false k
      else emit (EvConflict (m_server m) (alive_ns al PAlive)) k
  | None =>
    if match c_max_members C with Some mx => mx <=? k_n k | None => false end then k else
    let m := mkM (alive_ns al PDead) 0 now PDead None (k_gen k) in
    let k := next_gen k in
    let n := k_n k in
    let '(off, k) := if n =? 0 then (0, k) else draw n k in
    alive_apply al now false true (k_set_mem (mt_insert off id m (k_mem k)) k)
  end.
(** endpoint/mod.rs:3828-3860 [process_alive] *)
Definition process_alive (al : alive) (now : N) (k : core) : core :=
  if negb (is_running (k_life k)) then k else
  if k_adm k (alive_ns al PAlive) then alive_decided al now k else k.

(** endpoint/mod.rs:4071-4105: one turn of the loop of [merge_state] *)
Definition merge_one (now : N) (k : core) (p : pns) : core :=
  match pn_state p with
  | PAlive => process_alive (pns_alive p) now k
  | PLeft => process_dead (pn_inc p) (pn_id p) (c_id C) now k
  | PDead | PSuspect => process_suspect (pn_inc p) (pn_id p) (c_id C) now k
  | PUnknown _ => k
  end.
(** endpoint/mod.rs:4070-4106 [merge_state] *)
Definition merge_state (l : list pns) (now : N) (k : core) : core := fold_left (merge_one now) l k.

(** endpoint/mod.rs:2178-2186: the ids whose timer has expired *)
Definition expired_ids (now : N) (t : mtable) : list N :=
  map fst (filter (fun p => match m_susp (snd p) with Some s => s_deadline s <=? now | None => false end) t).
(** endpoint/mod.rs:2167-2197 [fire_expired_suspicions] *)
Definition fire_expired_suspicions (now : N) (k : core) : core :=
  fold_left (fun k id =>
    process_dead (match aget id (k_mem k) with Some m => m_inc m | None => 0 end) id (c_id C) now k)
    (expired_ids now (k_mem k)) k.

(** endpoint/mod.rs:381-384, 387-390 [degrade_health], [improve_health]; the
    same pair of statements records probe outcomes *)
Definition health_fail (sev : N) (k : core) : core := bumpv (k_set_aw (record_failure (k_aw k) sev) k).
(** endpoint/mod.rs:387-390 [improve_health], 2138-2139 *)
Definition health_ok (k : core) : core := bumpv (k_set_aw (record_success (k_aw k)) k).

(** endpoint/mod.rs:2600-2647 [update_meta]; the result is the error flag *)
Definition update_meta (meta : bytes) (k : core) : bool * core :=
  if negb (is_running (k_life k)) then (false, k) else
  if c_meta_max C <? blen meta then (false, k) else
  let k := next_inc k in
  let s := mkNS (c_id C) (c_addr C) PAlive meta (c_pv C) (c_dv C) in
  let k := upd (c_id C) (fun m => m_set_server s (m_set_inc (k_inc k) m)) k in
  (true, emit (EvUpdated s) (bcast (c_id C) (MAlive (alive_of (k_inc k) s)) k)).

(** endpoint/mod.rs:1278-1284 [age_member] *)
Definition age_member (id delta : N) (k : core) : core :=
  upd id (fun m => m_set_change (tsub (m_change m) delta) m) k.

(** endpoint/mod.rs:4657-4677: the ids [reset_nodes] removes *)
Definition removable (now : N) (p : N * member) : bool :=
  negb (fst p =? c_id C) && dead_or_left (m_state (snd p)) && (c_dead_window C <? tsub now (m_change (snd p))).
(** endpoint/mod.rs:4654-4704 [reset_nodes] without the probe cursor *)
Definition reset_members (now : N) (k : core) : core :=
  let ids := map fst (filter (removable now) (k_mem k)) in
  let k := match ids with [] => k | _ => bumpv k end in
  let k := fold_left (fun k id =>
    k_set_mem (adel id (k_mem k)) (k_set_sidx (di_set id None (k_sidx k)) k)) ids k in
  let d := k_draws k in
  k_set_mem (shuffle (fun i => c_rng C (d + N.of_nat i)) (k_mem k))
            (k_set_draws (d + N.of_nat (Nat.pred (length (k_mem k)))) k).

(** endpoint/mod.rs:3589-3635, the core part of [leave_with]: [Leaving], drop
    pending dials, mark the local node [Left] *)
Definition is_dial (e : event) : bool := match e with EvDial _ _ _ => true | _ => false end.
(** endpoint/mod.rs:3589-3640: the core's part of [leave_with] *)
Definition core_leave (now : N) (k : core) : core :=
  if negb (is_running (k_life k)) then k else
  let k := k_set_ev (filter (fun e => negb (is_dial e)) (k_ev k)) (k_set_life Leaving k) in
  let inc := N.max (match aget (c_id C) (k_mem k) with Some m => m_inc m | None => 0 end) (k_inc k) in
  process_dead inc (c_id C) (c_id C) now k.

(** endpoint/mod.rs:1437-1463, 1520-1538: the core at construction *)
Definition core_new (now : N) : core :=
  let s := mkNS (c_id C) (c_addr C) PAlive (c_meta0 C) (c_pv C) (c_dv C) in
  let k := mkCore [(c_id C, mkM s (c_inc0 C) now PAlive None 1)] di_new (c_inc0 C) 2 Running 0
             (mkAware (c_aware_max C) 0) bq_new [] 0 (fun _ => true) in
  emit (EvJoined s) (bcast (c_id C) (MAlive (alive_of (c_inc0 C) s)) k).

(** The ways the endpoint acts on its core;
    endpoint/mod.rs, all calls that change the core *)
Inductive cop :=
| KAlive (al : alive) (now : N)
| KSuspect (inc id from now : N)
| KDead (inc id from now : N)
| KMerge (l : list pns) (now : N)
| KExpire (now : N)
| KHealthFail (sev : N) | KHealthOk
| KMeta (meta : bytes)
| KAge (id delta : N)
| KReset (now : N)
| KLeave (now : N)
| KEmit (e : event)          (* an event that is not about membership *)
| KRequeue (e : event)       (* [requeue_event] *)
| KPoll                      (* [poll_event] *)
| KTake (overhead limit : N) | KTakeOne (limit : N)   (* gossip drains *)
| KAdmit (f : nstate -> bool)                        (* [set_alive_delegate] *)
| KDraws (n : N).                                    (* random numbers used elsewhere *)
(** which events endpoint/mod.rs:467-480 [emit_event] passes without a version bump, conflicts aside *)
Definition quiet (e : event) : bool :=
  match e with EvJoined _ | EvLeft _ | EvUpdated _ | EvConflict _ _ => false | _ => true end.
(** One action: the new core and the event handed to the application, if any.
    [KEmit] pushes without bumping the version, as [emit_event] does for the
    events that are not about membership.
    See endpoint/mod.rs: the functions cited above *)
Definition core_step (k : core) (o : cop) : core * list event :=
  match o with
  | KAlive al now => (process_alive al now k, [])
  | KSuspect inc id from now => (process_suspect inc id from now k, [])
  | KDead inc id from now => (process_dead inc id from now k, [])
  | KMerge l now => (merge_state l now k, [])
  | KExpire now => (fire_expired_suspicions now k, [])
  | KHealthFail sev => (health_fail sev k, [])
  | KHealthOk => (health_ok k, [])
  | KMeta meta => (snd (update_meta meta k), [])
  | KAge id d => (age_member id d k, [])
  | KReset now => (reset_members now k, [])
  | KLeave now => (core_leave now k, [])
  | KEmit e => (if quiet e then k_set_ev (k_ev k ++ [e]) k else k, [])
  | KRequeue e => (if negb (is_running (k_life k)) && is_dial e then k else k_set_ev (k_ev k ++ [e]) k, [])
  | KPoll => match k_ev k with [] => (k, []) | e :: r => (k_set_ev r k, [e]) end
  | KTake ov limit =>
    (k_set_bc (fst (fst (take_broadcasts_measured mbcast (c_lim C (k_n k)) ov limit (k_bc k)))) k, [])
  | KTakeOne limit => (k_set_bc (fst (take_one_broadcast mbcast (c_lim C (k_n k)) limit (k_bc k))) k, [])
  | KAdmit f => (k_set_adm f k, [])
  | KDraws n => (k_set_draws (k_draws k + n) k, [])
  end.
(** A history: final core and the events handed out, in order;
    model only; endpoint/mod.rs:216-367 over time *)
Fixpoint core_run (k : core) (os : list cop) : core * list event :=
  match os with
  | [] => (k, [])
  | o :: r => let '(k1, e1) := core_step k o in let '(k2, e2) := core_run k1 r in (k2, e1 ++ e2)
  end.
End Core.
