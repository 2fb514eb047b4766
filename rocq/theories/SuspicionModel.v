(** Suspicion timers.  Models memberlist-proto/src/suspicion/mod.rs. *)
From Coq Require Export ZArith.
From Verif Require Import Base TimeModel.
Local Open Scope N_scope.

(** suspicion/mod.rs:24-26: [floor(raw * 1000)] for [n], [k], [min], [max].
    The floating-point computation is an arbitrary function, the oracle;
    SuspicionReal.v studies the exact real formula. *)
Definition lifeguard := N -> N -> N -> N -> Z.
(** suspicion/mod.rs:16-32 [remaining_suspicion_time].  Simplified: the
    comparison with [min.as_millis() as f64] is exact (true below 2^53 ms). *)
Definition remaining_suspicion_time (lg : lifeguard) (n k elapsed min max : N) : N :=
  let timeout_ms := lg n k min max in
  if (timeout_ms <? Z.of_N (as_millis min))%Z then tsub min elapsed
  else tsub (from_millis (N.min (Z.to_N timeout_ms) u64_max)) elapsed.

(** suspicion/mod.rs:40-57 [Suspicion]; node ids are [N]; the hash set of
    confirmers is a list. *)
Record suspicion := mkSusp {
  s_k : N; s_min : N; s_max : N; s_start : N; s_deadline : N;
  s_confirmed : list N; s_n : N
}.
(** suspicion/mod.rs:110-123 [Suspicion::new] *)
Definition susp_new (from k min max now : N) : suspicion :=
  mkSusp k min max now (tadd now (if k <? 1 then min else max)) [from] 0.
(** suspicion/mod.rs:62-68 [Confirmation] *)
Inductive confirmation := Accepted (d : N) | Ignored.
(** suspicion/mod.rs:133-146 [confirm] *)
Definition susp_confirm (lg : lifeguard) (s : suspicion) (from now : N) : suspicion * confirmation :=
  if s_k s <=? s_n s then (s, Ignored)
  else if existsb (N.eqb from) (s_confirmed s) then (s, Ignored)
  else
    let n := s_n s + 1 in
    let elapsed := tsub now (s_start s) in
    let d := tadd now (remaining_suspicion_time lg n (s_k s) elapsed (s_min s) (s_max s)) in
    (mkSusp (s_k s) (s_min s) (s_max s) (s_start s) d (from :: s_confirmed s) n, Accepted d).

(** A history of accusations [(accuser, time)].
    See suspicion/mod.rs:133, repeatedly *)
Definition susp_run (lg : lifeguard) (s : suspicion) (l : list (N * N)) : suspicion :=
  fold_left (fun s p => fst (susp_confirm lg s (fst p) (snd p))) l s.
