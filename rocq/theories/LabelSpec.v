(** Specification vocabulary for labels. *)
From Verif Require Import Base LabelModel.
Local Open Scope N_scope.

(** A label a node can be configured with: non-empty, at most 253 bytes, valid
    UTF-8, bytes. *)
Definition valid_label (l : bytes) : Prop :=
  l <> [] /\ blen l <= 253 /\ utf8_valid l = true /\ wf_bytes l.
(** The header announcing label [l]. *)
Definition header (l : bytes) : bytes := 12 :: blen l :: l.
(** All bytes fed by a list of record-layer calls, and all bytes written. *)
Definition fed (ops : list rl_op) : bytes :=
  flat_map (fun o => match o with OFeed c => c | _ => [] end) ops.
Definition written (ops : list rl_op) : bytes :=
  flat_map (fun o => match o with OWrite p => p | _ => [] end) ops.
(** Plaintext delivered to the application so far, including what the next
    read would surface. *)
Definition delivered (s : rl_state) : bytes :=
  rs_read s ++ r_tail (rs_layer s) ++ r_in (rs_layer s).
(** Bytes sent so far, including what the next transmit would send. *)
Definition sent (s : rl_state) : bytes := rs_wire s ++ r_out (rs_layer s).
(** Inbound bytes the layer is holding back. *)
Definition held_back (s : rl_state) : bytes := g_raw (r_gate (rs_layer s)).
Definition no_clear (ops : list rl_op) : Prop := ~ In OClear ops.
(** The user writes application data only after the handshake is over (the
    bridge's rule, streams/bridge.rs). *)
Fixpoint disciplined (st : rl_state) (ops : list rl_op) : Prop :=
  match ops with
  | [] => True
  | o :: r =>
    (match o with OWrite _ => rl_is_handshaking (rs_layer st) = false | _ => True end) /\
    disciplined (rl_step st o) r
  end.
