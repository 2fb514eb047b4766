(** Specification vocabulary for the framing properties: what a LEB128 number
    is, independent of the encoder and decoder loops. *)
From Verif Require Import Base.
Local Open Scope N_scope.

(** Independent meaning of a LEB128 byte string: little-endian base 128. *)
Fixpoint leb128 (l : bytes) : N :=
  match l with
  | [] => 0
  | b :: r => b mod 128 + 128 * leb128 r
  end.

(** [l] is one complete LEB128 number: continuation bytes, then a final byte. *)
Definition leb_complete (l : bytes) : Prop :=
  exists init last, l = init ++ [last] /\ Forall (fun b => 128 <= b) init /\ last < 128.

(** Exact encoded size. *)
Definition varint_len (v : N) : N :=
  if v <? 128 then 1 else if v <? 16384 then 2 else if v <? 2097152 then 3
  else if v <? 268435456 then 4 else 5.

