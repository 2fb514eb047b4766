(** Durations and instants, in nanoseconds.
    Models memberlist-proto/src/time/mod.rs and the parts of
    [core::time::Duration] it uses. *)
From Verif Require Import Base.
Local Open Scope N_scope.

(** [Duration::MAX]: [u64::MAX] seconds and 999 999 999 nanoseconds.
    Used at time/mod.rs:133-139 *)
Definition DUR_MAX : N := 18446744073709551615999999999.
(** One millisecond / one second.
    Units of the [core::time::Duration] of time/mod.rs *)
Definition MS : N := 1000000.
(** one second of the [core::time::Duration] of time/mod.rs *)
Definition SEC : N := 1000000000.
(** time/mod.rs:133-139 [Instant + Duration], saturating; also
    [Duration::saturating_add]. *)
Definition tadd (a b : N) : N := N.min (a + b) DUR_MAX.
(** time/mod.rs:36-51 [saturating_duration_since], [duration_since]; also
    [Duration::saturating_sub]. *)
Definition tsub (a b : N) : N := a - b.
(** [Duration::checked_mul] by a [u32]. Used at endpoint/mod.rs:4891-4902 *)
Definition dmul (a : N) (k : N) : option N :=
  if DUR_MAX <? a * k then None else Some (a * k).
(** [Duration::from_millis]; used at suspicion/mod.rs:16-32 *)
Definition from_millis (m : N) : N := m * MS.
(** [Duration::as_millis]; used at suspicion/mod.rs:16-32 *)
Definition as_millis (d : N) : N := d / MS.
