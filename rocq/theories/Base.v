(** Common vocabulary: bytes, byte-string slicing, results.

    Rust [&[u8]] / [Vec<u8>] / [Bytes] are modelled as [list byte]; [usize]
    lengths as [N].  Slicing never panics here, so every place where the Rust
    code slices is preceded in the model by the very bound check the code
    performs; the Facts files prove the slices are in range. *)
From Coq Require Export Arith NArith List Bool Lia.
From Coq Require Export ZifyBool ZifyNat ZifyN.
Export ListNotations.
Local Open Scope N_scope.
(* keep N arithmetic folded under simpl/cbn *)
#[global] Arguments N.add : simpl never.
#[global] Arguments N.mul : simpl never.
#[global] Arguments N.sub : simpl never.
#[global] Arguments N.pow : simpl never.
#[global] Arguments N.div : simpl never.
#[global] Arguments N.modulo : simpl never.
#[global] Arguments N.shiftl : simpl never.
#[global] Arguments N.shiftr : simpl never.
#[global] Arguments N.land : simpl never.
#[global] Arguments N.lor : simpl never.

(** A byte ([u8]); [is_byte] is its range.  Models Rust [u8]. *)
Notation byte := N (only parsing).
Definition is_byte (b : byte) : Prop := b < 256.
Notation bytes := (list N) (only parsing).
(** Every element is a [u8]: true of any Rust byte slice. *)
Definition wf_bytes (l : bytes) : Prop := Forall is_byte l.

(** [slice.len()] *)
Definition blen {A} (l : list A) : N := N.of_nat (length l).
(** [&buf[..n]] *)
Definition btake {A} (n : N) (l : list A) : list A := firstn (N.to_nat n) l.
(** [&buf[n..]] *)
Definition bdrop {A} (n : N) (l : list A) : list A := skipn (N.to_nat n) l.

(** Rust [Result]. *)
Inductive result (E A : Type) : Type :=
| Ok (a : A)
| Err (e : E).
Arguments Ok {E A} a.
Arguments Err {E A} e.

(** [u32::MAX], [u64] ranges. *)
Definition u32_max : N := 4294967295.
Definition two32 : N := 4294967296.
Definition u64_max : N := 18446744073709551615.
Definition two64 : N := 18446744073709551616.

(** [u32::wrapping_add], [u64::wrapping_add] *)
Definition wadd32 (a b : N) : N := (a + b) mod two32.
Definition wadd64 (a b : N) : N := (a + b) mod two64.
(** [u32::saturating_add] *)
Definition sadd32 (a b : N) : N := N.min (a + b) u32_max.
