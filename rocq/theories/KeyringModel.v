(** Encryption keys and the keyring.
    Models memberlist-proto/src/encryption/mod.rs (all backends built in). *)
From Verif Require Import Base LabelModel.
Local Open Scope N_scope.

(** encryption/mod.rs:41-53 [EncryptAlgorithm] *)
Inductive enc_algorithm := AesGcm | ChaCha | EncUnknown (t : byte).
(** encryption/mod.rs:67-76 [EncryptAlgorithm::tag] *)
Definition enc_tag (a : enc_algorithm) : byte :=
  match a with AesGcm => 1 | ChaCha => 2 | EncUnknown t => t end.
(** encryption/mod.rs:81-89 [EncryptAlgorithm::from_tag] *)
Definition enc_from_tag (t : byte) : enc_algorithm :=
  match t with 1 => AesGcm | 2 => ChaCha | o => EncUnknown o end.
(** derived [PartialEq] of [EncryptAlgorithm]; encryption/mod.rs:40 *)
Definition enc_eqb (a b : enc_algorithm) : bool :=
  match a, b with
  | AesGcm, AesGcm | ChaCha, ChaCha => true
  | EncUnknown x, EncUnknown y => x =? y
  | _, _ => false
  end.

(** encryption/mod.rs:121-134 [SecretKey]: the cipher and the key bytes.  The
    fixed array lengths are the predicate [wf_key]. *)
Inductive secret_key :=
| Aes128 (k : bytes) | Aes192 (k : bytes) | Aes256 (k : bytes) | ChaChaKey (k : bytes).
(** [[u8; 16]], [[u8; 24]], [[u8; 32]]; encryption/mod.rs:117-140 *)
Definition wf_key (k : secret_key) : Prop :=
  match k with
  | Aes128 b => wf_bytes b /\ blen b = 16
  | Aes192 b => wf_bytes b /\ blen b = 24
  | Aes256 b => wf_bytes b /\ blen b = 32
  | ChaChaKey b => wf_bytes b /\ blen b = 32
  end.
(** encryption/mod.rs:290-297 [SecretKey::algorithm] *)
Definition key_algorithm (k : secret_key) : enc_algorithm :=
  match k with ChaChaKey _ => ChaCha | _ => AesGcm end.
(** encryption/mod.rs:301-312 [SecretKey::as_bytes] *)
Definition key_bytes (k : secret_key) : bytes :=
  match k with Aes128 b | Aes192 b | Aes256 b | ChaChaKey b => b end.
(** derived [PartialEq] of [SecretKey]; encryption/mod.rs:117 *)
Definition key_eqb (a b : secret_key) : bool :=
  match a, b with
  | Aes128 x, Aes128 y | Aes192 x, Aes192 y | Aes256 x, Aes256 y | ChaChaKey x, ChaChaKey y =>
    bytes_eqb x y
  | _, _ => false
  end.

(** encryption/mod.rs:695-702 [KeyringError] *)
Inductive keyring_error := IsPrimary | NotInRing.
(** encryption/mod.rs:724-727 [Keyring] *)
Record keyring := mkRing { primary : secret_key; secondaries : list secret_key }.

(** encryption/mod.rs:731-736 [Keyring::new] *)
Definition keyring_new (p : secret_key) : keyring := mkRing p [].
(** encryption/mod.rs:767-775 [insert_secondary] *)
Definition insert_secondary (kr : keyring) (k : secret_key) : keyring :=
  if key_eqb (primary kr) k then kr
  else if existsb (fun x => key_eqb x k) (secondaries kr) then kr
  else mkRing (primary kr) (secondaries kr ++ [k]).
(** encryption/mod.rs:741-750 [with_secondaries] *)
Definition with_secondaries (p : secret_key) (l : list secret_key) : keyring :=
  fold_left insert_secondary l (keyring_new p).

(** [iter().position(|s| s.as_bytes() == key)] followed by [Vec::remove(pos)]:
    the removed key and the remaining ones.
    See encryption/mod.rs:788-793, 806-811 *)
Fixpoint take_first (key : bytes) (l : list secret_key) : option (secret_key * list secret_key) :=
  match l with
  | [] => None
  | k :: r =>
    if bytes_eqb (key_bytes k) key then Some (k, r)
    else match take_first key r with
         | Some (x, r') => Some (x, k :: r')
         | None => None
         end
  end.
(** encryption/mod.rs:784-795 [remove_secondary] *)
Definition remove_secondary (kr : keyring) (key : bytes) : keyring * result keyring_error unit :=
  if bytes_eqb (key_bytes (primary kr)) key then (kr, Err IsPrimary)
  else match take_first key (secondaries kr) with
       | None => (kr, Err NotInRing)
       | Some (_, r) => (mkRing (primary kr) r, Ok tt)
       end.
(** encryption/mod.rs:802-815 [promote] *)
Definition promote (kr : keyring) (key : bytes) : keyring * result keyring_error unit :=
  if bytes_eqb (key_bytes (primary kr)) key then (kr, Ok tt)
  else match take_first key (secondaries kr) with
       | None => (kr, Err NotInRing)
       | Some (x, r) => (mkRing x (primary kr :: r), Ok tt)
       end.

(** One call on a keyring; [kr_run] folds calls, ignoring results.
    See encryption/mod.rs:767-815 *)
Inductive kr_op := KInsert (k : secret_key) | KRemove (b : bytes) | KPromote (b : bytes).
(** encryption/mod.rs:767-815: one call *)
Definition kr_step (kr : keyring) (o : kr_op) : keyring :=
  match o with
  | KInsert k => insert_secondary kr k
  | KRemove b => fst (remove_secondary kr b)
  | KPromote b => fst (promote kr b)
  end.
(** a sequence of calls of encryption/mod.rs:767-815 (model only) *)
Definition kr_run (kr : keyring) (ops : list kr_op) : keyring := fold_left kr_step ops kr.
