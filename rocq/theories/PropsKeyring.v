(** Property C15: the keyring. *)
From Coq Require Import Permutation.
From Verif Require Import Base BaseFacts LabelModel KeyringModel TransformModel TransformSpec KeyringFacts.
Local Open Scope N_scope.

Definition ex_a := Aes128 (repeat 1 16).
Definition ex_b := Aes256 (repeat 2 32).
Definition ex_c := ChaChaKey (repeat 3 32).
Definition ex_ring := with_secondaries ex_a [ex_b; ex_a; ex_c; ex_b].

(** C15: no key twice, whatever keys the ring is built from and whatever is
    done to it afterwards. *)
Theorem C15_no_duplicates : forall p l ops, NoDup (ring_keys (kr_run (with_secondaries p l) ops)).
Proof. intros. apply kr_run_nodup, with_secondaries_nodup. Qed.
Print Assumptions C15_no_duplicates.
Example C15_no_duplicates_ex : ring_keys ex_ring = [ex_a; ex_b; ex_c] /\
  ring_keys (kr_run ex_ring [KPromote (repeat 3 32); KInsert ex_a; KRemove (repeat 2 32); KInsert ex_c]) = [ex_c; ex_a].
Proof. split; reflexivity. Qed.

(** C15: a new ring accepts exactly the keys it was given. *)
Theorem C15_construction : forall p l k, In k (ring_keys (with_secondaries p l)) <-> k = p \/ In k l.
Proof. exact with_secondaries_keys. Qed.
Print Assumptions C15_construction.
Example C15_construction_ex : In ex_c (ring_keys ex_ring).
Proof. vm_compute. auto. Qed.

(** C15: promoting keeps the accepted keys and makes a key with those bytes the
    primary; a refused promotion changes nothing and the bytes were unknown. *)
Theorem C15_promote_keeps_keys : forall kr key kr',
  promote kr key = (kr', Ok tt) ->
  Permutation (ring_keys kr) (ring_keys kr') /\ key_bytes (primary kr') = key.
Proof. exact promote_ok. Qed.
Print Assumptions C15_promote_keeps_keys.
Example C15_promote_keeps_keys_ex :
  promote ex_ring (repeat 3 32) = (mkRing ex_c [ex_a; ex_b], Ok tt).
Proof. reflexivity. Qed.
Theorem C15_promote_refused : forall kr key kr' e,
  promote kr key = (kr', Err e) ->
  kr' = kr /\ e = NotInRing /\ forall k, In k (ring_keys kr) -> key_bytes k <> key.
Proof. exact promote_err. Qed.
Print Assumptions C15_promote_refused.
Example C15_promote_refused_ex : promote ex_ring (repeat 3 16) = (ex_ring, Err NotInRing).
Proof. reflexivity. Qed.

(** C15: a removal takes exactly one key, with the named bytes, never the
    primary; a refused one changes nothing. *)
Theorem C15_remove_takes_one : forall kr key kr',
  remove_secondary kr key = (kr', Ok tt) ->
  primary kr' = primary kr /\ key_bytes (primary kr) <> key /\
  exists k, key_bytes k = key /\ Permutation (ring_keys kr) (k :: ring_keys kr').
Proof. exact remove_ok. Qed.
Print Assumptions C15_remove_takes_one.
Example C15_remove_takes_one_ex : remove_secondary ex_ring (repeat 2 32) = (mkRing ex_a [ex_c], Ok tt).
Proof. reflexivity. Qed.
Theorem C15_remove_refused : forall kr key kr' e,
  remove_secondary kr key = (kr', Err e) ->
  kr' = kr /\ ((e = IsPrimary /\ key_bytes (primary kr) = key) \/
               (e = NotInRing /\ forall k, In k (ring_keys kr) -> key_bytes k <> key)).
Proof. exact remove_err. Qed.
Print Assumptions C15_remove_refused.
Example C15_remove_refused_ex : remove_secondary ex_ring (repeat 1 16) = (ex_ring, Err IsPrimary) /\
  remove_secondary ex_ring (repeat 1 17) = (ex_ring, Err NotInRing).
Proof. split; reflexivity. Qed.

(** C15: over whole histories: a key is lost only if a removal names its
    bytes, appears only if inserted, and only promotions change the primary. *)
Theorem C15_no_key_lost : forall ops kr k, In k (ring_keys kr) -> ~ In (KRemove (key_bytes k)) ops ->
  In k (ring_keys (kr_run kr ops)).
Proof. exact kr_run_keeps. Qed.
Print Assumptions C15_no_key_lost.
Example C15_no_key_lost_ex : In ex_b (ring_keys ex_ring) /\
  ~ In (KRemove (key_bytes ex_b)) [KRemove (repeat 3 32); KPromote (repeat 2 32); KInsert ex_c].
Proof. split; [vm_compute; auto|]. vm_compute. intros [H|[H|[H|[]]]]; discriminate H. Qed.
Theorem C15_no_key_invented : forall ops kr k, In k (ring_keys (kr_run kr ops)) ->
  In k (ring_keys kr) \/ In (KInsert k) ops.
Proof. exact kr_run_origin. Qed.
Print Assumptions C15_no_key_invented.
Example C15_no_key_invented_ex : In ex_c (ring_keys (kr_run (keyring_new ex_a) [KInsert ex_c; KPromote (repeat 3 32)])).
Proof. vm_compute. auto. Qed.
Theorem C15_primary_stable : forall ops kr, (forall b, ~ In (KPromote b) ops) ->
  primary (kr_run kr ops) = primary kr.
Proof. exact kr_primary_stable. Qed.
Print Assumptions C15_primary_stable.
Example C15_primary_stable_ex : forall b, ~ In (KPromote b) [KInsert ex_b; KRemove (repeat 1 16)].
Proof. intros b [H|[H|[]]]; discriminate H. Qed.

(** C15, finding: the claim "the key named in a call is the one promoted or
    removed" is false when two ciphers share key bytes.  An AES-256 primary
    and a ChaCha20 secondary with the same 32 bytes may coexist; promoting
    those bytes reports success and changes nothing, and the secondary cannot
    be removed. *)
Theorem C15_named_key_promoted_refuted : exists p s,
  wf_key p /\ wf_key s /\ p <> s /\
  In s (secondaries (with_secondaries p [s])) /\
  promote (with_secondaries p [s]) (key_bytes s) = (with_secondaries p [s], Ok tt) /\
  remove_secondary (with_secondaries p [s]) (key_bytes s) = (with_secondaries p [s], Err IsPrimary).
Proof. exact same_bytes_witness. Qed.
Print Assumptions C15_named_key_promoted_refuted.
