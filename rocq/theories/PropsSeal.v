(** Property C96: with encryption on, a stream coordinator sends label headers
    and sealed payloads only. *)
From Verif Require Import CodecModel.
From Verif Require Import Base BaseFacts MapFacts EndpointInv PropsWire TransformToy PropsTransform CoordModel CoordSeal PropsCoord.
Local Open Scope N_scope.

(** ** C96 *)
(** the encryption options the driver set last *)
Definition last_keys (kr : option keyring) (os : list qop) : option keyring :=
  fold_left (fun k o => match o with QEncrypt k' => k' | _ => k end) os kr.
(** whatever was called before, the bytes given out are pieces, each the header
    of the label or the length and body of a payload sealed with the primary key
    of the options in force at that moment *)
Theorem C96_only_sealed_leaves : forall C Q W B rnd e kr os x to bs ring,
  last_keys kr os = Some ring ->
  snd (q_step C Q W B rnd (fst (q_run C Q W B rnd (coord_new e kr) os)) QPollBytes) = [YBytes x to bs] ->
  exists pieces, bs = concat pieces /\ Forall (fun u =>
    (exists l, qc_label Q = Some l /\ u = 12 :: blen l mod 256 :: l) \/
    (exists nonce body p, encode_encrypted_frame B (key_algorithm (primary ring)) (primary ring) nonce body = Ok p /\
       u = encode_varint_u32 (blen p mod 2 ^ 32) ++ p)) pieces.
Proof.
  intros C Q W B rnd e kr os x to bs ring LK O.
  assert (T0 : tidy Q B kr (coord_new e kr)) by (constructor; cbn; auto).
  pose proof (tidy_run C Q W B rnd os kr _ T0) as T. set (q := fst (q_run _ _ _ _ _ _ _)) in *. clearbody q.
  change (fold_left keys_after os kr) with (last_keys kr os) in T. rewrite LK in T. destruct T as [_ _ TO]. cbn [q_step] in O. unfold poll_bytes in O.
  destruct (q_out q) as [|t r]; cbn in O; [discriminate|]. injection O as _ _ <-. inversion TO as [|? ? (us & E & F)]; subst. exists us. split; [exact E|]. eapply Forall_impl; [|exact F].
  intros u [P|P]; [left; exact P|right; exact P].
Qed.
(** the keys in force are those set last *)
Theorem C96_keys_in_force : forall C Q W B rnd e kr os, q_kr (fst (q_run C Q W B rnd (coord_new e kr) os)) = last_keys kr os.
Proof.
  intros C Q W B rnd e kr os. assert (T0 : tidy Q B kr (coord_new e kr)) by (constructor; cbn; auto). exact (ty_kr _ _ _ _ (tidy_run C Q W B rnd os kr _ T0)).
Qed.
(** node 1 begins in the clear, turns encryption on and begins again: what it
    gives out is its label and one sealed payload, the same that a node encrypted
    from the start gives out *)
Definition qs_case := [QPushPull 102 true 10; QEncrypt (Some tr_s); QPushPull 102 true 12; QPollAction].
Example C96_case : last_keys None qs_case = Some tr_s /\
  (exists bs p, snd (q_step (qe_cfg 1) qe_q ew toy qe_rnd (fst (qe 1 None qs_case)) QPollBytes) = [YBytes 1 102 bs] /\
     bs = [12; 1; 97] ++ encode_varint_u32 (blen p) ++ p /\ hd 0 p = 13 /\ 40 <= blen p) /\
  snd (q_step (qe_cfg 1) qe_q ew toy qe_rnd (fst (qe 1 None [QPushPull 102 true 10])) QPollBytes) <> snd (q_step (qe_cfg 1) qe_q ew toy qe_rnd (fst (qe 1 (Some tr_s) [QPushPull 102 true 10])) QPollBytes).
Proof.
  split; [reflexivity|]. split.
  - set (bs := match snd (q_step (qe_cfg 1) qe_q ew toy qe_rnd (fst (qe 1 None qs_case)) QPollBytes) with [YBytes _ _ b] => b | _ => [] end).
    exists bs, (bdrop 4 bs). repeat split; vm_compute; try reflexivity. discriminate.
  - vm_compute. discriminate.
Qed.
Print Assumptions C96_only_sealed_leaves.
Print Assumptions C96_keys_in_force.
