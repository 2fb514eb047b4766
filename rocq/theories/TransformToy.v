(** A concrete set of backends for the examples: it meets every assumption the
    transform theorems make (it is not a model of any code). *)
From Verif Require Import Base BaseFacts LabelModel LabelFacts KeyringModel TransformModel TransformSpec.
Local Open Scope N_scope.

Definition guard (y : bytes) : option bytes := if forallb (fun b => b <? 256) y then Some y else None.
(** Squeezes a leading run of eight zero bytes into one byte. *)
Definition toy_compress (t : byte) (x : bytes) : option bytes :=
  if bytes_eqb (btake 8 x) (repeat 0 8) then guard (1 :: bdrop 8 x) else guard (0 :: x).
Definition toy_decompress (t : byte) (p : bytes) (n : N) : option bytes :=
  match p with
  | 1 :: r => guard (repeat 0 8 ++ r)
  | 0 :: r => guard r
  | _ => None
  end.
(** The "tag" is the first sixteen bytes of the key, bound to the associated data
    by appending it to the key. *)
Definition toy_tag (k : secret_key) (aad : bytes) : bytes := btake 16 (key_bytes k ++ repeat 0 16).
Definition toy_seal (k : secret_key) (n pt aad : bytes) : option bytes := guard (pt ++ toy_tag k aad).
Definition toy_open (k : secret_key) (n ct aad : bytes) : option bytes :=
  let m := blen ct - 16 in
  if bytes_eqb (bdrop m ct) (toy_tag k aad) then guard (btake m ct) else None.
Definition toy : backends :=
  mkBackends (fun _ p => fold_left N.add p 0) toy_compress toy_decompress toy_seal toy_open.

Lemma guard_wf x y : guard x = Some y -> y = x /\ wf_bytes y.
Proof.
  unfold guard. destruct (forallb (fun b => b <? 256) x) eqn:F; [|discriminate]. intros [= <-].
  split; [reflexivity|]. apply Forall_forall. intros b Hb.
  rewrite forallb_forall in F. apply F in Hb. apply N.ltb_lt in Hb. exact Hb.
Qed.
Lemma wf_guard x : wf_bytes x -> guard x = Some x.
Proof.
  intros H. unfold guard. assert (forallb (fun b => b <? 256) x = true) as ->; [|reflexivity].
  apply forallb_forall. intros b Hb. apply N.ltb_lt. unfold wf_bytes in H. rewrite Forall_forall in H. apply (H b Hb).
Qed.
Lemma toy_wf : wf_backends toy.
Proof.
  repeat split; cbn [b_compress b_decompress b_seal b_open toy].
  - intros t x y. unfold toy_compress. destruct (bytes_eqb _ _); intros H; apply guard_wf in H; tauto.
  - intros t x n y. unfold toy_decompress. destruct x as [|[|[p|p|]] r]; try discriminate; intros H; apply guard_wf in H; tauto.
  - intros k n x a y H. apply guard_wf in H. tauto.
  - intros k n x a y. unfold toy_open. destruct (bytes_eqb _ _); [|discriminate]. intros H. apply guard_wf in H. tauto.
Qed.
Lemma toy_lossless : lossless toy.
Proof.
  intros t x p. cbn [b_compress b_decompress toy]. unfold toy_compress.
  destruct (bytes_eqb_spec (btake 8 x) (repeat 0 8)) as [E|]; intros H; apply guard_wf in H as [-> W];
    rewrite wf_bytes_cons in W; cbn [toy_decompress].
  - rewrite <- E, btake_bdrop. apply wf_guard. rewrite <- (btake_bdrop 8 x). apply wf_bytes_app.
    split; [|tauto]. rewrite E. repeat constructor.
  - apply wf_guard. tauto.
Qed.
Lemma toy_tag_len k a : blen (toy_tag k a) = 16.
Proof.
  unfold toy_tag. rewrite blen_btake, blen_app. change (blen (repeat 0 16)) with 16. lia.
Qed.
Lemma toy_aead : aead_correct toy.
Proof.
  intros k n pt aad ct Hn. cbn [b_seal b_open toy]. unfold toy_seal, toy_open. intros H.
  apply guard_wf in H as [-> W]. rewrite blen_app, toy_tag_len. split; [|reflexivity].
  replace (blen pt + 16 - 16) with (blen pt) by lia.
  rewrite bdrop_app_exact, btake_app_exact by reflexivity.
  destruct (bytes_eqb_spec (toy_tag k aad) (toy_tag k aad)); [|congruence].
  apply wf_guard. apply wf_bytes_app in W. tauto.
Qed.
Lemma toy_unambiguous kr k nonce pt : unambiguous toy kr k nonce pt.
Proof.
  intros ct k' S _. cbn [b_seal b_open toy] in *. unfold toy_seal, toy_open in *.
  apply guard_wf in S as [-> W]. rewrite blen_app, toy_tag_len.
  replace (blen pt + 16 - 16) with (blen pt) by lia.
  rewrite bdrop_app_exact, btake_app_exact by reflexivity.
  destruct (bytes_eqb _ _); [right|left; reflexivity]. apply wf_guard. apply wf_bytes_app in W. tauto.
Qed.
Lemma toy_rings s r n : In (primary s) (ring_keys r) -> blen n = 12 ->
  forall w, ring_compatible toy (Some s) (Some r) (Some n) w.
Proof.
  intros Hin Hn w. split; [exact Hin|]. intros n' [= <-]. split; [exact Hn|apply toy_unambiguous].
Qed.
