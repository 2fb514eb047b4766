(** Proofs about the encodings of ids and addresses. *)
From Coq Require Import ZArith.
From Verif Require Import Base BaseFacts CodecModel CodecSpec CodecFacts LabelModel LabelFacts MsgModel WireModel WireSpec WireFacts DataModel DataSpec.
Local Open Scope N_scope.

(** * Varints *)
Lemma wbits_fuel w v : v < 2 ^ wbits w -> v < 128 ^ N.of_nat (S (wfuel w)).
Proof. intros H. apply (N.lt_le_trans _ _ _ H). destruct w; vm_compute; discriminate. Qed.
Lemma uv_dec_enc w v r : v < 2 ^ wbits w -> uv_dec w (uv_enc w v ++ r) = Ok (blen (uv_enc w v), v).
Proof.
  intros H. unfold uv_dec, uv_enc. rewrite pb_dec_enc; [|apply wbits_fuel, H|lia].
  destruct (N.ltb_spec v (2 ^ wbits w)); [|lia]. rewrite blen_app. f_equal. f_equal. lia.
Qed.
Lemma pb_dec_prefix f : forall g v p q, pb_enc f v = p ++ q -> q <> [] -> pb_dec g p = None.
Proof.
  induction f as [|f IH]; intros g v p q E Q.
  - cbn in E. destruct p as [|x p]; [destruct g; reflexivity|]. injection E as <- E. symmetry in E. apply app_eq_nil in E. tauto.
  - cbn [pb_enc] in E. destruct p as [|x p]; [destruct g; reflexivity|]. destruct (N.leb_spec 128 v).
    + injection E as <- E. destruct g; [reflexivity|]. cbn [pb_dec]. destruct (N.ltb_spec (v mod 128 + 128) 128); [lia|].
      rewrite (IH g _ _ _ E Q). reflexivity.
    + injection E as <- E. symmetry in E. apply app_eq_nil in E. tauto.
Qed.
Lemma uv_dec_prefix w w' v p q : uv_enc w v = p ++ q -> q <> [] -> exists e, uv_dec w' p = Err e.
Proof.
  intros E Q. unfold uv_dec. rewrite (pb_dec_prefix _ (S (wfuel w')) _ _ _ E Q). destruct (_ <? _); eauto.
Qed.
Lemma uv_len_enc w v : v < 2 ^ wbits w -> blen (uv_enc w v) = uv_len v.
Proof. intros H. apply pb_enc_len, wbits_fuel, H. Qed.
Lemma uv_wf w v : v < 2 ^ wbits w -> wf_bytes (uv_enc w v).
Proof. intros H. apply pb_enc_wf, wbits_fuel, H. Qed.
Lemma uv_pb w v : v < 2 ^ wbits w -> v < two64 -> uv_enc w v = pb_varint v.
Proof.
  intros H H2. unfold uv_enc, pb_varint.
  rewrite (pb_enc_codec (wfuel w) 9 v (wbits_fuel w v H)) by (apply (N.lt_le_trans _ _ _ H2); vm_compute; discriminate).
  symmetry. apply pb_enc_codec; apply (N.lt_le_trans _ _ _ H2); vm_compute; discriminate.
Qed.
Lemma zz_bound w z : (- 2 ^ (Z.of_N (wbits w) - 1) <= z < 2 ^ (Z.of_N (wbits w) - 1))%Z -> zz z < 2 ^ wbits w.
Proof.
  intros H. assert (2 * 2 ^ (Z.of_N (wbits w) - 1) = Z.of_N (2 ^ wbits w))%Z as E by (destruct w; reflexivity).
  unfold zz. destruct (Z.ltb_spec z 0); lia.
Qed.
Lemma unzz_zz z : unzz (zz z) = z.
Proof.
  unfold unzz, zz. destruct (Z.ltb_spec z 0).
  - replace (Z.to_N (-2 * z - 1)) with (1 + 2 * Z.to_N (- z - 1)) by lia.
    rewrite N.even_add_mul_2. change (N.even 1) with false. cbn match.
    rewrite (N.mul_comm 2), N.div_add by lia. change (1 / 2) with 0. lia.
  - replace (Z.to_N (2 * z)) with (0 + 2 * Z.to_N z) by lia. rewrite N.even_add_mul_2. change (N.even 0) with true. cbn match.
    rewrite (N.mul_comm 2), N.div_add by lia. change (0 / 2) with 0. lia.
Qed.

(** * One value *)
Definition writes (len : N) (enc : N -> result eerr bytes) (b : bytes) : Prop :=
  (forall cap, len <= cap -> enc cap = Ok b) /\ (forall cap, cap < len -> exists e, enc cap = Err e) /\
  blen b = len /\ wf_bytes b.
Definition reads {V} (dec : bytes -> result derr (N * V)) (v : V) (b : bytes) : Prop :=
  (forall r, dec (b ++ r) = Ok (blen b, v)) /\ (forall p q, b = p ++ q -> q <> [] -> exists e, dec p = Err e).
Definition selfd (t : dty) : Prop := match t with DStr | DBytes | DPair _ _ => False | _ => True end.
Definition good (t : dty) (v : den t) (b : bytes) : Prop :=
  writes (dlen t v) (fun cap => dencode t cap v) b /\ ddecode t b = Ok (blen b, v) /\
  (selfd t -> reads (ddecode t) v b).

Lemma put_writes b : wf_bytes b -> writes (blen b) (fun cap => put cap b) b.
Proof.
  intros W. unfold writes, put. split; [|split; [|split; [reflexivity|exact W]]]; intros cap H;
    destruct (N.ltb_spec cap (blen b)); try lia; eauto.
Qed.
Lemma reads_whole {V} dec (v : V) b : reads dec v b -> dec b = Ok (blen b, v).
Proof. intros [R _]. specialize (R []). rewrite app_nil_r in R. exact R. Qed.
Lemma prefix_len {A} (b p q : list A) : b = p ++ q -> q <> [] -> blen p < blen b.
Proof. intros -> Q. rewrite blen_app. destruct q; [congruence|]. rewrite blen_cons. lia. Qed.
Lemma fix_reads n b : blen b = n -> reads (fix_dec n) b b.
Proof.
  intros L. split.
  - intros r. unfold fix_dec. rewrite blen_app. destruct (N.ltb_spec (blen b + blen r) n); [lia|].
    rewrite btake_app_exact by congruence. rewrite L. reflexivity.
  - intros p q E Q. apply prefix_len in E; [|exact Q]. unfold fix_dec. destruct (N.ltb_spec (blen p) n); [eauto|lia].
Qed.
Lemma uv_reads w v : v < 2 ^ wbits w -> reads (uv_dec w) v (uv_enc w v).
Proof. intros H. split; [intros r; apply uv_dec_enc, H|]. intros p q E Q. eapply uv_dec_prefix; eauto. Qed.
Lemma one_prefix {A} (x : A) p q : [x] = p ++ q -> q <> [] -> p = [].
Proof. intros E Q. destruct p as [|y p]; [reflexivity|]. injection E as _ E. symmetry in E. apply app_eq_nil in E. tauto. Qed.
Lemma nth_app_at {A} (l r : list A) d k : nth (length l + k) (l ++ r) d = nth k r d.
Proof. rewrite app_nth2 by lia. f_equal. lia. Qed.
Lemma sa_reads n o p : blen o = n -> p < 65536 -> reads (sa_dec n) (o, p) (o ++ u16_to_be p).
Proof.
  intros L H. assert (blen (o ++ u16_to_be p) = n + 2) as L2 by (rewrite blen_app, L; reflexivity). split.
  - intros r. unfold sa_dec. rewrite blen_app, L2. destruct (N.ltb_spec (n + 2 + blen r) (n + 2)); [lia|].
    f_equal. f_equal. rewrite <- app_assoc. rewrite btake_app_exact by congruence.
    assert (N.to_nat n = length o) as -> by (unfold blen in L; lia).
    rewrite <- (Nat.add_0_r (length o)) at 1. rewrite !nth_app_at. cbn [nth app u16_to_be].
    rewrite u16_be_roundtrip by assumption. reflexivity.
  - intros x q E Q. apply prefix_len in E; [|exact Q]. unfold sa_dec. destruct (N.ltb_spec (blen x) (n + 2)); [eauto|lia].
Qed.
Lemma is_char_iff v : is_char v = true <-> v < 55296 \/ 57343 < v < 1114112.
Proof.
  unfold is_char. rewrite orb_true_iff, andb_true_iff, !N.ltb_lt. reflexivity.
Qed.
Lemma writes_ext len len' enc enc' b : len = len' -> (forall cap, enc cap = enc' cap) -> writes len enc b -> writes len' enc' b.
Proof.
  intros <- E (A & B & C). split; [intros cap H; rewrite <- E; apply A, H|]. split; [intros cap H; rewrite <- E; apply B, H|exact C].
Qed.
Lemma blob_writes b : wf_bytes b -> blen b <= u32_max ->
  writes (blen b) (fun cap => match b with [] => Ok [] | _ => if cap <? blen b then Err EInsufficient else if u32_max <? blen b then Err ETooLarge else Ok b end) b.
Proof.
  intros W L. split; [|split; [|split; [reflexivity|exact W]]]; intros cap H; destruct b as [|x b]; cbn match.
  - reflexivity.
  - destruct (N.ltb_spec cap (blen (x :: b))); [lia|]. destruct (N.ltb_spec u32_max (blen (x :: b))); [lia|reflexivity].
  - rewrite blen_nil in H. lia.
  - destruct (N.ltb_spec cap (blen (x :: b))); [eauto|lia].
Qed.

(** * Length prefixes *)
Lemma ld_good t v b : good t v b -> dlen t v <= u32_max ->
  writes (ld_len t (dlen t v)) (ld_enc t (dlen t v) (fun c => dencode t c v)) (delimited t b) /\
  reads (ld_dec t (ddecode t)) v (delimited t b).
Proof.
  intros ((A & B & L & W) & D & R) S. unfold ld_len, ld_enc, ld_dec, delimited.
  destruct (N.eqb_spec (wtnum t) 2) as [E|E]; cbn [negb].
  2:{ split; [split; [exact A|]; split; [exact B|]; split; [exact L|exact W]|]. apply R. destruct t; cbn in E |- *; congruence || exact Logic.I. }
  assert (dlen t v < 2 ^ wbits W32) as S32 by (change (2 ^ wbits W32) with (u32_max + 1); lia).
  assert (dlen t v < two64) as S64 by (unfold two64, u32_max in *; lia).
  assert (dlen t v mod two32 = dlen t v) as M by (apply N.mod_small; unfold two32, u32_max in *; lia). rewrite M.
  rewrite L. rewrite <- (uv_pb W32) by assumption. set (p := uv_enc W32 (dlen t v)) in *.
  assert (blen p = uv_len (dlen t v)) as Lp by apply uv_len_enc, S32. split.
  - split; [|split; [|split]].
    + intros cap H. destruct (N.ltb_spec u32_max (dlen t v)); [lia|]. unfold put.
      destruct (N.ltb_spec cap (blen p)); [lia|]. rewrite A by lia. reflexivity.
    + intros cap H. destruct (N.ltb_spec u32_max (dlen t v)); [eauto|]. unfold put.
      destruct (N.ltb_spec cap (blen p)); [eauto|]. destruct (B (cap - blen p)) as [e ->]; [lia|eauto].
    + rewrite blen_app. lia.
    + apply wf_app. split; [apply uv_wf, S32|exact W].
  - split.
    + intros r. rewrite <- app_assoc. unfold p at 1. rewrite uv_dec_enc by exact S32. fold p.
      rewrite !blen_app. destruct (N.ltb_spec (blen p + (blen b + blen r)) (blen p + dlen t v)); [lia|].
      rewrite bdrop_app_exact by reflexivity. rewrite btake_app_exact by congruence. rewrite D.
      rewrite L, N.eqb_refl. reflexivity.
    + intros x q Q NQ.
      destruct (N.ltb_spec (blen x) (blen p)) as [H|H].
      * assert (exists p2, p = x ++ p2 /\ p2 <> []) as (p2 & E2 & N2).
        { exists (bdrop (blen x) p). split.
          - assert (btake (blen x) (p ++ b) = x) as T by (rewrite Q; apply btake_app_exact; reflexivity).
            rewrite btake_app in T. replace (blen x - blen p) with 0 in T by lia. rewrite btake_0, app_nil_r in T.
            rewrite <- T at 1. symmetry. apply btake_bdrop.
          - intros E0. pose proof (blen_bdrop (blen x) p) as E1. rewrite E0, blen_nil in E1. lia. }
        destruct (uv_dec_prefix W32 W32 _ x p2 E2 N2) as [e ->]. eauto.
      * assert (exists x2, x = p ++ x2) as [x2 ->].
        { exists (bdrop (blen p) x). rewrite <- (btake_bdrop (blen p) x) at 1. f_equal.
          assert (btake (blen p) (p ++ b) = p) as T by (apply btake_app_exact; reflexivity). rewrite Q in T.
          rewrite btake_app in T. replace (blen p - blen x) with 0 in T by lia. rewrite btake_0, app_nil_r in T. exact T. }
        unfold p at 1. rewrite uv_dec_enc by exact S32. fold p.
        apply prefix_len in Q; [|exact NQ]. rewrite !blen_app in Q. rewrite blen_app.
        destruct (N.ltb_spec (blen p + blen x2) (blen p + dlen t v)); [eauto|lia].
Qed.

(** * Pairs *)
Lemma wmerge_eq ty tag : ty < 5 -> tag = 1 \/ tag = 2 -> wmerge ty tag = 8 * ty + tag.
Proof.
  intros H T. assert (ty = 0 \/ ty = 1 \/ ty = 2 \/ ty = 3 \/ ty = 4) as C by lia.
  destruct T as [-> | ->]; destruct C as [->|[->|[->|[->| ->]]]]; reflexivity.
Qed.
Lemma wtnum_lt t : wtnum t < 5.
Proof. destruct t; cbn; lia. Qed.
Lemma keys_differ a b : key1 a <> key2 b.
Proof. unfold key1, key2. lia. Qed.
Lemma key1_merge t : wmerge (wtnum t) 1 = key1 t. Proof. apply wmerge_eq; [apply wtnum_lt|auto]. Qed.
Lemma key2_merge t : wmerge (wtnum t) 2 = key2 t. Proof. apply wmerge_eq; [apply wtnum_lt|auto]. Qed.

Section Loop.
Context {A B : Type} (ka kb : byte) (dA : bytes -> result derr (N * A)) (dB : bytes -> result derr (N * B)).
Context (HK : ka <> kb).
Notation loop := (fun f => pair_loop f ka kb dA dB).
Lemma loop_a f v fa b off r : reads dA v fa -> loop (S f) None b off (ka :: fa ++ r) = loop f (Some v) b (off + blen (ka :: fa)) r.
Proof.
  intros [R _]. cbn [pair_loop]. rewrite N.eqb_refl, R, bdrop_app_exact by reflexivity. rewrite blen_cons.
  f_equal. lia.
Qed.
Lemma loop_b f v fb a off r : reads dB v fb -> loop (S f) a None off (kb :: fb ++ r) = loop f a (Some v) (off + blen (kb :: fb)) r.
Proof.
  intros [R _]. cbn [pair_loop]. destruct (N.eqb_spec kb ka); [congruence|]. rewrite N.eqb_refl, R, bdrop_app_exact by reflexivity.
  rewrite blen_cons. f_equal. lia.
Qed.
Lemma fuel_mono f : forall g a b off l x, (f <= g)%nat -> (length l <= f)%nat -> loop f a b off l = x -> loop g a b off l = x.
Proof.
  induction f as [|f IH]; intros g a b off l x G L <-.
  - destruct l; [destruct g; reflexivity|cbn in L; lia].
  - destruct g as [|g]; [lia|]. destruct l as [|k r]; [reflexivity|]. cbn [pair_loop]. cbn [length] in L.
    assert (forall n, length (bdrop n r) <= f)%nat as LD by (intros n; unfold bdrop; rewrite skipn_length; lia).
    destruct (k =? ka).
    { destruct a; [reflexivity|]. destruct (dA r) as [[n v]|]; [|reflexivity]. apply IH; [lia|apply LD|reflexivity]. }
    destruct (k =? kb).
    { destruct b; [reflexivity|]. destruct (dB r) as [[n v]|]; [|reflexivity]. apply IH; [lia|apply LD|reflexivity]. }
    destruct (wskip (k :: r)) as [n|e] eqn:E; [|reflexivity]. apply IH; [lia| |reflexivity].
    assert (1 <= n) as N1.
    { revert E. cbn [wskip]. destruct (fst (wsplit k)) as [|q]; [|destruct q as [[q|q|]|[q|[q|q|]|]|]]; try discriminate.
      - destruct (_ <? _); [|discriminate]. intros [= <-]. lia.
      - destruct (5 <=? _); [|discriminate]. intros [= <-]. lia.
      - destruct (9 <=? _); [|discriminate]. intros [= <-]. lia.
      - destruct r; [discriminate|]. destruct (uv_dec W32 _) as [[m l]|]; [|discriminate]. destruct (_ <=? _); [|discriminate]. intros [= <-]. lia.
      - destruct (uv_dec W64 r) as [[m l]|]; [|discriminate]. intros [= <-]. lia. }
    rewrite bdrop_cons by lia. apply LD.
Qed.
Lemma wsplit_div k : fst (wsplit k) = k / 8.
Proof. unfold wsplit. cbn [fst]. rewrite N.shiftr_div_pow2. reflexivity. Qed.
Lemma wskip_foreign u r : foreign ka kb u -> wskip (u ++ r) = Ok (blen u).
Proof.
  intros F. inversion F as [k b K D _ _|k v K D _ _ V|k b K D _ _ V|k b K D _ _ V|k b K D _ _ V]; subst u;
    cbn [app wskip]; rewrite wsplit_div, D; cbn match.
  - rewrite blen_cons. destruct (N.ltb_spec 0 (1 + blen r)); [reflexivity|lia].
  - rewrite <- (uv_pb W64) by assumption. rewrite uv_dec_enc by assumption. rewrite blen_cons. reflexivity.
  - assert (blen b < 2 ^ wbits W32) as S32 by (change (2 ^ wbits W32) with (u32_max + 1); lia).
    assert (blen b < two64) as S64 by (unfold two64, u32_max in *; lia).
    rewrite <- (uv_pb W32) by assumption. rewrite <- app_assoc.
    destruct (uv_enc W32 (blen b) ++ b ++ r) as [|y l] eqn:E.
    { apply app_eq_nil in E. destruct E as [E _]. exfalso. apply (pb_enc_nonnil _ _ E). }
    rewrite <- E. rewrite uv_dec_enc by assumption. rewrite !blen_cons, !blen_app.
    destruct (N.leb_spec (1 + blen (uv_enc W32 (blen b)) + blen b) (1 + (blen (uv_enc W32 (blen b)) + (blen b + blen r)))); [|lia].
    f_equal. lia.
  - rewrite !blen_cons, blen_app, V. destruct (N.leb_spec 5 (1 + (4 + blen r))); [reflexivity|lia].
  - rewrite !blen_cons, blen_app, V. destruct (N.leb_spec 9 (1 + (8 + blen r))); [reflexivity|lia].
Qed.
Lemma loop_skip f u a b off r : foreign ka kb u -> loop (S f) a b off (u ++ r) = loop f a b (off + blen u) r.
Proof.
  intros F. pose proof (wskip_foreign u r F) as W.
  assert (exists k t, u = k :: t /\ k <> ka /\ k <> kb) as (k & t & -> & K1 & K2) by (inversion F; eauto 6).
  cbn [app pair_loop]. destruct (N.eqb_spec k ka); [congruence|]. destruct (N.eqb_spec k kb); [congruence|].
  cbn [app] in W. rewrite W. f_equal. change (k :: t ++ r) with ((k :: t) ++ r). apply bdrop_app_exact. reflexivity.
Qed.
Lemma loop_skips us : forall f a b off r, Forall (foreign ka kb) us ->
  loop (length us + f)%nat a b off (concat us ++ r) = loop f a b (off + blen (concat us)) r.
Proof.
  induction us as [|u us IH]; intros f a b off r H.
  - cbn. rewrite N.add_0_r. reflexivity.
  - inversion_clear H as [|? ? F FS]. cbn [length concat Nat.add]. rewrite <- app_assoc, loop_skip by assumption.
    rewrite IH by assumption. rewrite blen_app. f_equal. lia.
Qed.
End Loop.
Lemma ddecode_fuel a b l g : (length l <= g)%nat ->
  ddecode (DPair a b) l = pair_loop g (key1 a) (key2 b) (ld_dec a (ddecode a)) (ld_dec b (ddecode b)) None None 0 l.
Proof.
  intros G. cbn [ddecode]. rewrite key1_merge, key2_merge. symmetry. eapply fuel_mono; [apply keys_differ|exact G|reflexivity|reflexivity].
Qed.

(** both orders, with foreign fields anywhere between *)
Lemma pair_fields a b va vb fa fb us1 us2 us3 :
  reads (ld_dec a (ddecode a)) va fa -> reads (ld_dec b (ddecode b)) vb fb ->
  Forall (foreign (key1 a) (key2 b)) us1 -> Forall (foreign (key1 a) (key2 b)) us2 -> Forall (foreign (key1 a) (key2 b)) us3 ->
  (let l := concat us1 ++ (key1 a :: fa) ++ concat us2 ++ (key2 b :: fb) ++ concat us3 in
   ddecode (DPair a b) l = Ok (blen l, (va, vb))) /\
  (let l := concat us1 ++ (key2 b :: fb) ++ concat us2 ++ (key1 a :: fa) ++ concat us3 in
   ddecode (DPair a b) l = Ok (blen l, (va, vb))).
Proof.
  intros RA RB F1 F2 F3. pose proof (keys_differ a b) as K.
  split; intros l;
    rewrite (ddecode_fuel a b l (length us1 + S (length us2 + S (length us3 + length l))) ltac:(lia)); unfold l at 2;
    rewrite loop_skips by assumption; cbn [app].
  - rewrite (loop_a (key1 a) (key2 b)) with (v := va) by assumption. rewrite loop_skips by assumption.
    rewrite (loop_b (key1 a) (key2 b)) with (v := vb) by assumption. rewrite <- (app_nil_r (concat us3)) at 1.
    rewrite loop_skips by assumption. unfold l. cbn [app]. repeat (rewrite ?blen_app, ?blen_cons).
    destruct (length _); cbn [pair_loop]; (f_equal; f_equal; lia).
  - rewrite (loop_b (key1 a) (key2 b)) with (v := vb) by assumption. rewrite loop_skips by assumption.
    rewrite (loop_a (key1 a) (key2 b)) with (v := va) by assumption. rewrite <- (app_nil_r (concat us3)) at 1.
    rewrite loop_skips by assumption. unfold l. cbn [app]. repeat (rewrite ?blen_app, ?blen_cons).
    destruct (length _); cbn [pair_loop]; (f_equal; f_equal; lia).
Qed.

(** * Every value *)
Lemma pair_good a b va vb ba bb : good a va ba -> good b vb bb -> dlen (DPair a b) (va, vb) <= u32_max ->
  good (DPair a b) (va, vb) (key1 a :: delimited a ba ++ key2 b :: delimited b bb).
Proof.
  intros GA GB S.
  assert (dlen a va <= u32_max /\ dlen b vb <= u32_max) as [SA SB].
  { cbn [dlen fst snd] in S. destruct (wtnum a =? 2), (wtnum b =? 2); lia. }
  destruct (ld_good a va ba GA SA) as [(A1 & A2 & A3 & A4) RA]. destruct (ld_good b vb bb GB SB) as [(B1 & B2 & B3 & B4) RB].
  change (dlen (DPair a b) (va, vb)) with (1 + ld_len a (dlen a va) + 1 + ld_len b (dlen b vb)) in S.
  split; [split; [|split; [|split]]|split].
  - intros cap H. change (dlen (DPair a b) (va, vb)) with (1 + ld_len a (dlen a va) + 1 + ld_len b (dlen b vb)) in H.
    cbn [dencode fst snd]. destruct (N.eqb_spec cap 0); [lia|]. rewrite A1 by lia.
    destruct (N.leb_spec cap (1 + blen (delimited a ba))); [lia|]. rewrite B1 by lia.
    rewrite key1_merge, key2_merge. reflexivity.
  - intros cap H. change (dlen (DPair a b) (va, vb)) with (1 + ld_len a (dlen a va) + 1 + ld_len b (dlen b vb)) in H.
    cbn [dencode fst snd]. destruct (N.eqb_spec cap 0); [eauto|].
    destruct (N.ltb_spec (cap - 1) (ld_len a (dlen a va))) as [Q|Q]; [destruct (A2 _ Q) as [e ->]; eauto|]. rewrite A1 by lia.
    destruct (N.leb_spec cap (1 + blen (delimited a ba))); [eauto|].
    destruct (B2 (cap - 1 - blen (delimited a ba) - 1)) as [e ->]; [lia|eauto].
  - change (dlen (DPair a b) (va, vb)) with (1 + ld_len a (dlen a va) + 1 + ld_len b (dlen b vb)).
    rewrite blen_cons, blen_app, blen_cons. lia.
  - pose proof (wtnum_lt a). pose proof (wtnum_lt b).
    constructor; [unfold is_byte, key1; lia|]. apply wf_app. split; [exact A4|]. constructor; [unfold is_byte, key2; lia|exact B4].
  - destruct (pair_fields a b va vb (delimited a ba) (delimited b bb) [] [] [] RA RB) as [E _]; try constructor.
    cbv zeta in E. cbn [concat app] in E. rewrite app_nil_r in E. exact E.
  - intros [].
Qed.

Lemma i8_byte z : (-128 <= z < 128)%Z -> Z.to_N (z mod 256) < 256 /\
  (if Z.to_N (z mod 256) <? 128 then Z.of_N (Z.to_N (z mod 256)) else (Z.of_N (Z.to_N (z mod 256)) - 256)%Z) = z.
Proof.
  intros H. assert (z mod 256 = if (z <? 0) then z + 256 else z)%Z as ->.
  { destruct (Z.ltb_spec z 0); symmetry; [apply (Z.mod_unique _ _ (-1))|apply (Z.mod_unique _ _ 0)]; lia. }
  destruct (Z.ltb_spec z 0); split; try lia.
  - destruct (N.ltb_spec (Z.to_N (z + 256)) 128); lia.
  - destruct (N.ltb_spec (Z.to_N z) 128); lia.
Qed.
Lemma blen_len {A} (l : list A) n : blen l = N.of_nat n <-> length l = n.
Proof. unfold blen. lia. Qed.

Lemma cons_prefix {A} (x : A) b p q : x :: b = p ++ q -> q <> [] -> p = [] \/ exists p', p = x :: p' /\ b = p' ++ q.
Proof. intros E Q. destruct p as [|y p]; [auto|]. injection E as <- E. eauto. Qed.
Lemma ip4_reads o : blen o = 4 -> reads (ddecode DIp) (inl o) (0 :: o).
Proof.
  intros L. destruct (fix_reads 4 o L) as [R1 R2]. split.
  - intros r. cbn [app ddecode]. rewrite R1, blen_cons, (N.add_comm 1). reflexivity.
  - intros p q E Q. destruct (cons_prefix _ _ _ _ E Q) as [->|(p' & -> & E')]; [cbn; eauto|].
    cbn [ddecode]. destruct (R2 p' q E' Q) as [e ->]. eauto.
Qed.
Lemma ip6_reads o : blen o = 16 -> reads (ddecode DIp) (inr o) (1 :: o).
Proof.
  intros L. destruct (fix_reads 16 o L) as [R1 R2]. split.
  - intros r. cbn [app ddecode]. rewrite R1, blen_cons, (N.add_comm 1). reflexivity.
  - intros p q E Q. destruct (cons_prefix _ _ _ _ E Q) as [->|(p' & -> & E')]; [cbn; eauto|].
    cbn [ddecode]. destruct (R2 p' q E' Q) as [e ->]. eauto.
Qed.
Lemma sa6_reads o p : blen o = 16 -> p < 65536 -> reads (ddecode DSa6) (o, p, 0, 0) (o ++ u16_to_be p).
Proof.
  intros L H. destruct (sa_reads 16 o p L H) as [R1 R2]. split.
  - intros r. cbn [ddecode]. rewrite R1. reflexivity.
  - intros x q E Q. cbn [ddecode]. destruct (R2 x q E Q) as [e ->]. eauto.
Qed.
Lemma dsa4_reads o p : blen o = 4 -> p < 65536 -> reads (ddecode DSa) (V4 o p) (0 :: o ++ u16_to_be p).
Proof.
  intros L H. destruct (sa_reads 4 o p L H) as [R1 R2]. split.
  - intros r. cbn [app ddecode]. rewrite R1, blen_cons, (N.add_comm 1). reflexivity.
  - intros x q E Q. destruct (cons_prefix _ _ _ _ E Q) as [->|(p' & -> & E')]; [cbn; eauto|].
    cbn [ddecode]. destruct (R2 p' q E' Q) as [e ->]. eauto.
Qed.
Lemma dsa6_reads o p : blen o = 16 -> p < 65536 -> reads (ddecode DSa) (V6 o p 0 0) (1 :: o ++ u16_to_be p).
Proof.
  intros L H. destruct (sa_reads 16 o p L H) as [R1 R2]. split.
  - intros r. cbn [app ddecode]. rewrite R1, blen_cons, (N.add_comm 1). reflexivity.
  - intros x q E Q. destruct (cons_prefix _ _ _ _ E Q) as [->|(p' & -> & E')]; [cbn; eauto|].
    cbn [ddecode]. destruct (R2 p' q E' Q) as [e ->]. eauto.
Qed.

Lemma every_good t : forall v, dwf t v -> unscoped t v -> dlen t v <= u32_max -> exists b, good t v b.
Proof.
  induction t; cbn [den]; intros v W U S.
  - destruct W as [W1 W2]. exists v. split; [exact (blob_writes v W1 S)|]. cbn [ddecode]. rewrite W2. split; [reflexivity|]. intros [].
  - exists v. split; [exact (blob_writes v W S)|]. split; [reflexivity|]. intros [].
  - destruct W as [W1 W2]. exists v. cbn [dlen] in *. split; [|split].
    + split; [|split; [|split; assumption]]; intros cap H; cbn [dlen] in H; cbn [dencode];
        destruct (N.ltb_spec u32_max n); try lia; destruct (N.ltb_spec cap n); try lia; eauto.
    + exact (reads_whole _ _ _ (fix_reads n v W2)).
    + intros _. exact (fix_reads n v W2).
  - exists [v]. split; [exact (put_writes [v] ltac:(repeat constructor; exact W))|]. split; [reflexivity|]. intros _. split; [reflexivity|].
    intros p q E Q. rewrite (one_prefix _ _ _ E Q). cbn. eauto.
  - exists [if v then 1 else 0]. split; [|split].
    + refine (put_writes [if v then 1 else 0] _). destruct v; repeat constructor; unfold is_byte; lia.
    + destruct v; reflexivity.
    + intros _. split; [destruct v; reflexivity|]. intros p q E Q. rewrite (one_prefix _ _ _ E Q). cbn. eauto.
  - destruct (i8_byte v W) as [B1 B2]. exists [Z.to_N (v mod 256)]. split; [|split].
    + refine (put_writes [Z.to_N (v mod 256)] _). repeat constructor. exact B1.
    + cbn [ddecode]. rewrite B2. reflexivity.
    + intros _. split; [intros r; cbn [ddecode app]; rewrite B2; reflexivity|]. intros p q E Q. rewrite (one_prefix _ _ _ E Q). cbn. eauto.
  - cbn [dwf] in W. pose proof (uv_reads w v W) as R. exists (uv_enc w v). split; [|split; [exact (reads_whole _ _ _ R)|intros _; exact R]].
    eapply writes_ext; [apply (uv_len_enc w v W)| |apply put_writes, uv_wf, W]. reflexivity.
  - cbn [dwf] in W. apply zz_bound in W. pose proof (uv_reads w (zz v) W) as [R1 R2]. exists (uv_enc w (zz v)).
    assert (reads (ddecode (DSInt w)) v (uv_enc w (zz v))) as R.
    { split; [intros r; cbn [ddecode]; rewrite R1, unzz_zz; reflexivity|].
      intros p q E Q. cbn [ddecode]. destruct (R2 p q E Q) as [e ->]. eauto. }
    split; [|split; [exact (reads_whole _ _ _ R)|intros _; exact R]].
    eapply writes_ext; [apply (uv_len_enc w _ W)| |apply put_writes, uv_wf, W]. reflexivity.
  - cbn [dwf] in W. pose proof (proj2 (is_char_iff v) W) as CH.
    assert (v < 2 ^ wbits W32) as W' by (change (2 ^ wbits W32) with 4294967296; lia).
    pose proof (uv_reads W32 v W') as [R1 R2]. exists (uv_enc W32 v).
    assert (reads (ddecode DChar) v (uv_enc W32 v)) as R.
    { split; [intros r; cbn [ddecode]; rewrite R1, CH; reflexivity|].
      intros p q E Q. cbn [ddecode]. destruct (R2 p q E Q) as [e ->]. eauto. }
    split; [|split; [exact (reads_whole _ _ _ R)|intros _; exact R]].
    eapply writes_ext; [apply (uv_len_enc W32 _ W')| |apply put_writes, uv_wf, W']. reflexivity.
  - destruct W as [W1 W2]. exists v. pose proof (fix_reads 4 v W2) as R. split; [|split; [exact (reads_whole _ _ _ R)|intros _; exact R]].
    eapply writes_ext; [exact W2| |apply put_writes, W1]. reflexivity.
  - destruct W as [W1 W2]. exists v. pose proof (fix_reads 8 v W2) as R. split; [|split; [exact (reads_whole _ _ _ R)|intros _; exact R]].
    eapply writes_ext; [exact W2| |apply put_writes, W1]. reflexivity.
  - destruct W as [W1 W2]. exists v. pose proof (fix_reads 4 v W2) as R. split; [|split; [exact (reads_whole _ _ _ R)|intros _; exact R]].
    eapply writes_ext; [exact W2| |apply put_writes, W1]. reflexivity.
  - destruct W as [W1 W2]. exists v. pose proof (fix_reads 16 v W2) as R. split; [|split; [exact (reads_whole _ _ _ R)|intros _; exact R]].
    eapply writes_ext; [exact W2| |apply put_writes, W1]. reflexivity.
  - destruct v as [o|o]; destruct W as [W1 W2].
    + exists (0 :: o). pose proof (ip4_reads o W2) as R. split; [|split; [|intros _; exact R]].
      * refine (writes_ext (blen (0 :: o)) _ (fun cap => put cap (0 :: o)) _ _ _ _ (put_writes (0 :: o) _)); [rewrite blen_cons, W2; reflexivity|reflexivity|].
        constructor; [unfold is_byte; lia|exact W1].
      * cbn [ddecode]. rewrite (reads_whole _ _ _ (fix_reads 4 o W2)), blen_cons, (N.add_comm 1). reflexivity.
    + exists (1 :: o). pose proof (ip6_reads o W2) as R. split; [|split; [|intros _; exact R]].
      * refine (writes_ext (blen (1 :: o)) _ (fun cap => put cap (1 :: o)) _ _ _ _ (put_writes (1 :: o) _)); [rewrite blen_cons, W2; reflexivity|reflexivity|].
        constructor; [unfold is_byte; lia|exact W1].
      * cbn [ddecode]. rewrite (reads_whole _ _ _ (fix_reads 16 o W2)), blen_cons, (N.add_comm 1). reflexivity.
  - destruct v as [o p]. destruct W as (W1 & W2 & W3). cbn [fst snd] in *. exists (o ++ u16_to_be p).
    split; [|split; [exact (reads_whole _ _ _ (sa_reads 4 o p W2 W3))|intros _; exact (sa_reads 4 o p W2 W3)]].
    refine (writes_ext (blen (o ++ u16_to_be p)) _ (fun cap => put cap (o ++ u16_to_be p)) _ _ _ _ (put_writes (o ++ u16_to_be p) _));
      [rewrite blen_app, W2; reflexivity|reflexivity|apply wf_app; split; [exact W1|apply u16_be_bytes, W3]].
  - destruct v as [[[o p] fl] sc]. destruct W as (W1 & W2 & W3). destruct U as [-> ->]. exists (o ++ u16_to_be p).
    split; [|split; [cbn [ddecode]; rewrite (reads_whole _ _ _ (sa_reads 16 o p W2 W3)); reflexivity|intros _; exact (sa6_reads o p W2 W3)]].
    refine (writes_ext (blen (o ++ u16_to_be p)) _ (fun cap => put cap (o ++ u16_to_be p)) _ _ _ _ (put_writes (o ++ u16_to_be p) _));
      [rewrite blen_app, W2; reflexivity|reflexivity|apply wf_app; split; [exact W1|apply u16_be_bytes, W3]].
  - destruct v as [o p|o p fl sc].
    + destruct W as (W1 & W2 & W3). apply (proj2 (blen_len o 4)) in W2. change (N.of_nat 4) with 4 in W2. exists (0 :: o ++ u16_to_be p).
      assert (blen (o ++ u16_to_be p) = 6) as L by (rewrite blen_app, W2; reflexivity).
      assert (wf_bytes (o ++ u16_to_be p)) as WB by (apply wf_app; split; [exact W1|apply u16_be_bytes, W3]).
      split; [split; [|split; [|split]]|split; [|intros _; exact (dsa4_reads o p W2 W3)]].
      * intros cap H. cbn [dlen] in H. cbn [dencode]. destruct (N.ltb_spec cap 7); [lia|]. unfold put.
        destruct (N.ltb_spec (cap - 1) (blen (o ++ u16_to_be p))); [lia|reflexivity].
      * intros cap H. cbn [dlen] in H. cbn [dencode]. destruct (N.ltb_spec cap 7); [eauto|lia].
      * rewrite blen_cons, L. reflexivity.
      * constructor; [unfold is_byte; lia|exact WB].
      * cbn [ddecode]. rewrite (reads_whole _ _ _ (sa_reads 4 o p W2 W3)), blen_cons, (N.add_comm 1). reflexivity.
    + destruct W as (W1 & W2 & W3). destruct U as [-> ->]. apply (proj2 (blen_len o 16)) in W2. change (N.of_nat 16) with 16 in W2. exists (1 :: o ++ u16_to_be p).
      assert (blen (o ++ u16_to_be p) = 18) as L by (rewrite blen_app, W2; reflexivity).
      assert (wf_bytes (o ++ u16_to_be p)) as WB by (apply wf_app; split; [exact W1|apply u16_be_bytes, W3]).
      split; [split; [|split; [|split]]|split; [|intros _; exact (dsa6_reads o p W2 W3)]].
      * intros cap H. cbn [dlen] in H. cbn [dencode put_sa6]. destruct (N.ltb_spec cap 19); [lia|]. unfold put_sa6, put. cbn [N.eqb negb orb].
        destruct (N.ltb_spec (cap - 1) (blen (o ++ u16_to_be p))); [lia|reflexivity].
      * intros cap H. cbn [dlen] in H. cbn [dencode]. destruct (N.ltb_spec cap 19); [eauto|lia].
      * rewrite blen_cons, L. reflexivity.
      * constructor; [unfold is_byte; lia|exact WB].
      * cbn [ddecode]. rewrite (reads_whole _ _ _ (sa_reads 16 o p W2 W3)), blen_cons, (N.add_comm 1). reflexivity.
  - destruct v as [va vb]. destruct W as [WA WB]. destruct U as [UA UB]. cbn [fst snd] in *.
    assert (dlen t1 va <= u32_max /\ dlen t2 vb <= u32_max) as [SA SB].
    { cbn [dlen fst snd] in S. destruct (wtnum t1 =? 2), (wtnum t2 =? 2); lia. }
    destruct (IHt1 va WA UA SA) as [ba GA]. destruct (IHt2 vb WB UB SB) as [bb GB].
    eexists. exact (pair_good t1 t2 va vb ba bb GA GB S).
Qed.

(** * Truncated and doubled fields *)
Lemma split_at {A} (l1 l2 p q : list A) : l1 ++ l2 = p ++ q ->
  (exists s, s <> [] /\ l1 = p ++ s /\ q = s ++ l2) \/ (exists s, p = l1 ++ s /\ l2 = s ++ q).
Proof.
  revert p. induction l1 as [|x l1 IH]; intros p E.
  - right. exists p. split; [reflexivity|exact E].
  - destruct p as [|y p].
    + left. exists (x :: l1). split; [discriminate|]. split; [reflexivity|symmetry; exact E].
    + cbn [app] in E. injection E as <- E. destruct (IH p E) as [(s & S & -> & ->)|(s & -> & ->)].
      * left. exists s. auto.
      * right. exists s. auto.
Qed.
Lemma pair_prefix a b va vb fa fb p q :
  reads (ld_dec a (ddecode a)) va fa -> reads (ld_dec b (ddecode b)) vb fb ->
  key1 a :: fa ++ key2 b :: fb = p ++ q -> q <> [] -> exists e, ddecode (DPair a b) p = Err e.
Proof.
  intros RA RB E Q. pose proof (keys_differ a b) as K.
  rewrite (ddecode_fuel a b p (S (S (length p))) ltac:(lia)).
  destruct p as [|k p]; [cbn; eauto|]. injection E as <- E.
  destruct (split_at _ _ _ _ E) as [(s & S & E1 & _)|(s & -> & E2)].
  - cbn [pair_loop]. rewrite N.eqb_refl. destruct RA as [_ RA]. destruct (RA p s E1 S) as [e ->]. eauto.
  - rewrite (loop_a (key1 a) (key2 b)) with (v := va) by assumption.
    destruct s as [|k s]; [cbn; eauto|]. injection E2 as <- E2. cbn [pair_loop].
    destruct (N.eqb_spec (key2 b) (key1 a)); [congruence|]. rewrite N.eqb_refl.
    destruct RB as [_ RB]. destruct (RB s q E2 Q) as [e ->]. eauto.
Qed.
Lemma loop_dup_a {A B} (ka kb : byte) (dA : bytes -> result derr (N * A)) (dB : bytes -> result derr (N * B)) f v b off us r :
  ka <> kb -> Forall (foreign ka kb) us -> pair_loop (length us + S f)%nat ka kb dA dB (Some v) b off (concat us ++ ka :: r) = Err DDuplicate.
Proof. intros K F. rewrite loop_skips by assumption. cbn [pair_loop]. rewrite N.eqb_refl. reflexivity. Qed.
Lemma loop_dup_b {A B} (ka kb : byte) (dA : bytes -> result derr (N * A)) (dB : bytes -> result derr (N * B)) f v a off us r :
  ka <> kb -> Forall (foreign ka kb) us -> pair_loop (length us + S f)%nat ka kb dA dB a (Some v) off (concat us ++ kb :: r) = Err DDuplicate.
Proof.
  intros K F. rewrite loop_skips by assumption. cbn [pair_loop]. destruct (N.eqb_spec kb ka); [congruence|]. rewrite N.eqb_refl. reflexivity.
Qed.
Lemma pair_dup a b va vb fa fb us1 us2 r :
  reads (ld_dec a (ddecode a)) va fa -> reads (ld_dec b (ddecode b)) vb fb ->
  Forall (foreign (key1 a) (key2 b)) us1 -> Forall (foreign (key1 a) (key2 b)) us2 ->
  ddecode (DPair a b) (concat us1 ++ (key1 a :: fa) ++ concat us2 ++ key1 a :: r) = Err DDuplicate /\
  ddecode (DPair a b) (concat us1 ++ (key2 b :: fb) ++ concat us2 ++ key2 b :: r) = Err DDuplicate.
Proof.
  intros RA RB F1 F2. pose proof (keys_differ a b) as K. split.
  - set (l := concat us1 ++ (key1 a :: fa) ++ concat us2 ++ key1 a :: r).
    rewrite (ddecode_fuel a b l (length us1 + S (length us2 + S (length l))) ltac:(lia)). unfold l at 2.
    rewrite loop_skips by assumption. cbn [app]. rewrite (loop_a (key1 a) (key2 b)) with (v := va) by assumption.
    apply loop_dup_a; assumption.
  - set (l := concat us1 ++ (key2 b :: fb) ++ concat us2 ++ key2 b :: r).
    rewrite (ddecode_fuel a b l (length us1 + S (length us2 + S (length l))) ltac:(lia)). unfold l at 2.
    rewrite loop_skips by assumption. cbn [app]. rewrite (loop_b (key1 a) (key2 b)) with (v := vb) by assumption.
    apply loop_dup_b; assumption.
Qed.

(** * What decoding can yield *)
Lemma pb_len_mono v v' : v <= v' -> pb_varint_len v <= pb_varint_len v'.
Proof.
  intros H. unfold pb_varint_len. apply N.div_le_mono; [discriminate|].
  assert (N.size v <= N.size v'); [|lia].
  destruct (N.eq_dec v 0) as [->|Z]; [change (N.size 0) with 0; lia|]. rewrite !N.size_log2 by lia.
  pose proof (N.log2_le_mono v v' H). lia.
Qed.
Lemma pb_dec_min f : forall l v r, wf_bytes l -> pb_dec f l = Some (v, r) -> pb_varint_len v + blen r <= blen l.
Proof.
  induction f as [|f IH]; intros l v r W; [discriminate|]. destruct l as [|b l]; [discriminate|]. inversion_clear W as [|? ? B WL].
  cbn [pb_dec]. rewrite blen_cons. destruct (N.ltb_spec b 128).
  - intros [= <- <-]. rewrite pb_varint_len_small by assumption. lia.
  - destruct (pb_dec f l) as [[v' r']|] eqn:E; [|discriminate]. intros [= <- <-]. specialize (IH _ _ _ WL E). unfold is_byte in B.
    destruct (N.eq_dec v' 0) as [->|Z].
    + rewrite pb_varint_len_small by lia. lia.
    + rewrite pb_varint_len_div by lia. replace ((b - 128 + 128 * v') / 128) with v'; [lia|].
      apply (N.div_unique _ 128 v' (b - 128)); lia.
Qed.
Lemma uv_dec_min w l n v : wf_bytes l -> uv_dec w l = Ok (n, v) -> v < 2 ^ wbits w /\ uv_len v <= n /\ n <= blen l.
Proof.
  intros W. unfold uv_dec. destruct (pb_dec _ l) as [[v' r]|] eqn:E; [|destruct (_ <? _); discriminate].
  destruct (N.ltb_spec v' (2 ^ wbits w)); [|discriminate]. intros [= <- <-]. apply pb_dec_min in E; [|exact W].
  unfold uv_len. split; [assumption|]. lia.
Qed.
Lemma unzz_bound w n : n < 2 ^ wbits w -> (- 2 ^ (Z.of_N (wbits w) - 1) <= unzz n < 2 ^ (Z.of_N (wbits w) - 1))%Z.
Proof.
  intros H. assert (2 * 2 ^ (Z.of_N (wbits w) - 1) = Z.of_N (2 ^ wbits w))%Z as E by (destruct w; reflexivity).
  unfold unzz. pose proof (N.div_mod n 2 ltac:(lia)). pose proof (N.mod_lt n 2 ltac:(lia)). destruct (N.even n); lia.
Qed.
Lemma zz_unzz n : zz (unzz n) = n.
Proof.
  unfold unzz, zz. pose proof (N.div_mod n 2 ltac:(lia)) as D. pose proof (N.mod_lt n 2 ltac:(lia)).
  destruct (N.even n) eqn:E.
  - apply N.even_spec in E. destruct E as [m ->]. rewrite (N.mul_comm 2 m), N.div_mul by lia.
    destruct (Z.ltb_spec (Z.of_N m) 0); lia.
  - assert (N.odd n = true) as O by (rewrite <- N.negb_even, E; reflexivity). apply N.odd_spec in O. destruct O as [m ->].
    rewrite (N.add_comm (2 * m) 1), (N.mul_comm 2 m), N.div_add by lia. change (1 / 2) with 0.
    destruct (Z.ltb_spec (- Z.of_N (0 + m) - 1) 0); lia.
Qed.
(** a decoder reads within its input and yields a value that encodes no longer *)
Definition sane {V} (wf : V -> Prop) (len : V -> N) (dec : bytes -> result derr (N * V)) : Prop :=
  forall l n v, wf_bytes l -> dec l = Ok (n, v) -> wf v /\ len v <= n /\ n <= blen l.
Lemma fix_sane k l n v : wf_bytes l -> fix_dec k l = Ok (n, v) -> (wf_bytes v /\ blen v = k) /\ n = k /\ k <= blen l.
Proof.
  intros W. unfold fix_dec. destruct (N.ltb_spec (blen l) k); [discriminate|]. intros [= <- <-].
  split; [split; [apply wf_btake, W|rewrite blen_btake; lia]|]. split; [reflexivity|assumption].
Qed.
Lemma nth_byte l i : wf_bytes l -> nth i l 0 < 256.
Proof.
  intros W. destruct (Nat.lt_ge_cases i (length l)) as [H|H].
  - unfold wf_bytes in W. rewrite Forall_forall in W. apply W, nth_In, H.
  - rewrite nth_overflow by assumption. lia.
Qed.
Lemma sa_sane k l n o p : wf_bytes l -> sa_dec k l = Ok (n, (o, p)) -> wf_bytes o /\ blen o = k /\ p < 65536 /\ n = k + 2 /\ k + 2 <= blen l.
Proof.
  intros W. unfold sa_dec. destruct (N.ltb_spec (blen l) (k + 2)); [discriminate|]. intros [= <- <- <-].
  split; [apply wf_btake, W|]. split; [rewrite blen_btake; lia|].
  split; [apply (u16_of_be_inv _ _ (nth_byte l _ W) (nth_byte l _ W))|]. split; [reflexivity|assumption].
Qed.
Lemma ld_sane t dec (wf : den t -> Prop) : sane wf (dlen t) dec ->
  sane wf (fun v => ld_len t (dlen t v)) (ld_dec t dec).
Proof.
  intros S l n v W. unfold ld_dec, ld_len. destruct (wtnum t =? 2); cbn [negb]; [|apply S, W].
  destruct (uv_dec W32 l) as [[off len]|] eqn:E; [|discriminate]. destruct (uv_dec_min _ _ _ _ W E) as (B & M & L).
  destruct (N.ltb_spec (blen l) (off + len)); [discriminate|].
  destruct (dec (btake len (bdrop off l))) as [[m x]|] eqn:D; [|discriminate]. destruct (N.eqb_spec m len) as [->|]; [|discriminate].
  intros [= <- <-]. apply S in D; [|apply wf_btake, wf_bdrop, W]. destruct D as (D1 & D2 & D3). split; [exact D1|]. split; [|assumption].
  pose proof (pb_len_mono (dlen t x mod two32) len) as MM. unfold uv_len in *.
  pose proof (N.mod_le (dlen t x) two32 ltac:(unfold two32; lia)). lia.
Qed.
Lemma loop_sane {A B} ka kb (dA : bytes -> result derr (N * A)) (dB : bytes -> result derr (N * B)) (wA : A -> Prop) (wB : B -> Prop) lA lB :
  sane wA lA dA -> sane wB lB dB ->
  forall f a b off l n va vb, wf_bytes l -> (forall x, a = Some x -> wA x) -> (forall x, b = Some x -> wB x) ->
  pair_loop f ka kb dA dB a b off l = Ok (n, (va, vb)) ->
  wA va /\ wB vb /\ n <= off + blen l /\
  off + (if a then 0 else 1 + lA va) + (if b then 0 else 1 + lB vb) <= n /\
  (forall x, a = Some x -> va = x) /\ (forall x, b = Some x -> vb = x).
Proof.
  intros SA SB. induction f as [|f IH]; intros a b off l n va vb W HA HB.
  - destruct l; cbn [pair_loop]; [|discriminate]. destruct a as [x|]; [|discriminate]. destruct b as [y|]; [|discriminate].
    intros [= <- <- <-]. rewrite blen_nil. repeat split; try lia; auto; congruence.
  - destruct l as [|k l].
    { cbn [pair_loop]. destruct a as [x|]; [|discriminate]. destruct b as [y|]; [|discriminate].
      intros [= <- <- <-]. rewrite blen_nil. repeat split; try lia; auto; congruence. }
    pose proof W as WK. inversion_clear W as [|? ? WB WL]. cbn [pair_loop]. rewrite blen_cons.
    destruct (k =? ka).
    { destruct a as [x|]; [discriminate|]. destruct (dA l) as [[m v]|] eqn:D; [|discriminate]. apply SA in D; [|exact WL].
      destruct D as (D1 & D2 & D3). intros E. apply IH in E; [|apply wf_bdrop, WL|intros x [= <-]; exact D1|exact HB].
      destruct E as (E1 & E2 & E3 & E4 & E5 & E6). rewrite blen_bdrop in E3. rewrite (E5 v eq_refl) in *.
      repeat split; try assumption; try lia; try discriminate; try congruence. }
    destruct (k =? kb).
    { destruct b as [x|]; [discriminate|]. destruct (dB l) as [[m v]|] eqn:D; [|discriminate]. apply SB in D; [|exact WL].
      destruct D as (D1 & D2 & D3). intros E. apply IH in E; [|apply wf_bdrop, WL|exact HA|intros x [= <-]; exact D1].
      destruct E as (E1 & E2 & E3 & E4 & E5 & E6). rewrite blen_bdrop in E3. rewrite (E6 v eq_refl) in *.
      repeat split; try assumption; try lia; try discriminate; try congruence. }
    destruct (wskip (k :: l)) as [m|] eqn:E; [|discriminate].
    assert (m <= 1 + blen l) as ML.
    { revert E. cbn [wskip]. rewrite blen_cons. destruct (fst (wsplit k)) as [|q]; [|destruct q as [[q|q|]|[q|[q|q|]|]|]]; try discriminate.
      - destruct (N.ltb_spec 0 (blen l)); [|discriminate]. intros [= <-]. lia.
      - destruct (N.leb_spec 5 (1 + blen l)); [|discriminate]. intros [= <-]. lia.
      - destruct (N.leb_spec 9 (1 + blen l)); [|discriminate]. intros [= <-]. lia.
      - destruct l as [|x l]; [discriminate|]. destruct (uv_dec W32 _) as [[i j]|]; [|discriminate].
        destruct (N.leb_spec (1 + i + j) (1 + blen (x :: l))); [|discriminate]. intros [= <-]. lia.
      - destruct (uv_dec W64 l) as [[i j]|] eqn:U; [|discriminate]. intros [= <-]. apply uv_dec_min in U; [|exact WL]. lia. }
    intros R. apply IH in R; [|apply wf_bdrop, WK|exact HA|exact HB]. destruct R as (E1 & E2 & E3 & E4 & E5 & E6).
    rewrite blen_bdrop, blen_cons in E3. repeat split; try assumption; lia.
Qed.
Lemma every_sane t : sane (fun v => dwf t v /\ unscoped t v) (dlen t) (ddecode t).
Proof.
  induction t; intros l n' v W; cbn [ddecode dwf unscoped dlen].
  - destruct (utf8_valid l) eqn:U; [|discriminate]. intros [= <- <-]. repeat split; auto; lia.
  - intros [= <- <-]. repeat split; auto; lia.
  - intros E. apply fix_sane in E; [|exact W]. destruct E as (E1 & -> & E2). repeat split; try apply E1; lia.
  - destruct l as [|b l]; [discriminate|]. intros [= <- <-]. inversion_clear W. rewrite blen_cons. repeat split; auto; lia.
  - destruct l as [|b l]; [discriminate|]. intros [= <- <-]. rewrite blen_cons. repeat split; auto; lia.
  - destruct l as [|b l]; [discriminate|]. intros [= <- <-]. inversion_clear W as [|? ? B ?]. unfold is_byte in B.
    rewrite blen_cons. destruct (N.ltb_spec b 128); repeat split; auto; lia.
  - intros E. apply uv_dec_min in E; [|exact W]. tauto.
  - destruct (uv_dec w l) as [[m x]|] eqn:E; [|discriminate]. intros [= <- <-]. apply uv_dec_min in E; [|exact W].
    rewrite zz_unzz. pose proof (unzz_bound w x (proj1 E)). tauto.
  - destruct (uv_dec W32 l) as [[m x]|] eqn:E; [|discriminate]. destruct (is_char x) eqn:CH; [|discriminate]. intros [= <- <-].
    apply uv_dec_min in E; [|exact W]. apply is_char_iff in CH. tauto.
  - intros E. apply fix_sane in E; [|exact W]. destruct E as (E1 & -> & E2). repeat split; try apply E1; lia.
  - intros E. apply fix_sane in E; [|exact W]. destruct E as (E1 & -> & E2). repeat split; try apply E1; lia.
  - intros E. apply fix_sane in E; [|exact W]. destruct E as (E1 & -> & E2). repeat split; try apply E1; lia.
  - intros E. apply fix_sane in E; [|exact W]. destruct E as (E1 & -> & E2). repeat split; try apply E1; lia.
  - destruct l as [|b l]; [discriminate|]. inversion_clear W as [|? ? B WL]. rewrite blen_cons.
    destruct b as [|[b|b|]]; try discriminate.
    + destruct (fix_dec 4 l) as [[m o]|] eqn:E; [|discriminate]. intros [= <- <-]. apply fix_sane in E; [|exact WL].
      destruct E as (E1 & -> & E2). repeat split; try apply E1; lia.
    + destruct (fix_dec 16 l) as [[m o]|] eqn:E; [|discriminate]. intros [= <- <-]. apply fix_sane in E; [|exact WL].
      destruct E as (E1 & -> & E2). repeat split; try apply E1; lia.
  - destruct v as [o p]. intros E. apply sa_sane in E; [|exact W]. cbn [fst snd]. destruct E as (E1 & E2 & E3 & -> & E4). repeat split; auto; lia.
  - destruct (sa_dec 16 l) as [[m [o p]]|] eqn:E; [|discriminate]. intros [= <- <-]. apply sa_sane in E; [|exact W].
    destruct E as (E1 & E2 & E3 & -> & E4). repeat split; auto; lia.
  - destruct l as [|b l]; [discriminate|]. inversion_clear W as [|? ? B WL]. rewrite blen_cons.
    destruct b as [|[b|b|]]; try discriminate.
    + destruct (sa_dec 4 l) as [[m [o p]]|] eqn:E; [|discriminate]. intros [= <- <-]. apply sa_sane in E; [|exact WL].
      destruct E as (E1 & E2 & E3 & -> & E4). cbn [wf_socket_addr]. repeat split; auto; try lia. apply (blen_len o 4). rewrite E2. reflexivity.
    + destruct (sa_dec 16 l) as [[m [o p]]|] eqn:E; [|discriminate]. intros [= <- <-]. apply sa_sane in E; [|exact WL].
      destruct E as (E1 & E2 & E3 & -> & E4). cbn [wf_socket_addr]. repeat split; auto; try lia. apply (blen_len o 16). rewrite E2. reflexivity.
  - destruct v as [va vb]. intros E. pose proof (loop_sane _ _ _ _ _ _ _ _ (ld_sane t1 _ _ IHt1) (ld_sane t2 _ _ IHt2)
      _ None None 0 l n' va vb W ltac:(discriminate) ltac:(discriminate) E) as (E1 & E2 & E3 & E4 & _).
    cbn [fst snd]. change (if wtnum t1 =? 2 then uv_len (dlen t1 va mod two32) + dlen t1 va else dlen t1 va) with (ld_len t1 (dlen t1 va)).
    change (if wtnum t2 =? 2 then uv_len (dlen t2 vb mod two32) + dlen t2 vb else dlen t2 vb) with (ld_len t2 (dlen t2 vb)).
    split; [tauto|]. lia.
Qed.

Lemma unscoped_dec t : forall v, unscoped t v \/ ~ unscoped t v.
Proof.
  induction t; intros v; cbn [unscoped]; try (left; exact Logic.I).
  - destruct v as [[[o p] fl] sc]. destruct (N.eq_dec fl 0), (N.eq_dec sc 0); tauto.
  - destruct v as [o p|o p fl sc]; [tauto|]. destruct (N.eq_dec fl 0), (N.eq_dec sc 0); tauto.
  - destruct (IHt1 (fst v)), (IHt2 (snd v)); tauto.
Qed.
Lemma scoped_refused t : forall v cap, ~ unscoped t v -> exists e, dencode t cap v = Err e.
Proof.
  induction t; intros v cap H; cbn [unscoped] in H; try tauto.
  - destruct v as [[[o p] fl] sc]. cbn [dencode]. unfold put_sa6. destruct (N.eqb_spec fl 0), (N.eqb_spec sc 0); cbn; eauto; tauto.
  - destruct v as [o p|o p fl sc]; [tauto|]. cbn [dencode]. unfold put_sa6. destruct (_ <? _); [eauto|].
    destruct (N.eqb_spec fl 0), (N.eqb_spec sc 0); cbn; eauto; tauto.
  - assert (forall t (v : den t) c, (forall c, exists e, dencode t c v = Err e) -> exists e, ld_enc t (dlen t v) (fun c => dencode t c v) c = Err e) as LD.
    { intros t v0 c K. unfold ld_enc. destruct (wtnum t =? 2); cbn [negb]; [|apply K]. destruct (_ <? _); [eauto|].
      destruct (put c _) as [p|e]; [|eauto]. destruct (K (c - blen p)) as [e ->]. eauto. }
    cbn [dencode]. destruct (cap =? 0); [eauto|]. destruct (unscoped_dec t1 (fst v)) as [U|U].
    + destruct (ld_enc t1 _ _ _) as [ba|e]; [|eauto]. destruct (cap <=? _); [eauto|].
      destruct (LD t2 (snd v) (cap - 1 - blen ba - 1)) as [e ->]; [intros c; apply IHt2; tauto|eauto].
    + destruct (LD t1 (fst v) (cap - 1)) as [e ->]; [intros c; apply IHt1; tauto|eauto].
Qed.
Lemma good_bytes t v b : good t v b -> data_to_bytes t v = Ok b.
Proof.
  intros ((A & _ & L & _) & _). unfold data_to_bytes. rewrite A by lia. rewrite L, N.sub_diag. cbn. rewrite app_nil_r. reflexivity.
Qed.
Lemma good_back t v b : good t v b -> data_from_bytes t b = Ok v.
Proof. intros (_ & D & _). unfold data_from_bytes. rewrite D, N.eqb_refl. reflexivity. Qed.
Lemma good_of t v b : dwf t v -> unscoped t v -> dlen t v <= u32_max -> data_to_bytes t v = Ok b -> good t v b.
Proof.
  intros W U S E. destruct (every_good t v W U S) as [b' G]. rewrite (good_bytes t v b' G) in E. injection E as <-. exact G.
Qed.
