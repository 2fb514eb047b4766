(** Proofs about the wire format. *)
From Verif Require Import Base BaseFacts CodecModel CodecSpec CodecFacts LabelModel LabelFacts MsgModel WireModel WireSpec.
Local Open Scope N_scope.

(** * Varints *)
Lemma pb_dec_enc f : forall g v r, v < 128 ^ (N.of_nat (S f)) -> (f < g)%nat -> pb_dec g (pb_enc f v ++ r) = Some (v, r).
Proof.
  induction f as [|f IH]; intros g v r H G; (destruct g as [|g]; [lia|]).
  - cbn [pb_enc app pb_dec]. change (128 ^ N.of_nat 1) with 128 in H. destruct (N.ltb_spec v 128); [reflexivity|lia].
  - cbn [pb_enc]. destruct (N.leb_spec 128 v).
    + cbn [app pb_dec]. destruct (N.ltb_spec (v mod 128 + 128) 128); [lia|].
      rewrite IH; [|rewrite (Nat2N.inj_succ (S f)), N.pow_succ_r' in H; apply N.div_lt_upper_bound; lia|lia].
      f_equal. f_equal. pose proof (N.div_mod v 128). lia.
    + cbn [app pb_dec]. destruct (N.ltb_spec v 128); [reflexivity|lia].
Qed.
Lemma pb_varint_read v r : v < two64 -> pb_read_varint (pb_varint v ++ r) = Some (v, r).
Proof.
  intros H. unfold pb_read_varint, pb_varint. rewrite pb_dec_enc; [|apply (N.lt_le_trans _ _ _ H); vm_compute; discriminate|lia].
  destruct (N.ltb_spec v two64); [reflexivity|lia].
Qed.
Lemma pb_enc_wf f : forall v, v < 128 ^ (N.of_nat (S f)) -> wf_bytes (pb_enc f v).
Proof.
  induction f as [|f IH]; intros v H.
  - change (128 ^ N.of_nat 1) with 128 in H. cbn. constructor; [|constructor]. unfold is_byte. lia.
  - cbn [pb_enc]. destruct (N.leb_spec 128 v).
    + constructor.
      * unfold is_byte. pose proof (N.mod_lt v 128). lia.
      * apply IH. rewrite (Nat2N.inj_succ (S f)), N.pow_succ_r' in H. apply N.div_lt_upper_bound; lia.
    + constructor; [|constructor]. unfold is_byte. lia.
Qed.
Lemma pb_varint_wf v : v < two64 -> wf_bytes (pb_varint v).
Proof. intros H. apply pb_enc_wf. apply (N.lt_le_trans _ _ _ H). vm_compute. discriminate. Qed.
Lemma pb_enc_nonnil f v : pb_enc f v <> [].
Proof. destruct f; cbn; [discriminate|]. destruct (_ <=? _); discriminate. Qed.
Lemma pb_varint_nonnil v : pb_varint v <> [].
Proof. apply pb_enc_nonnil. Qed.
(** for numbers of 32 bits the two encoders agree *)
Lemma pb_enc_codec f : forall g v, v < 128 ^ (N.of_nat (S f)) -> v < 128 ^ (N.of_nat (S g)) -> pb_enc f v = encode_varint_fuel g v.
Proof.
  assert (forall v, v < 128 -> forall g, encode_varint_fuel g v = [v]) as A.
  { intros v H [|g]; cbn; [reflexivity|]. destruct (N.leb_spec 128 v); [lia|reflexivity]. }
  assert (forall v, v < 128 -> forall f, pb_enc f v = [v]) as B.
  { intros v H [|g]; cbn; [reflexivity|]. destruct (N.leb_spec 128 v); [lia|reflexivity]. }
  induction f as [|f IH]; intros g v H G.
  - change (128 ^ N.of_nat 1) with 128 in H. rewrite A by lia. reflexivity.
  - destruct g as [|g]; [change (128 ^ N.of_nat 1) with 128 in G; rewrite B by lia; reflexivity|].
    cbn [pb_enc encode_varint_fuel]. destruct (N.leb_spec 128 v); [|reflexivity].
    rewrite (Nat2N.inj_succ (S f)), N.pow_succ_r' in H. rewrite (Nat2N.inj_succ (S g)), N.pow_succ_r' in G.
    rewrite lor128_mod, shiftr7_div.
    rewrite (IH g) by (apply N.div_lt_upper_bound; lia). reflexivity.
Qed.
Lemma pb_varint_u32 v : v <= u32_max -> pb_varint v = encode_varint_u32 v.
Proof.
  intros H. assert (v < 128 ^ 5) as H5 by (apply (N.le_lt_trans _ _ _ H); reflexivity).
  apply pb_enc_codec; apply (N.lt_trans _ _ _ H5); reflexivity.
Qed.
Lemma size_128 v : 128 <= v -> N.size v = 7 + N.size (v / 128).
Proof.
  intros H. assert (v / 128 <> 0) as Z by (intros E; apply N.div_small_iff in E; lia).
  rewrite (N.size_log2 v) by lia. rewrite (N.size_log2 (v / 128)) by assumption.
  change 128 with (2 ^ 7) at 1. rewrite <- N.shiftr_div_pow2, N.log2_shiftr.
  pose proof (N.log2_le_mono 128 v H) as L. change (N.log2 128) with 7 in L. lia.
Qed.
Lemma size_small v : v < 128 -> N.max 1 (N.size v) <= 7.
Proof.
  intros H. destruct (N.eq_dec v 0) as [->|Z]; [vm_compute; discriminate|].
  rewrite N.size_log2 by assumption. assert (N.log2 v < 7); [|lia]. apply N.log2_lt_pow2; [lia|]. exact H.
Qed.
Lemma pb_varint_len_div v : 128 <= v -> pb_varint_len v = 1 + pb_varint_len (v / 128).
Proof.
  intros H. unfold pb_varint_len. rewrite size_128 by assumption.
  assert (v / 128 <> 0) as Z by (intros E; apply N.div_small_iff in E; lia).
  assert (N.size (v / 128) <> 0) as Z2 by (rewrite N.size_log2 by assumption; lia).
  replace (N.max 1 (7 + N.size (v / 128)) + 6) with (N.max 1 (N.size (v / 128)) + 6 + 1 * 7) by lia.
  rewrite N.div_add by discriminate. lia.
Qed.
Lemma pb_varint_len_small v : v < 128 -> pb_varint_len v = 1.
Proof. intros H. pose proof (size_small v H). unfold pb_varint_len. symmetry. apply (N.div_unique _ 7 1 (N.max 1 (N.size v) + 6 - 7)); lia. Qed.
Lemma pb_enc_len f : forall v, v < 128 ^ (N.of_nat (S f)) -> blen (pb_enc f v) = pb_varint_len v.
Proof.
  induction f as [|f IH]; intros v H.
  - change (128 ^ N.of_nat 1) with 128 in H. rewrite pb_varint_len_small by assumption. reflexivity.
  - cbn [pb_enc]. destruct (N.leb_spec 128 v).
    + rewrite blen_cons, pb_varint_len_div by assumption. f_equal. apply IH.
      rewrite (Nat2N.inj_succ (S f)), N.pow_succ_r' in H. apply N.div_lt_upper_bound; lia.
    + rewrite pb_varint_len_small by assumption. reflexivity.
Qed.
Lemma pb_varint_blen v : v < two64 -> blen (pb_varint v) = pb_varint_len v.
Proof. intros H. apply pb_enc_len. apply (N.lt_le_trans _ _ _ H). vm_compute. discriminate. Qed.

(** * Fields *)
Lemma take_n_app n b r : blen b = n -> take_n n (b ++ r) = Some (b, r).
Proof.
  intros <-. unfold take_n. rewrite blen_app. destruct (N.ltb_spec (blen b + blen r) (blen b)); [lia|].
  rewrite btake_app_exact, bdrop_app_exact by reflexivity. reflexivity.
Qed.
Lemma key_bound f : fok f -> 8 * fst f + wtype (snd f) < two64.
Proof. intros [[_ H] _]. unfold two64. destruct (snd f); cbn [wtype]; lia. Qed.
Lemma key_div n w : w < 8 -> (8 * n + w) / 8 = n.
Proof. intros H. symmetry. apply (N.div_unique _ 8 n w); lia. Qed.
Lemma key_mod n w : w < 8 -> (8 * n + w) mod 8 = w.
Proof. intros H. symmetry. apply (N.mod_unique _ 8 n w); lia. Qed.
Lemma read_ser f r : fok f -> read_field (ser_field f ++ r) = Some (f, r).
Proof.
  intros F. unfold read_field, ser_field. rewrite <- app_assoc. rewrite pb_varint_read by (apply key_bound; assumption).
  assert (wtype (snd f) < 8) as W by (destruct (snd f); cbn; lia).
  rewrite key_div, key_mod by assumption. destruct F as [[L U] V]. destruct f as [n v]. cbn [fst snd] in *.
  destruct (N.eqb_spec n 0); [lia|]. destruct (N.ltb_spec 536870911 n); [lia|]. cbn [orb].
  destruct v as [v|b|b|b]; cbn [wtype vok] in *.
  - rewrite pb_varint_read by assumption. reflexivity.
  - rewrite take_n_app by apply V. reflexivity.
  - rewrite <- app_assoc, pb_varint_read by apply V. rewrite take_n_app by reflexivity. reflexivity.
  - rewrite take_n_app by apply V. reflexivity.
Qed.
Lemma ser_field_nonnil f : ser_field f <> [].
Proof. unfold ser_field. intros E. apply app_eq_nil in E. apply (pb_varint_nonnil _ (proj1 E)). Qed.
Lemma ser_cons f fs : ser (f :: fs) = ser_field f ++ ser fs.
Proof. reflexivity. Qed.
Lemma ser_app a b : ser (a ++ b) = ser a ++ ser b.
Proof. unfold ser. rewrite map_app, concat_app. reflexivity. Qed.
Lemma parse_ser_loop fs : forall n, Forall fok fs -> (length (ser fs) <= n)%nat -> parse_loop n (ser fs) = Some fs.
Proof.
  induction fs as [|f fs IH]; intros n F L; [destruct n; reflexivity|].
  inversion F; subst. rewrite ser_cons in *. rewrite app_length in L.
  destruct (ser_field f) as [|b s] eqn:E; [destruct (ser_field_nonnil f E)|]. cbn [length] in L.
  destruct n as [|n]; [lia|]. cbn [app parse_loop].
  change (b :: s ++ ser fs) with ((b :: s) ++ ser fs). rewrite <- E. rewrite read_ser by assumption.
  rewrite IH; [reflexivity|assumption|lia].
Qed.
Lemma parse_ser fs : Forall fok fs -> parse_fields (ser fs) = Some fs.
Proof. intros F. apply parse_ser_loop; [assumption|lia]. Qed.
Lemma wf_app a b : wf_bytes (a ++ b) <-> wf_bytes a /\ wf_bytes b.
Proof. apply Forall_app. Qed.
Lemma ser_field_wf f : fok f -> wf_bytes (ser_field f).
Proof.
  intros F. unfold ser_field. apply wf_app. split; [apply pb_varint_wf, key_bound; assumption|].
  destruct F as [_ V]. destruct (snd f); cbn [vok] in V.
  - apply pb_varint_wf. assumption.
  - apply V.
  - apply wf_app. split; [apply pb_varint_wf|]; apply V.
  - apply V.
Qed.
Lemma ser_wf fs : Forall fok fs -> wf_bytes (ser fs).
Proof. induction 1; [constructor|]. rewrite ser_cons. apply wf_app. split; [apply ser_field_wf|]; assumption. Qed.
Lemma ser_field_len f : fok f -> blen (ser_field f) = field_size f.
Proof.
  intros F. unfold ser_field, field_size. rewrite blen_app, pb_varint_blen by (apply key_bound; assumption). f_equal.
  destruct F as [_ V]. destruct (snd f); cbn [vok] in V.
  - apply pb_varint_blen. assumption.
  - apply V.
  - rewrite blen_app, pb_varint_blen by apply V. reflexivity.
  - apply V.
Qed.
Lemma ser_len fs : Forall fok fs -> blen (ser fs) = pb_size fs.
Proof. induction 1; [reflexivity|]. rewrite ser_cons, blen_app, ser_field_len by assumption. cbn [pb_size fold_right]. f_equal. assumption. Qed.

(** * Reading fields back *)
Lemma lens_app n a b : lens n (a ++ b) = lens n a ++ lens n b.
Proof. induction a as [|[m v] a IH]; [reflexivity|]. cbn [app lens]. destruct v; try exact IH. destruct (m =? n); cbn; congruence. Qed.
Lemma vars_app n a b : vars n (a ++ b) = vars n a ++ vars n b.
Proof. induction a as [|[m v] a IH]; [reflexivity|]. cbn [app vars]. destruct v; try exact IH. destruct (m =? n); cbn; congruence. Qed.
Lemma typed_app sc a b : typed_ok sc (a ++ b) = typed_ok sc a && typed_ok sc b.
Proof. apply forallb_app. Qed.
Lemma lens_many n xs : lens n (concat (map (flen n) xs)) = xs.
Proof. induction xs as [|x xs IH]; [reflexivity|]. cbn [map concat flen app lens]. rewrite N.eqb_refl, IH. reflexivity. Qed.
Lemma lens_other n m xs : n <> m -> lens n (concat (map (flen m) xs)) = [].
Proof. intros H. induction xs as [|x xs IH]; [reflexivity|]. cbn [map concat flen app lens]. destruct (N.eqb_spec m n); [congruence|]. exact IH. Qed.
Lemma vars_lens n m xs : vars n (concat (map (flen m) xs)) = [].
Proof. induction xs as [|x xs IH]; [reflexivity|]. exact IH. Qed.
Lemma parse_msg_ser sc fs : Forall fok fs -> typed_ok sc fs = true -> parse_msg sc (ser fs) = Some fs.
Proof. intros F T. unfold parse_msg. rewrite parse_ser by assumption. rewrite T. reflexivity. Qed.

(** lengths are bounded by the whole *)
Definition fok0 (f : field) : Prop :=
  1 <= fst f <= 536870911 /\
  match snd f with
  | WVar v => v < two64
  | WFix64 b => wf_bytes b /\ blen b = 8
  | WFix32 b => wf_bytes b /\ blen b = 4
  | WLen b => wf_bytes b
  end.
Lemma len_in_ser n b fs : In (n, WLen b) fs -> blen b <= blen (ser fs).
Proof.
  induction fs as [|f fs IH]; [intros []|]. rewrite ser_cons, blen_app. intros [->|H]; [|specialize (IH H); lia].
  unfold ser_field. cbn [snd]. rewrite !blen_app. lia.
Qed.
Lemma fok_of_len fs : blen (ser fs) < two64 -> Forall fok0 fs -> Forall fok fs.
Proof.
  intros L F. rewrite Forall_forall in *. intros f I. specialize (F f I). destruct f as [n v]. destruct F as [B V]. split; [exact B|].
  cbn [snd] in *. destruct v; cbn [vok]; try exact V. split; [exact V|]. pose proof (len_in_ser _ _ _ I). lia.
Qed.

Lemma some_inj {A} (x y : A) : Some x = Some y -> x = y.
Proof. congruence. Qed.

Section W.
Variable W : wcodec.
Hypothesis HW : wf_codec W.

Lemma fok0_len n b : 1 <= n <= 536870911 -> wf_bytes b -> Forall fok0 (flen n b).
Proof. intros N0 B. constructor; [|constructor]. split; assumption. Qed.
Lemma fok0_var n v : 1 <= n <= 536870911 -> v <= u32_max -> Forall fok0 (fvar n v).
Proof. intros N0 B. constructor; [|constructor]. split; [assumption|]. cbn. unfold u32_max, two64 in *. lia. Qed.
Lemma fok0_ilen n b : 1 <= n <= 536870911 -> wf_bytes b -> Forall fok0 (ilen n b).
Proof. intros N0 B. destruct b; [constructor|]. apply fok0_len; assumption. Qed.
Lemma fok0_ivar n v : 1 <= n <= 536870911 -> v <= u32_max -> Forall fok0 (ivar n v).
Proof. intros N0 B. unfold ivar. destruct (v =? 0); [constructor|]. apply fok0_var; assumption. Qed.
Lemma flen_in n b fs : In (n, WLen b) (flen n b ++ fs).
Proof. left. reflexivity. Qed.

Lemma node_fields_ok x fs : node_fields W x = Some fs -> Forall fok0 fs /\ typed_ok node_schema fs = true /\ node_of W fs = Some x.
Proof.
  unfold node_fields. destruct (w_id W (nd_id x)) as [i|] eqn:EI; [|discriminate]. destruct (w_addr W (nd_addr x)) as [a|] eqn:EA; [|discriminate].
  intros E. apply some_inj in E. subst fs. destruct HW as [HI HA]. destruct (HI _ _ EI) as [WI DI]. destruct (HA _ _ EA) as [WA DA].
  split; [apply Forall_app; split; apply fok0_len; try assumption; lia|]. split; [reflexivity|].
  unfold node_of. cbn. rewrite DI, DA. destruct x. reflexivity.
Qed.
Lemma node_at_one n fs x y : lens n fs = [ser y] -> blen (ser y) < two64 -> node_fields W x = Some y -> node_at W n fs = Some x.
Proof.
  intros L B E. destruct (node_fields_ok x y E) as (F & T & D). unfold node_at, get_msg. rewrite L. cbn [parse_all].
  rewrite parse_msg_ser; [|apply fok_of_len; assumption|exact T]. cbn [option_map]. rewrite app_nil_r. exact D.
Qed.
Lemma ser_node_wf x y : node_fields W x = Some y -> blen (ser y) < two64 -> wf_bytes (ser y).
Proof. intros E B. apply ser_wf, fok_of_len; [exact B|]. apply (node_fields_ok x y E). Qed.
Lemma u32_small v : v <= u32_max -> v mod two32 = v.
Proof. intros H. apply N.mod_small. unfold u32_max, two32 in *. lia. Qed.
Lemma version_byte v : v < 256 -> version_of (Some (v mod two32)) = Some v.
Proof. intros H. rewrite u32_small by (unfold u32_max; lia). cbn [version_of]. destruct (N.ltb_spec 255 v); [lia|reflexivity]. Qed.
Lemma state_back s : wf_state s -> state_of (state_byte s mod two32) = Some s.
Proof.
  intros H. destruct s as [| | | |v]; try reflexivity. cbn in H. cbn [state_byte]. rewrite u32_small by (unfold u32_max; lia).
  unfold state_of. destruct (N.ltb_spec 255 v); [lia|]. f_equal. destruct v as [|p]; [lia|].
  destruct p as [[p|p|]|[p|p|]|]; try reflexivity; lia.
Qed.
Lemma meta_back b : wf_meta b -> meta_of b = Some b.
Proof. intros [_ H]. unfold meta_of, META_MAX. destruct (N.ltb_spec 65535 (blen b)); [lia|reflexivity]. Qed.
Lemma dflt_ilen b n r : (forall r', lens n r = r' -> r' = []) -> dflt [] (last_opt (lens n (ilen n b ++ r))) = b.
Proof.
  intros H. rewrite lens_app, (H _ eq_refl), app_nil_r. destruct b as [|x b]; [reflexivity|]. cbn [ilen flen lens]. rewrite N.eqb_refl. reflexivity.
Qed.
Lemma state_byte_u32 s : wf_state s -> state_byte s <= u32_max.
Proof. unfold u32_max. destruct s; cbn; lia. Qed.

Lemma pns_fields_ok p fs : wf_pns p -> pns_fields W p = Some fs -> Forall fok0 fs /\ typed_ok pns_schema fs = true /\ pns_of W fs = Some p.
Proof.
  intros (WN & WS & WM & WP & WD). unfold pns_fields. destruct (w_id W (pn_id p)) as [i|] eqn:EI; [|discriminate]. destruct (w_addr W (pn_addr p)) as [a|] eqn:EA; [|discriminate].
  intros E. apply (f_equal (dflt [])) in E. cbn [dflt] in E. subst fs. destruct HW as [HI HA]. destruct (HI _ _ EI) as [WI DI]. destruct (HA _ _ EA) as [WA DA].
  split.
  { repeat (apply Forall_app; split); first [apply fok0_len|apply fok0_ilen|apply fok0_var]; try lia; try assumption; try (unfold u32_max; lia).
    - apply WM.
    - apply state_byte_u32. assumption. }
  split; [destruct (pn_meta p); reflexivity|].
  unfold pns_of, get_len, get_u32.
  replace (last_opt (lens 1 _)) with (Some i) by (destruct (pn_meta p); reflexivity).
  replace (last_opt (lens 2 _)) with (Some a) by (destruct (pn_meta p); reflexivity).
  rewrite DI, DA.
  replace (last_opt (vars 4 _)) with (Some (pn_inc p)) by (destruct (pn_meta p); reflexivity).
  replace (last_opt (vars 5 _)) with (Some (state_byte (pn_state p))) by (destruct (pn_meta p); reflexivity).
  replace (last_opt (vars 6 _)) with (Some (pn_pv p)) by (destruct (pn_meta p); reflexivity).
  replace (last_opt (vars 7 _)) with (Some (pn_dv p)) by (destruct (pn_meta p); reflexivity).
  replace (dflt [] (last_opt (lens 3 _))) with (pn_meta p) by (destruct (pn_meta p); reflexivity).
  cbn [option_map]. rewrite state_back, meta_back, !version_byte, u32_small by assumption. destruct p. reflexivity.
Qed.
Lemma all_some_in {A B} (f : A -> option B) l r : all_some f l = Some r -> Forall2 (fun x y => f x = Some y) l r.
Proof.
  revert r. induction l as [|x l IH]; intros r; cbn [all_some]; [intros [= <-]; constructor|].
  destruct (f x) as [y|] eqn:E; [|discriminate]. destruct (all_some f l) as [ys|]; [|discriminate]. intros [= <-]. constructor; [exact E|]. apply IH. reflexivity.
Qed.
Lemma all_some_intro {A B} (f : A -> option B) l r : Forall2 (fun x y => f x = Some y) l r -> all_some f l = Some r.
Proof. induction 1 as [|x y l r E _ IH]; [reflexivity|]. cbn [all_some]. rewrite E, IH. reflexivity. Qed.

(** the fields of a message are well formed and read back *)
Theorem fields_roundtrip m fs : wf_msg m -> msg_fields W m = Some fs -> blen (ser fs) < two64 ->
  Forall fok fs /\ decode_body W (msg_tag m) (ser fs) = Some m.
Proof.
  intros WM E B.
  assert (Forall fok0 fs -> Forall fok fs) as K by (apply fok_of_len; exact B).
  destruct m as [s a b|s a b|s p|s|i n f|a|i n f|j ss u|d|t]; cbn [msg_fields] in E; cbn [wf_msg] in WM; cbn [msg_tag decode_body].
  1,2: (destruct (node_fields W a) as [x|] eqn:EX; [|discriminate]; destruct (node_fields W b) as [y|] eqn:EY; [|discriminate];
    apply some_inj in E; rewrite app_assoc in E; assert (In (2, WLen (ser x)) fs) as I2 by (subst fs; apply in_or_app; left; right; left; reflexivity);
    assert (In (3, WLen (ser y)) fs) as I3 by (subst fs; apply in_or_app; right; left; reflexivity); rewrite <- app_assoc in E;
    pose proof (len_in_ser _ _ _ I2); pose proof (len_in_ser _ _ _ I3);
    assert (Forall fok fs) as F by (apply K; subst fs; repeat (apply Forall_app; split); first [apply fok0_len|apply fok0_var]; try lia; try (eapply ser_node_wf; [eassumption|lia]));
    split; [exact F|]; rewrite parse_msg_ser; [|exact F|subst fs; reflexivity];
    rewrite (node_at_one 2 fs a x), (node_at_one 3 fs b y); [|subst fs; reflexivity|lia|assumption|subst fs; reflexivity|lia|assumption];
    subst fs; cbn; rewrite u32_small by assumption; reflexivity).
  - apply some_inj in E. destruct WM as [WS WP].
    assert (Forall fok fs) as F by (apply K; subst fs; apply Forall_app; split; [apply fok0_ivar|apply fok0_ilen]; try assumption; lia).
    split; [exact F|]. rewrite parse_msg_ser; [|exact F|subst fs; unfold ivar; destruct (s =? 0), p; reflexivity].
    subst fs. f_equal. f_equal.
    + unfold get_u32, ivar. destruct (N.eqb_spec s 0) as [->|Z]; destruct p; cbn; try reflexivity; apply u32_small; assumption.
    + unfold get_len, ivar. destruct (s =? 0), p; reflexivity.
  - apply some_inj in E. assert (Forall fok fs) as F by (apply K; subst fs; apply fok0_ivar; try assumption; lia).
    split; [exact F|]. rewrite parse_msg_ser; [|exact F|subst fs; unfold ivar; destruct (s =? 0); reflexivity].
    subst fs. f_equal. f_equal. unfold get_u32, ivar. destruct (N.eqb_spec s 0) as [->|Z]; cbn; [reflexivity|]. apply u32_small; assumption.
  - destruct (w_id W n) as [x|] eqn:EX; [|discriminate]. destruct (w_id W f) as [y|] eqn:EY; [|discriminate]. apply some_inj in E.
    destruct HW as [HI _]. destruct (HI _ _ EX) as [WX DX]. destruct (HI _ _ EY) as [WY DY].
    assert (Forall fok fs) as F by (apply K; subst fs; repeat (apply Forall_app; split); first [apply fok0_len|apply fok0_var]; try assumption; lia).
    split; [exact F|]. rewrite parse_msg_ser; [|exact F|subst fs; reflexivity]. subst fs. cbn. rewrite DX, DY, u32_small by assumption. reflexivity.
  - destruct (node_fields W _) as [x|] eqn:EX; [|discriminate]. apply some_inj in E. destruct WM as (WI & WMt & WP & WD).
    assert (In (3, WLen (ser x)) fs) as I3 by (subst fs; apply in_or_app; right; apply in_or_app; right; left; reflexivity).
    pose proof (len_in_ser _ _ _ I3).
    assert (Forall fok fs) as F.
    { apply K. subst fs. repeat (apply Forall_app; split); first [apply fok0_len|apply fok0_ilen|apply fok0_var]; try lia; try assumption; try (unfold u32_max; lia); try apply WMt. eapply ser_node_wf; [eassumption|lia]. }
    split; [exact F|]. rewrite parse_msg_ser; [|exact F|subst fs; destruct (al_meta a); reflexivity].
    rewrite (node_at_one 3 fs (mkNode (al_id a) (al_addr a)) x); [|subst fs; destruct (al_meta a); reflexivity|lia|exact EX]. subst fs.
    unfold get_len, get_u32.
    replace (dflt [] (last_opt (lens 2 _))) with (al_meta a) by (destruct (al_meta a); reflexivity).
    replace (last_opt (vars 4 _)) with (Some (al_pv a)) by (destruct (al_meta a); reflexivity).
    replace (last_opt (vars 5 _)) with (Some (al_dv a)) by (destruct (al_meta a); reflexivity).
    replace (last_opt (vars 1 _)) with (Some (al_inc a)) by (destruct (al_meta a); reflexivity).
    cbn [option_map]. rewrite meta_back, !version_byte, u32_small by assumption. destruct a. reflexivity.
  - destruct (w_id W n) as [x|] eqn:EX; [|discriminate]. destruct (w_id W f) as [y|] eqn:EY; [|discriminate]. apply some_inj in E.
    destruct HW as [HI _]. destruct (HI _ _ EX) as [WX DX]. destruct (HI _ _ EY) as [WY DY].
    assert (Forall fok fs) as F by (apply K; subst fs; repeat (apply Forall_app; split); first [apply fok0_len|apply fok0_var]; try assumption; lia).
    split; [exact F|]. rewrite parse_msg_ser; [|exact F|subst fs; reflexivity]. subst fs. cbn. rewrite DX, DY, u32_small by assumption. reflexivity.
  - destruct (all_some (pns_fields W) ss) as [xs|] eqn:EX; [|discriminate]. apply some_inj in E. destruct WM as [WS WU].
    apply all_some_in in EX. rewrite <- (map_map ser (flen 2)) in E.
    assert (Forall (fun b => blen b <= blen (ser fs)) (map ser xs)) as L.
    { apply Forall_forall. intros b I. apply (len_in_ser 2). subst fs. apply in_or_app. right. apply in_or_app. left. apply in_concat. exists (flen 2 b). split; [apply in_map; exact I|left; reflexivity]. }
    assert (Forall (fun x => Forall fok x /\ typed_ok pns_schema x = true) xs /\ Forall2 (fun x p => pns_of W x = Some p) xs ss) as [FX DX].
    { clear E WU K. revert L WS. induction EX as [|p x ss xs E _ IH]; intros L WS; [split; constructor|].
      cbn [map] in L. inversion_clear L as [|? ? L1 L2]. inversion_clear WS as [|? ? W1 W2]. destruct (IH L2 W2) as [I1 I2].
      destruct (pns_fields_ok p x W1 E) as (A1 & A2 & A3). split; constructor; try assumption. split; [|exact A2]. apply fok_of_len; [lia|exact A1]. }
    assert (Forall fok fs) as F.
    { apply K. subst fs. repeat (apply Forall_app; split).
      - apply fok0_ivar; [lia|]. unfold u32_max. destruct j; lia.
      - clear - FX. induction FX as [|x xs [F _] _ IH]; [constructor|]. cbn [map concat]. apply Forall_app. split; [|exact IH]. apply fok0_len; [lia|]. apply ser_wf. exact F.
      - apply fok0_ilen; [lia|exact WU]. }
    assert (lens 2 fs = map ser xs) as L2.
    { subst fs. rewrite !lens_app, lens_many. replace (lens 2 (ilen 3 u)) with (@nil bytes) by (destruct u; reflexivity). rewrite app_nil_r. destruct j; reflexivity. }
    assert (last_opt (vars 1 fs) = if j then Some 1 else None) as V1.
    { subst fs. rewrite !vars_app, vars_lens. replace (vars 1 (ilen 3 u)) with (@nil N) by (destruct u; reflexivity). destruct j; reflexivity. }
    assert (get_len 3 fs = match u with [] => None | _ => Some u end) as L3.
    { subst fs. unfold get_len. rewrite !lens_app, lens_other by discriminate. replace (lens 3 (ivar 1 (if j then 1 else 0))) with (@nil bytes) by (destruct j; reflexivity). destruct u; reflexivity. }
    split; [exact F|]. rewrite parse_msg_ser; [|exact F|].
    2:{ subst fs. rewrite !typed_app. replace (typed_ok pp_schema (ivar 1 _)) with true by (destruct j; reflexivity). replace (typed_ok pp_schema (ilen 3 u)) with true by (destruct u; reflexivity).
        rewrite andb_true_r. cbn [andb]. clear. induction (map ser xs) as [|x l IH]; [reflexivity|]. cbn [map concat]. rewrite typed_app, IH. reflexivity. }
    rewrite L2, V1, L3. rewrite (all_some_intro _ (map ser xs) ss).
    + destruct j, u; reflexivity.
    + clear - FX DX. induction DX as [|x p xs ss D _ IH]; [constructor|]. inversion_clear FX as [|? ? [F T] FX']. cbn [map]. constructor; [|apply IH; exact FX'].
      rewrite parse_msg_ser by assumption. exact D.
  - apply some_inj in E. assert (Forall fok fs) as F by (apply K; subst fs; apply fok0_ilen; [lia|exact WM]).
    split; [exact F|]. rewrite parse_msg_ser; [|exact F|subst fs; destruct d; reflexivity]. subst fs. destruct d; reflexivity.
  - apply some_inj in E. destruct WM as [WB WU]. assert (Forall fok fs) as F by (apply K; subst fs; apply fok0_ilen; [lia|exact WB]).
    split; [exact F|]. rewrite parse_msg_ser; [|exact F|subst fs; destruct t; reflexivity]. subst fs. destruct t as [|x t]; [reflexivity|].
    cbn [ilen flen lens N.eqb Pos.eqb forallb]. rewrite WU. reflexivity.
Qed.

(** * Frames *)
Lemma encode_message_ok m b : wf_msg m -> encode_message W m = Some b ->
  exists fs, msg_fields W m = Some fs /\ blen (ser fs) <= u32_max /\ pb_size fs = blen (ser fs) /\ wf_bytes (ser fs) /\
    decode_body W (msg_tag m) (ser fs) = Some m /\ encode_plain_frame (msg_tag m) (ser fs) = Ok b.
Proof.
  intros WM. unfold encode_message. destruct (msg_fields W m) as [fs|] eqn:EF; [|discriminate].
  destruct (N.eqb_spec (blen (ser fs)) (body_len fs)) as [E|]; [|discriminate]. intros E2. apply some_inj in E2.
  assert (blen (ser fs) <= u32_max) as L.
  { rewrite E. unfold body_len. pose proof (N.mod_lt (pb_size fs) two32 ltac:(discriminate)). unfold u32_max, two32 in *. lia. }
  assert (blen (ser fs) < two64) as L64 by (unfold two64, u32_max in *; lia).
  destruct (fields_roundtrip m fs WM EF L64) as [F D].
  exists fs. split; [reflexivity|]. split; [exact L|]. split; [symmetry; apply ser_len; exact F|]. split; [apply ser_wf; exact F|]. split; [exact D|].
  rewrite encode_plain_fits by exact L. f_equal. rewrite <- E2. rewrite E. reflexivity.
Qed.
Lemma encode_message_wf m b : wf_msg m -> encode_message W m = Some b -> wf_bytes b.
Proof.
  intros WM E. destruct (encode_message_ok m b WM E) as (fs & _ & L & _ & F & _ & P). apply encode_plain_ok in P as [_ ->].
  constructor; [apply tag_byte_is_byte|]. apply wf_app. split; [apply encode_varint_wf; exact L|exact F].
Qed.
Theorem message_roundtrip m b rest : wf_msg m -> wf_bytes rest -> encode_message W m = Some b -> decode_message W (b ++ rest) = Some (blen b, m).
Proof.
  intros WM WR E. destruct (encode_message_ok m b WM E) as (fs & _ & _ & _ & F & D & P).
  unfold decode_message. rewrite (plain_roundtrip _ _ _ _ F WR P), D. reflexivity.
Qed.
Theorem announced_length m b : wf_msg m -> encode_message W m = Some b ->
  exists fs body, msg_fields W m = Some fs /\ b = tag_byte (msg_tag m) :: encode_varint_u32 (pb_size fs) ++ body /\ blen body = pb_size fs.
Proof.
  intros WM E. destruct (encode_message_ok m b WM E) as (fs & EF & L & S & F & D & P). exists fs, (ser fs). split; [exact EF|].
  apply encode_plain_ok in P as [_ ->]. rewrite S. auto.
Qed.
Lemma msg_fields_some m : encodable W m -> exists fs, msg_fields W m = Some fs.
Proof.
  assert (forall x, enc_node W x -> exists fs, node_fields W x = Some fs) as NF.
  { intros x [A B]. unfold node_fields. destruct (w_id W (nd_id x)); [|congruence]. destruct (w_addr W (nd_addr x)); [|congruence]. eauto. }
  assert (forall x, w_id W x <> None -> exists b, w_id W x = Some b) as NI by (intros x H; destruct (w_id W x); [eauto|congruence]).
  destruct m as [s a b|s a b|s p|s|i n f|a|i n f|j ss u|d|t]; cbn [encodable msg_fields]; intros E; try (eexists; reflexivity).
  1,2: destruct E as [A B]; destruct (NF _ A) as [x ->]; destruct (NF _ B) as [y ->]; eexists; reflexivity.
  - destruct E as [A B]; destruct (NI _ A) as [x ->]; destruct (NI _ B) as [y ->]; eexists; reflexivity.
  - destruct (NF _ E) as [x ->]. eexists; reflexivity.
  - destruct E as [A B]; destruct (NI _ A) as [x ->]; destruct (NI _ B) as [y ->]; eexists; reflexivity.
  - assert (exists xs, all_some (pns_fields W) ss = Some xs) as [xs ->]; [|eexists; reflexivity].
    induction E as [|p ss [A B] _ [xs IH]]; [exists []; reflexivity|]. cbn [all_some nd_id nd_addr] in *. rewrite IH. unfold pns_fields.
    destruct (NI _ A) as [x ->]. destruct (w_addr W (pn_addr p)); [|congruence]. eexists. reflexivity.
Qed.
(** encoding fails exactly when an id or address has no encoding or the body is 4 GiB or more *)
Theorem encode_total m : wf_msg m -> encodable W m ->
  exists fs, msg_fields W m = Some fs /\ (blen (ser fs) <= u32_max <-> exists b, encode_message W m = Some b).
Proof.
  intros WM EN. destruct (msg_fields_some m EN) as [fs EF]. exists fs. split; [exact EF|]. split.
  - intros L. unfold encode_message. rewrite EF.
    assert (blen (ser fs) < two64) as L64 by (unfold two64, u32_max in *; lia).
    destruct (fields_roundtrip m fs WM EF L64) as [F _]. unfold body_len. rewrite <- ser_len by exact F.
    rewrite u32_small by exact L. rewrite N.eqb_refl. eauto.
  - intros [b E]. destruct (encode_message_ok m b WM E) as (fs' & EF' & L & _). congruence.
Qed.

(** * Datagrams *)
Lemma parse_message_back m b : wf_msg m -> encode_message W m = Some b -> parse_message W b = Some m.
Proof.
  intros WM E. unfold parse_message. pose proof (message_roundtrip m b [] WM (Forall_nil _) E) as D. rewrite app_nil_r in D. rewrite D, N.eqb_refl. reflexivity.
Qed.
Lemma parse_plain m b : wf_msg m -> encode_message W m = Some b -> parse_messages W b = Some [m].
Proof.
  intros WM E. unfold parse_messages. rewrite (parse_message_back m b WM E).
  destruct (encode_message_ok m b WM E) as (fs & _ & _ & _ & _ & _ & P). apply encode_plain_ok in P as [_ ->]. cbn [hd]. destruct m; reflexivity.
Qed.
Lemma parse_compound ms parts b : Forall wf_msg ms -> all_some (encode_message W) ms = Some parts -> encode_compound parts = Ok b ->
  parse_messages W b = Some ms.
Proof.
  intros WM E P. apply all_some_in in E.
  assert (Forall wf_bytes parts /\ Forall2 (fun p m => parse_message W p = Some m) parts ms) as [FW F2].
  { clear P. induction E as [|m p ms ps E _ IH]; [split; constructor|]. inversion_clear WM as [|? ? W1 W2]. destruct (IH W2) as [A B].
    split; constructor; try assumption; [apply (encode_message_wf m); assumption|apply parse_message_back; assumption]. }
  unfold parse_messages. rewrite (compound_roundtrip parts b FW P).
  assert (hd 0 b = 1) as ->.
  { unfold encode_compound in P. destruct (_ <? _); [discriminate|]. destruct (_ <? _); [discriminate|]. destruct (encode_parts parts); [|discriminate]. injection P as <-. reflexivity. }
  change (1 =? tag_byte CodecModel.TCompound) with true. cbn iota. apply all_some_intro. exact F2.
Qed.
Lemma label_back l inner raw : wf_bytes (dflt [] l) -> wrap_label inner l = Ok raw -> inner <> [] -> hd 0 inner <> 12 -> decode_incoming raw l = Ok inner.
Proof.
  intros WL E NE H. rewrite (datagram_label_matrix l l inner raw); try assumption.
  destruct (effective_label l) as [x|]; [|reflexivity]. assert (bytes_eqb x x = true) as ->; [|reflexivity].
  clear. induction x as [|a x IH]; [reflexivity|]. cbn. rewrite N.eqb_refl. exact IH.
Qed.
Theorem receive_plain l m raw : wf_bytes (dflt [] l) -> wf_msg m -> encode_outgoing W l m = Some raw -> receive W l raw = Some [m].
Proof.
  intros WL WM. unfold encode_outgoing. destruct (encode_message W m) as [b|] eqn:E; [|discriminate].
  destruct (wrap_label b l) as [r|] eqn:EW; [|discriminate]. intros [= <-].
  destruct (encode_message_ok m b WM E) as (fs & _ & _ & _ & _ & _ & P). destruct (plain_frame_not_label _ _ _ P) as [N1 N2].
  unfold receive. rewrite (label_back l b r WL EW N1 N2). apply parse_plain; assumption.
Qed.
Theorem receive_compound l ms raw : wf_bytes (dflt [] l) -> Forall wf_msg ms -> encode_outgoing_compound W l ms = Some raw -> receive W l raw = Some ms.
Proof.
  intros WL WM. unfold encode_outgoing_compound. destruct (all_some (encode_message W) ms) as [ps|] eqn:E; [|discriminate].
  destruct (encode_compound ps) as [b|] eqn:P; [|discriminate].
  destruct (wrap_label b l) as [r|] eqn:EW; [|discriminate]. intros [= <-].
  destruct (compound_not_label _ _ P) as [N1 N2].
  unfold receive. rewrite (label_back l b r WL EW N1 N2). apply (parse_compound ms ps b); assumption.
Qed.
End W.

(** * What a decoded message can hold *)
Lemma pb_dec_rest f : forall l v r, pb_dec f l = Some (v, r) -> exists p, l = p ++ r.
Proof.
  induction f as [|f IH]; intros l v r; [discriminate|]. destruct l as [|b l]; [discriminate|]. cbn [pb_dec].
  destruct (b <? 128); [intros [= <- <-]; exists [b]; reflexivity|]. destruct (pb_dec f l) as [[v' r']|] eqn:E; [|discriminate].
  intros [= <- <-]. destruct (IH _ _ _ E) as [p ->]. exists (b :: p). reflexivity.
Qed.
Lemma read_varint_rest l v r : pb_read_varint l = Some (v, r) -> (exists p, l = p ++ r) /\ v < two64.
Proof.
  unfold pb_read_varint. destruct (pb_dec 10 l) as [[v' r']|] eqn:E; [|discriminate]. destruct (N.ltb_spec v' two64); [|discriminate].
  intros [= <- <-]. split; [apply (pb_dec_rest _ _ _ _ E)|assumption].
Qed.
Lemma take_n_split n l b r : take_n n l = Some (b, r) -> l = b ++ r.
Proof. unfold take_n. destruct (_ <? _); [discriminate|]. intros [= <- <-]. symmetry. apply btake_bdrop. Qed.
Definition lwf (f : field) : Prop := match snd f with WLen b => wf_bytes b | _ => True end.
Lemma read_field_wf l f r : wf_bytes l -> read_field l = Some (f, r) -> lwf f /\ wf_bytes r.
Proof.
  intros WB. unfold read_field. destruct (pb_read_varint l) as [[key r0]|] eqn:E; [|discriminate].
  destruct (read_varint_rest _ _ _ E) as [[p ->] _]. apply wf_app in WB as [_ WB]. destruct (_ || _); [discriminate|].
  destruct (key mod 8) as [|q]; [|destruct q as [[q|[q|q|]|]|[q|q|]|]]; try discriminate.
  - destruct (pb_read_varint r0) as [[v r1]|] eqn:E1; [|discriminate]. intros [= <- <-]. destruct (read_varint_rest _ _ _ E1) as [[p1 ->] _]. apply wf_app in WB as [_ WB]. split; [exact I|exact WB].
  - destruct (take_n 4 r0) as [[v r1]|] eqn:E1; [|discriminate]. intros [= <- <-]. apply take_n_split in E1. subst r0. apply wf_app in WB as [_ WB]. split; [exact I|exact WB].
  - destruct (pb_read_varint r0) as [[v r1]|] eqn:E1; [|discriminate]. destruct (read_varint_rest _ _ _ E1) as [[p1 ->] _]. apply wf_app in WB as [_ WB].
    destruct (take_n v r1) as [[b r2]|] eqn:E2; [|discriminate]. intros [= <- <-]. apply take_n_split in E2. subst r1. apply wf_app in WB. exact WB.
  - destruct (take_n 8 r0) as [[v r1]|] eqn:E1; [|discriminate]. intros [= <- <-]. apply take_n_split in E1. subst r0. apply wf_app in WB as [_ WB]. split; [exact I|exact WB].
Qed.
Lemma parse_fields_wf l fs : wf_bytes l -> parse_fields l = Some fs -> Forall lwf fs.
Proof.
  unfold parse_fields. generalize (length l) as n. intros n. revert l fs. induction n as [|n IH]; intros l fs WB; destruct l as [|b l]; cbn [parse_loop]; try (intros [= <-]; constructor); try discriminate.
  destruct (read_field (b :: l)) as [[f r]|] eqn:E; [|discriminate]. destruct (parse_loop n r) as [fs'|] eqn:P; [|discriminate]. intros [= <-].
  destruct (read_field_wf _ _ _ WB E) as [A B]. constructor; [exact A|]. apply (IH r); assumption.
Qed.
Lemma parse_msg_wf sc l fs : wf_bytes l -> parse_msg sc l = Some fs -> Forall lwf fs.
Proof. intros WB. unfold parse_msg. destruct (parse_fields l) as [x|] eqn:E; [|discriminate]. destruct (typed_ok sc x); [|discriminate]. intros [= <-]. apply (parse_fields_wf l); assumption. Qed.
Lemma lens_wf n fs : Forall lwf fs -> Forall wf_bytes (lens n fs).
Proof. induction 1 as [|[m v] fs H _ IH]; [constructor|]. cbn [lens]. destruct v; try exact IH. destruct (m =? n); [constructor; [exact H|]|]; exact IH. Qed.
Lemma last_opt_in {A} (l : list A) x : last_opt l = Some x -> In x l.
Proof. unfold last_opt. destruct (rev l) eqn:E; [discriminate|]. intros [= <-]. apply in_rev. rewrite E. left. reflexivity. Qed.
Lemma get_len_wf n fs b : Forall lwf fs -> get_len n fs = Some b -> wf_bytes b.
Proof. intros F E. apply last_opt_in in E. pose proof (lens_wf n fs F) as L. rewrite Forall_forall in L. apply L, E. Qed.
Lemma dflt_len_wf n fs : Forall lwf fs -> wf_bytes (dflt [] (get_len n fs)).
Proof. intros F. destruct (get_len n fs) eqn:E; [apply (get_len_wf n fs); assumption|constructor]. Qed.
Lemma get_u32_range n fs v : get_u32 n fs = Some v -> v <= u32_max.
Proof. unfold get_u32. destruct (last_opt _) as [x|]; [|discriminate]. intros [= <-]. pose proof (N.mod_lt x two32 ltac:(discriminate)). unfold u32_max, two32 in *. lia. Qed.
Lemma dflt_u32_range n fs : dflt 0 (get_u32 n fs) <= u32_max.
Proof. destruct (get_u32 n fs) eqn:E; [apply (get_u32_range n fs); assumption|unfold u32_max; cbn; lia]. Qed.
Lemma state_of_wf v s : state_of v = Some s -> wf_state s.
Proof.
  unfold state_of. destruct (N.ltb_spec 255 v); [discriminate|]. intros [= <-]. destruct v as [|[[p|p|]|[p|p|]|]]; cbn [wf_state]; try exact I; lia.
Qed.
Lemma version_of_range v x : version_of v = Some x -> x < 256.
Proof. destruct v as [v|]; cbn [version_of]; [|intros [= <-]; reflexivity]. destruct (N.ltb_spec 255 v); [discriminate|]. intros [= <-]. lia. Qed.
Lemma meta_of_wf b m : wf_bytes b -> meta_of b = Some m -> wf_meta m.
Proof. intros WB. unfold meta_of, META_MAX. destruct (N.ltb_spec 65535 (blen b)); [discriminate|]. intros [= <-]. split; [exact WB|lia]. Qed.

Section W2.
Variable W : wcodec.
Lemma pns_of_wf fs p : Forall lwf fs -> pns_of W fs = Some p -> wf_pns p.
Proof.
  intros F. unfold pns_of. destruct (get_len 1 fs); [|discriminate]. destruct (get_len 2 fs); [|discriminate]. destruct (w_id_of W _); [|discriminate]. destruct (w_addr_of W _); [|discriminate].
  destruct (get_u32 4 fs) as [i|] eqn:E4; [|discriminate]. destruct (get_u32 5 fs); [|discriminate]. destruct (state_of _) as [s|] eqn:ES; [|discriminate].
  destruct (meta_of _) as [m|] eqn:EM; [|discriminate]. destruct (version_of (get_u32 6 fs)) as [pv|] eqn:E6; [|discriminate]. destruct (version_of (get_u32 7 fs)) as [dv|] eqn:E7; [|discriminate].
  intros [= <-]. repeat split; cbn.
  - apply (get_u32_range _ _ _ E4).
  - apply (state_of_wf _ _ ES).
  - apply (meta_of_wf _ _ (dflt_len_wf 3 fs F) EM).
  - apply (meta_of_wf _ _ (dflt_len_wf 3 fs F) EM).
  - apply (version_of_range _ _ E6).
  - apply (version_of_range _ _ E7).
Qed.
Theorem decode_body_wf t l m : wf_bytes l -> decode_body W t l = Some m -> wf_msg m /\ msg_tag m = t.
Proof.
  intros WB. destruct t; cbn [decode_body]; try discriminate.
  all: match goal with |- context [parse_msg ?sc ?y] => destruct (parse_msg sc y) as [fs|] eqn:P; [|discriminate]; pose proof (parse_msg_wf sc y fs WB P) as F end.
  1,2: destruct (node_at W 2 fs); [|discriminate]; destruct (node_at W 3 fs); [|discriminate]; destruct (get_u32 1 fs) as [s|] eqn:E; [|discriminate]; intros [= <-]; split; [apply (get_u32_range _ _ _ E)|reflexivity].
  - intros [= <-]. split; [|reflexivity]. split; [apply dflt_u32_range|apply dflt_len_wf; exact F].
  - destruct (get_len 2 fs); [|discriminate]. destruct (get_len 3 fs); [|discriminate]. destruct (get_u32 1 fs) as [s|] eqn:E; [|discriminate]. destruct (w_id_of W l0); [|discriminate]. destruct (w_id_of W l1); [|discriminate].
    intros [= <-]; split; [apply (get_u32_range _ _ _ E)|reflexivity].
  - destruct (node_at W 3 fs); [|discriminate]. destruct (meta_of _) as [mt|] eqn:EM; [|discriminate]. destruct (version_of (get_u32 4 fs)) as [pv|] eqn:E4; [|discriminate]. destruct (version_of (get_u32 5 fs)) as [dv|] eqn:E5; [|discriminate].
    destruct (get_u32 1 fs) as [i|] eqn:E; [|discriminate]. intros [= <-]. split; [|reflexivity]. cbn. repeat split.
    + apply (get_u32_range _ _ _ E).
    + apply (meta_of_wf _ _ (dflt_len_wf 2 fs F) EM).
    + apply (meta_of_wf _ _ (dflt_len_wf 2 fs F) EM).
    + apply (version_of_range _ _ E4).
    + apply (version_of_range _ _ E5).
  - destruct (get_len 2 fs); [|discriminate]. destruct (get_len 3 fs); [|discriminate]. destruct (get_u32 1 fs) as [s|] eqn:E; [|discriminate]. destruct (w_id_of W l0); [|discriminate]. destruct (w_id_of W l1); [|discriminate].
    intros [= <-]; split; [apply (get_u32_range _ _ _ E)|reflexivity].
  - destruct (all_some _ _) as [ss|] eqn:E; [|discriminate]. intros [= <-]. split; [|reflexivity]. split; [|apply dflt_len_wf; exact F].
    apply all_some_in in E. pose proof (lens_wf 2 fs F) as L. clear - E L. induction E as [|b p bs ss E _ IH]; [constructor|]. inversion_clear L as [|? ? L1 L2]. constructor; [|apply IH; exact L2].
    destruct (parse_msg pns_schema b) as [x|] eqn:P; [|discriminate]. apply (pns_of_wf x); [apply (parse_msg_wf pns_schema b); assumption|exact E].
  - intros [= <-]. split; [|reflexivity]. apply dflt_len_wf; exact F.
  - intros [= <-]. split; [|reflexivity]. apply dflt_u32_range.
  - destruct (forallb utf8_valid (lens 1 fs)) eqn:U; [|discriminate]. intros [= <-]. split; [|reflexivity]. split; [apply dflt_len_wf; exact F|].
    destruct (get_len 1 fs) as [b|] eqn:G; [|reflexivity]. apply last_opt_in in G. rewrite forallb_forall in U. apply U, G.
Qed.
Theorem decode_message_wf buf n m : wf_bytes buf -> decode_message W buf = Some (n, m) -> wf_msg m /\ n <= blen buf /\ hd 0 buf = tag_byte (msg_tag m).
Proof.
  intros WB. unfold decode_message. destruct (decode_plain_frame buf) as [[[t body] c]|] eqn:E; [|discriminate].
  destruct (decode_body W t body) as [x|] eqn:D; [|discriminate]. intros [= <- <-].
  destruct (decode_plain_ok _ _ _ _ WB E) as (vi & rest & -> & _ & _ & _ & _ & ->).
  apply Forall_inv_tail in WB. apply wf_app in WB as [_ WB]. apply wf_app in WB as [WB _].
  destruct (decode_body_wf _ _ _ WB D) as [A B]. split; [exact A|]. split; [rewrite blen_cons, !blen_app; lia|]. cbn [hd]. rewrite B. reflexivity.
Qed.

(** * Unknown fields *)
Lemma lens_filter sc n fs : existsb (fun x => fst x =? n) sc = true -> lens n (filter (is_known sc) fs) = lens n fs.
Proof.
  intros H. induction fs as [|[m v] fs IH]; [reflexivity|]. cbn [filter lens]. destruct (is_known sc (m, v)) eqn:K; [cbn [lens]; rewrite IH; reflexivity|].
  destruct v; try exact IH. destruct (N.eqb_spec m n) as [->|]; [unfold is_known in K; cbn [fst] in K; congruence|exact IH].
Qed.
Lemma vars_filter sc n fs : existsb (fun x => fst x =? n) sc = true -> vars n (filter (is_known sc) fs) = vars n fs.
Proof.
  intros H. induction fs as [|[m v] fs IH]; [reflexivity|]. cbn [filter vars]. destruct (is_known sc (m, v)) eqn:K; [cbn [vars]; rewrite IH; reflexivity|].
  destruct v; try exact IH. destruct (N.eqb_spec m n) as [->|]; [unfold is_known in K; cbn [fst] in K; congruence|exact IH].
Qed.
Lemma typed_filter sc fs : typed_ok sc (filter (is_known sc) fs) = typed_ok sc fs.
Proof.
  induction fs as [|f fs IH]; [reflexivity|]. cbn [filter]. destruct (is_known sc f) eqn:K; cbn [typed_ok forallb]; fold (typed_ok sc fs); [fold (typed_ok sc (filter (is_known sc) fs)); rewrite IH; reflexivity|].
  rewrite IH. replace (find (fun x => fst x =? fst f) sc) with (@None (N * N)); [reflexivity|].
  unfold is_known in K. clear - K. induction sc as [|x sc IH]; [reflexivity|]. cbn [existsb find] in *. destruct (fst x =? fst f); [discriminate|]. apply IH, K.
Qed.
Lemma filter_ok {A} (P : A -> Prop) p (l : list A) : Forall P l -> Forall P (filter p l).
Proof. rewrite !Forall_forall. intros H x I. apply H. apply filter_In in I. apply I. Qed.
Theorem unknown_fields_ignored t fs : Forall fok fs -> decode_body W t (ser fs) = decode_body W t (ser (filter (is_known (known t)) fs)).
Proof.
  intros F. pose proof (filter_ok fok (is_known (known t)) fs F) as F'.
  assert (forall sc, known t = sc -> parse_msg sc (ser fs) = if typed_ok sc fs then Some fs else None) as P1 by (intros; unfold parse_msg; rewrite parse_ser by exact F; reflexivity).
  assert (forall sc, known t = sc -> parse_msg sc (ser (filter (is_known (known t)) fs)) = if typed_ok sc fs then Some (filter (is_known (known t)) fs) else None) as P2.
  { intros sc <-. unfold parse_msg. rewrite parse_ser by exact F'. rewrite typed_filter. reflexivity. }
  destruct t; cbn [known decode_body] in *; try reflexivity; rewrite P1, P2 by reflexivity; destruct (typed_ok _ _); try reflexivity;
    unfold node_at, get_msg, get_len, get_u32; rewrite ?lens_filter, ?vars_filter by reflexivity; reflexivity.
Qed.

Lemma lens_occurs n fs b : In b (lens n fs) -> occurs n fs.
Proof.
  intros H. exists (WLen b). induction fs as [|[k v] r IH]; [destruct H|]. destruct v; cbn [lens] in H;
    try (right; exact (IH H)). destruct (N.eqb_spec k n) as [->|]; [destruct H as [->|H]; [left; reflexivity|]|]; right; exact (IH H).
Qed.
Lemma vars_occurs n fs v : In v (vars n fs) -> occurs n fs.
Proof.
  intros H. exists (WVar v). induction fs as [|[k w] r IH]; [destruct H|]. destruct w; cbn [vars] in H;
    try (right; exact (IH H)). destruct (N.eqb_spec k n) as [->|]; [destruct H as [->|H]; [left; reflexivity|]|]; right; exact (IH H).
Qed.
Lemma get_len_occurs n fs b : get_len n fs = Some b -> occurs n fs.
Proof. intros H. apply last_opt_in in H. exact (lens_occurs _ _ _ H). Qed.
Lemma get_u32_occurs n fs b : get_u32 n fs = Some b -> occurs n fs.
Proof. unfold get_u32. destruct (last_opt (vars n fs)) eqn:E; [|discriminate]. intros _. apply last_opt_in in E. exact (vars_occurs _ _ _ E). Qed.
Lemma node_at_occurs n fs x : node_at W n fs = Some x -> occurs n fs.
Proof.
  unfold node_at, get_msg. destruct (lens n fs) as [|b r] eqn:E; [discriminate|]. intros _. apply (lens_occurs n fs b). rewrite E. left; reflexivity.
Qed.
Lemma all_some_each {A B} (f : A -> option B) l ys x : all_some f l = Some ys -> In x l -> exists y, f x = Some y.
Proof.
  intros H I. apply all_some_in in H. revert I. induction H as [|a b r s E _ IH]; [intros []|]. intros [->|I]; [eauto|exact (IH I)].
Qed.
Lemma lens_in n fs b : In (n, WLen b) fs -> In b (lens n fs).
Proof.
  induction fs as [|[k v] r IH]; [intros []|]. intros [[= -> ->]|H]; cbn [lens]; [rewrite N.eqb_refl; left; reflexivity|].
  destruct v; try exact (IH H). destruct (k =? n); [right|]; exact (IH H).
Qed.
Theorem required_fields t fs m : Forall fok fs -> decode_body W t (ser fs) = Some m ->
  forall n, In n (required t) -> occurs n fs.
Proof.
  intros F D n I.
  assert (forall sc fs', parse_msg sc (ser fs) = Some fs' -> fs' = fs) as P.
  { intros sc fs'. unfold parse_msg. rewrite parse_ser by exact F. destruct (typed_ok sc fs); [intros [= ->]; reflexivity|discriminate]. }
  destruct t; cbn [required decode_body] in *; try contradiction;
    (destruct (parse_msg _ (ser fs)) as [fs'|] eqn:E; [|discriminate]; apply P in E; subst fs').
  1,2: destruct (node_at W 2 fs) eqn:E1; [|discriminate]; destruct (node_at W 3 fs) eqn:E2; [|discriminate]; destruct (get_u32 1 fs) eqn:E3; [|discriminate];
    cbn in I; destruct I as [<-|[<-|[<-|[]]]]; eauto using node_at_occurs, get_u32_occurs.
  1,3: destruct (get_len 2 fs) eqn:E1; [|discriminate]; destruct (get_len 3 fs) eqn:E2; [|discriminate]; destruct (get_u32 1 fs) eqn:E3; [|discriminate];
    cbn in I; destruct I as [<-|[<-|[<-|[]]]]; eauto using get_len_occurs, get_u32_occurs.
  destruct (node_at W 3 fs) eqn:E1; [|discriminate]. destruct (meta_of _); [|discriminate]. destruct (version_of (get_u32 4 fs)); [|discriminate].
  destruct (version_of (get_u32 5 fs)); [|discriminate]. destruct (get_u32 1 fs) eqn:E3; [|discriminate].
  cbn in I; destruct I as [<-|[<-|[]]]; eauto using node_at_occurs, get_u32_occurs.
Qed.
Theorem required_state_fields fs m x : Forall fok fs -> decode_body W TPushPull (ser fs) = Some m ->
  In (2, WLen (ser x)) fs -> Forall fok x -> forall n, In n required_state -> occurs n x.
Proof.
  intros F D Ix Fx n I. cbn [decode_body] in D. unfold parse_msg at 1 in D. rewrite parse_ser in D by exact F.
  destruct (typed_ok pp_schema fs); [|discriminate]. destruct (all_some _ (lens 2 fs)) eqn:A; [|discriminate].
  destruct (all_some_each _ _ _ (ser x) A (lens_in _ _ _ Ix)) as (y & Y). unfold parse_msg in Y. rewrite parse_ser in Y by exact Fx.
  destruct (typed_ok pns_schema x); [|discriminate]. unfold pns_of in Y.
  destruct (get_len 1 x) eqn:E1; [|discriminate]. destruct (get_len 2 x) eqn:E2; [|discriminate]. destruct (w_id_of W _); [|discriminate]. destruct (w_addr_of W _); [|discriminate].
  destruct (get_u32 4 x) eqn:E4; [|discriminate]. destruct (get_u32 5 x) eqn:E5; [|discriminate].
  cbn in I. destruct I as [<-|[<-|[<-|[<-|[]]]]]; eauto using get_len_occurs, get_u32_occurs.
Qed.
Lemma lens_drop n p fs : (forall v, p (n, v) = true) -> lens n (filter p fs) = lens n fs.
Proof.
  intros H. induction fs as [|[k v] r IH]; [reflexivity|]. cbn [filter]. destruct (p (k, v)) eqn:E; [destruct v; cbn [lens]; rewrite ?IH; reflexivity|].
  rewrite IH. destruct v; try reflexivity. cbn [lens]. destruct (N.eqb_spec k n) as [->|]; [rewrite H in E; discriminate|reflexivity].
Qed.
Lemma vars_drop n p fs : (forall v, p (n, v) = true) -> vars n (filter p fs) = vars n fs.
Proof.
  intros H. induction fs as [|[k v] r IH]; [reflexivity|]. cbn [filter]. destruct (p (k, v)) eqn:E; [destruct v; cbn [vars]; rewrite ?IH; reflexivity|].
  rewrite IH. destruct v; try reflexivity. cbn [vars]. destruct (N.eqb_spec k n) as [->|]; [rewrite H in E; discriminate|reflexivity].
Qed.
Lemma vars_gone n p fs : (forall v, p (n, v) = false) -> vars n (filter p fs) = [].
Proof.
  intros H. induction fs as [|[k v] r IH]; [reflexivity|]. cbn [filter]. destruct (p (k, v)) eqn:E; [|exact IH].
  destruct v; cbn [vars]; try exact IH. destruct (N.eqb_spec k n) as [->|]; [rewrite H in E; discriminate|exact IH].
Qed.
Theorem versions_default fs a : Forall fok fs -> decode_body W TAlive (ser fs) = Some (MAlive a) ->
  decode_body W TAlive (ser (filter (fun f => negb ((fst f =? 4) || (fst f =? 5))) fs)) =
  Some (MAlive (mkAlive (al_inc a) (al_id a) (al_addr a) (al_meta a) 1 1)).
Proof.
  set (p := fun f : N * wval => negb ((fst f =? 4) || (fst f =? 5))). intros F D. change (filter _ fs) with (filter p fs).
  cbn [decode_body] in *. unfold parse_msg in *. rewrite (parse_ser fs) in D by exact F. rewrite (parse_ser (filter p fs)) by (apply filter_ok; exact F).
  assert (forall sc, typed_ok sc fs = true -> typed_ok sc (filter p fs) = true) as T.
  { intros sc. unfold typed_ok. rewrite !forallb_forall. intros H x I. apply H. apply filter_In in I. exact (proj1 I). }
  destruct (typed_ok alive_schema fs) eqn:E; [|discriminate]. rewrite (T _ E).
  unfold node_at, get_msg, get_len, get_u32 in *. rewrite !(lens_drop _ p) by (intros; reflexivity).
  rewrite (vars_drop 1 p) by (intros; reflexivity). rewrite (vars_gone 4 p), (vars_gone 5 p) by (intros; reflexivity). cbn [last_opt option_map version_of].
  repeat match type of D with match ?x with _ => _ end = _ => destruct x eqn:?; try discriminate end.
  all: injection D as <-; reflexivity.
Qed.
End W2.
