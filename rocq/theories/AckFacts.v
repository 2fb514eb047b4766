(** Proofs about the ack registry. *)
From Coq Require Import Sorting.Permutation.
From Verif Require Import Base BaseFacts MapModel MapFacts AckModel.
Local Open Scope N_scope.

Lemma min_deadline_spec l :
  match min_deadline l with
  | Some x => In x l /\ forall y, In y l -> a_deadline (snd x) <= a_deadline (snd y)
  | None => l = []
  end.
Proof.
  induction l as [|x l IH]; cbn [min_deadline]; [reflexivity|].
  destruct (min_deadline l) as [y|].
  - destruct IH as [Hy HM]. destruct (N.ltb_spec (a_deadline (snd y)) (a_deadline (snd x))) as [L|L].
    + split; [right; exact Hy|]. intros z [<-|Hz]; [lia|auto].
    + split; [left; reflexivity|]. intros z [<-|Hz]; [lia|]. specialize (HM z Hz). lia.
  - subst l. split; [left; reflexivity|]. intros z [<-|[]]. lia.
Qed.
Lemma poll_spec now it R : NoDup (akeys R) -> Permutation it R ->
  match ack_poll_expired now it R with
  | (R', Some (seq, e)) =>
      aget seq R = Some e /\ a_deadline e <= now /\ R' = adel seq R /\
      forall s e', aget s R = Some e' -> a_deadline e <= a_deadline e'
  | (R', None) => R' = R /\ forall s e', aget s R = Some e' -> now < a_deadline e'
  end.
Proof.
  intros ND P. unfold ack_poll_expired.
  pose proof (min_deadline_spec (filter (fun p => a_deadline (snd p) <=? now) it)) as M.
  destruct (min_deadline _) as [[seq e]|].
  - destruct M as [HI HM]. apply filter_In in HI. destruct HI as [HI HL]. cbn [snd] in HL. apply N.leb_le in HL.
    apply (Permutation_in _ P) in HI. split; [apply aget_of_in; assumption|]. split; [exact HL|]. split; [reflexivity|].
    intros s e' E. apply aget_in in E. destruct (N.le_gt_cases (a_deadline e') now) as [L|L]; [|lia].
    apply (HM (s, e')). apply filter_In. split; [apply (Permutation_in _ (Permutation_sym P)), E|].
    apply N.leb_le, L.
  - split; [reflexivity|]. intros s e' E. apply aget_in in E. apply (Permutation_in _ (Permutation_sym P)) in E.
    destruct (N.le_gt_cases (a_deadline e') now) as [L|L]; [|exact L].
    assert (In (s, e') (filter (fun p => a_deadline (snd p) <=? now) it)) as C.
    { apply filter_In. split; [exact E|]. apply N.leb_le, L. }
    rewrite M in C. destruct C.
Qed.

(** The oracle of an [APoll] really permutes. *)
Definition fair_op (o : ack_op) : Prop := match o with APoll _ f => forall R, Permutation (f R) R | _ => True end.
Definition registers (seq : N) (os : list ack_op) : N :=
  blen (filter (fun o => match o with ARegister s _ => s =? seq | _ => false end) os).
Definition resolutions (seq : N) (l : list (N * ack_entry)) : N := blen (filter (fun p => fst p =? seq) l).

Lemma step_ack R o : NoDup (akeys R) -> fair_op o ->
  NoDup (akeys (fst (ack_step R o))) /\
  forall seq,
    match snd (ack_step R o) with
    | Some (s, e) => aget s R = Some e /\ aget s (fst (ack_step R o)) = None /\
                     (s <> seq -> aget seq (fst (ack_step R o)) = aget seq R)
    | None => (exists e, o = ARegister seq e) \/ aget seq (fst (ack_step R o)) = aget seq R
    end.
Proof.
  intros ND HF. destruct o as [s e|s|s|now f]; cbn [ack_step]; unfold ack_register, ack_handle, ack_remove; cbn [fst snd].
  - split; [apply nodup_aset, ND|]. intros seq. rewrite aget_aset. destruct (N.eqb_spec seq s) as [->|]; eauto.
  - split; [apply nodup_adel, ND|]. intros seq. destruct (aget s R) as [e|] eqn:E; cbn [option_map].
    + split; [exact E|]. split; [apply aget_adel_eq|]. intros H. apply aget_adel_ne. congruence.
    + right. rewrite adel_none by exact E. reflexivity.
  - split; [apply nodup_adel, ND|]. intros seq. destruct (aget s R) as [e|] eqn:E; cbn [option_map].
    + split; [exact E|]. split; [apply aget_adel_eq|]. intros H. apply aget_adel_ne. congruence.
    + right. rewrite adel_none by exact E. reflexivity.
  - pose proof (poll_spec now (f R) R ND (HF R)) as P.
    destruct (ack_poll_expired now (f R) R) as [R' [[s e]|]]; cbn [fst snd].
    + destruct P as (E & _ & -> & _). split; [apply nodup_adel, ND|]. intros seq. split; [exact E|].
      split; [apply aget_adel_eq|]. intros H. apply aget_adel_ne. congruence.
    + destruct P as [-> _]. split; [exact ND|]. auto.
Qed.
Definition pending (seq : N) (R : ack_registry) : N := match aget seq R with Some _ => 1 | None => 0 end.
Lemma run_ack seq os : Forall fair_op os -> forall R, NoDup (akeys R) ->
  resolutions seq (snd (ack_run R os)) + pending seq (fst (ack_run R os)) <= pending seq R + registers seq os.
Proof.
  induction 1 as [|o os HF _ IH]; intros R ND; cbn [ack_run].
  - cbn. lia.
  - destruct (step_ack R o ND HF) as [ND1 S]. specialize (S seq).
    destruct (ack_step R o) as [R1 x]. cbn [fst snd] in *. specialize (IH R1 ND1).
    destruct (ack_run R1 os) as [R2 l]. cbn [fst snd] in *.
    assert (registers seq (o :: os) = (match o with ARegister s _ => if s =? seq then 1 else 0 | _ => 0 end) + registers seq os) as ER.
    { unfold registers. cbn [filter]. destruct o; try lia. destruct (seq0 =? seq); rewrite ?blen_cons; lia. }
    rewrite ER. destruct x as [[s e]|].
    + destruct S as (E & E1 & E2). unfold resolutions in *. cbn [filter fst].
      destruct (N.eqb_spec s seq) as [->|Hs].
      * rewrite blen_cons. unfold pending in *. rewrite E. rewrite E1 in IH. lia.
      * unfold pending in *. rewrite (E2 Hs) in IH. lia.
    + destruct S as [(e & ->)|S].
      * rewrite N.eqb_refl. unfold pending in *. destruct (aget seq R1), (aget seq R); lia.
      * unfold pending in *. rewrite S in IH. lia.
Qed.
