(** Vocabulary for the stream properties: runs of a stream and what was observed
    during one. *)
From Verif Require Import Base CodecModel MsgModel EndpointModel WireModel StreamModel.
Local Open Scope N_scope.

(** a call with what it returned *)
Definition sact : Type := sop * list sres.
Fixpoint s_final (W : wcodec) (s : stream) (os : list sop) : stream :=
  match os with [] => s | o :: os => s_final W (fst (s_step W s o)) os end.
Fixpoint s_trace (W : wcodec) (s : stream) (os : list sop) : list sact :=
  match os with [] => [] | o :: os => (o, snd (s_step W s o)) :: s_trace W (fst (s_step W s o)) os end.

(** Everything returned, and the parts of it: chunks handed to the transport,
    events for the endpoint, failure notices *)
Definition returned (tr : list sact) : list sres := concat (map snd tr).
Definition sent (tr : list sact) : list bytes :=
  concat (map (fun r => match r with SrSent c => [c] | _ => [] end) (returned tr)).
Definition delivered (tr : list sact) : list sevent :=
  concat (map (fun r => match r with SrEndpoint e => [e] | _ => [] end) (returned tr)).
Definition notices (tr : list sact) : list slife :=
  concat (map (fun r => match r with SrEvent e => [e] | _ => [] end) (returned tr)).
Definition is_failure (l : slife) : bool := match l with SlFailed _ => true | SlClosed => false end.
(** All bytes fed to the stream *)
Definition fed (tr : list sact) : bytes :=
  concat (map (fun a => match fst a with SoData d _ => d | _ => [] end) tr).
(** The driver loads at most one response, and only after it was handed a
    push/pull request of this stream (StreamCommand::SendPushPullResponse is
    returned by handle_stream_event for that event only) *)
Definition is_request (r : sres) : bool := match r with SrEndpoint (SERequest _ _ _ _ _) => true | _ => false end.
Fixpoint loads_ok (may : bool) (tr : list sact) : bool :=
  match tr with
  | [] => true
  | (SoLoad _ _, _) :: t => may && loads_ok false t
  | (_, rs) :: t => loads_ok (may || existsb is_request rs) t
  end.
Definition no_discard (os : list sop) : bool := forallb (fun o => match o with SoDiscard => false | _ => true end) os.

(** the clock value of a call, if it takes one *)
Definition op_time (o : sop) : option N :=
  match o with SoData _ t | SoTransmit t | SoTimeout t => Some t | _ => None end.
(** responses loaded by the driver *)
Definition loads (tr : list sact) : list bytes :=
  concat (map (fun a => match fst a with SoLoad b _ => [b] | _ => [] end) tr).

(** A stream as the endpoint hands it out: one it dialled, with its request, or
    one it accepted *)
Definition fresh (s : stream) : Prop :=
  (exists id peer local max d, s = stream_inbound id peer local max d) \/
  (exists id peer local max k req d, req <> [] /\ s = stream_outbound id peer local max k req d).
(** calls that feed these chunks at these times *)
Definition feed (cs : list (bytes * N)) : list sop := map (fun c => SoData (fst c) (snd c)) cs.
(** chunks that carry these bytes, at times at which the deadline has not passed *)
Definition carries (b : bytes) (cs : list (bytes * N)) (d : N) : Prop :=
  concat (map fst cs) = b /\ Forall (fun x => fst x <> [] /\ snd x < d) cs.
(** the deadline in force: the first one, or the one of the last load *)
Fixpoint last_load (d : N) (os : list sop) : N :=
  match os with [] => d | SoLoad _ d' :: os => last_load d' os | _ :: os => last_load d os end.
