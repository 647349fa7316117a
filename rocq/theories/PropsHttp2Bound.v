(* How much an HTTP/2 handler is called: C76.  Vocabulary: data_bytes and
   frames of Http2Bound.v and feed of Http2Spec.v.  The number of calls a
   handler receives is bounded by the number of bytes read, and so is the
   amount of data it is given.  The handler h, its answers, the bytes and their
   cut into pieces are arbitrary, and so is the build (chk: with overflow
   checks or without). *)

From Coq Require Import NArith List Bool Arith String.
From Verif Require Import Bytes Http2Model Http2Spec Http2Bound Http2BoundFacts.
Import ListNotations.
Local Open Scope N_scope.

(* One call of resume() on a parser in any state that can be reached: at most
   two calls of the handler more than bytes read, and never more bytes of data
   than bytes read. *)
Theorem C76_one_call : forall chk h p log s p' log' r,
  reachable chk p -> resume chk h p log s = (p', log', r) ->
  exists n, (n <= List.length s)%nat /\
    match r with
    | ROk (SCallback k) | ROk (SEos k) | ROk (SFinished k) => n = k
    | _ => True
    end /\
    (List.length log' <= List.length log + n + 2)%nat /\
    (data_bytes log' <= data_bytes log + n)%nat.
Proof. exact bound_one. Qed.
Print Assumptions C76_one_call.

(* Any number of calls of resume(), pauses included. *)
Theorem C76_calls : forall chk h p segs p' log o,
  reachable chk p -> feed chk h p segs = (p', log, o) ->
  (List.length log <= List.length (List.concat segs) + 2)%nat /\
  (data_bytes log <= List.length (List.concat segs))%nat.
Proof. exact bound_stream. Qed.
Print Assumptions C76_calls.

(* From the start of a connection: the nine bytes of a frame header pay for two
   calls only, every other byte for at most one. *)
Theorem C76_connection : forall chk h p q segs p' log o,
  p = new \/ p = reset q -> feed chk h p segs = (p', log, o) ->
  (List.length log + 7 * frames log <= List.length (List.concat segs))%nat /\
  (data_bytes log <= List.length (List.concat segs))%nat.
Proof. exact bound_fresh. Qed.
Print Assumptions C76_connection.

(* Hardly less is possible: two empty DATA frames and the first byte of a third
   frame, with which the end of the second is noticed, make four calls; ... *)
Example C76_connection_empty :
  let '(_, log, o) := feed true yes new [[0; 0; 0; 0; 0; 0; 0; 0; 1; 0; 0; 0; 0; 0; 0; 0; 0; 1]; [0]] in
  (List.length log, frames log, data_bytes log, o) = (4%nat, 2%nat, 0%nat, OEos).
Proof. vm_compute. reflexivity. Qed.

(* ... a DATA frame of three bytes that come one by one makes four. *)
Example C76_connection_data :
  let '(_, log, o) := feed true never new [[0; 0; 3; 0; 0; 0; 0; 0; 1]; [97]; [98]; [99]] in
  (List.length log, frames log, data_bytes log, o) = (4%nat, 1%nat, 3%nat, OEos).
Proof. vm_compute. reflexivity. Qed.

(* A parser that waits after the four bytes of a PUSH_PROMISE frame without a
   fragment makes two calls when the next byte comes, and may be paused before
   it reads this byte. *)
Example C76_one_call_reached :
  let h : handler := fun _ e => match e with EData _ _ _ => false | _ => true end in
  let p := fst (fst (resume true yes new [] [0; 0; 4; 5; 0; 0; 0; 0; 1; 0; 0; 0; 2])) in
  reachable true p /\
  snd (resume true h p [] [0]) = ROk (SCallback 0) /\
  List.length (snd (fst (resume true h p [] [0]))) = 2%nat.
Proof.
  split; [|split; vm_compute; reflexivity].
  apply (reach_resume true new yes [] [0; 0; 4; 5; 0; 0; 0; 0; 1; 0; 0; 0; 2] _
           [EFrameFormat 4 5 0 1] (ROk (SEos 13))).
  - apply reach_new.
  - repeat (apply Forall_cons; [reflexivity|]). apply Forall_nil.
  - vm_compute. reflexivity.
  - intros f X. discriminate X.
Qed.
