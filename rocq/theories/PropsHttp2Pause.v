(* A handler pauses the parser by answering false: C64 for HTTP/2.  Vocabulary:
   obeys of Http2Pause.v. *)

From Coq Require Import NArith List Bool Arith String.
From Verif Require Import Bytes Http2Model Http2Spec Http2Samples Http2Pause Http2PauseFacts.
Import ListNotations.
Local Open Scope N_scope.

Theorem C64_http2_pause : forall chk h p log s p' log' r,
  resume chk h p log s = (p', log', r) ->
  exists x, log' = log ++ x /\ obeys h log x r.
Proof. exact h2_resume_pause. Qed.
Print Assumptions C64_http2_pause.

(* A handler that pauses at on_frame_format only. *)
Example C64_http2_case :
  let h : handler := fun _ e => match e with EFrameFormat _ _ _ _ => false | _ => true end in
  (let '(p', log', r) := resume true h new [] (render sample_settings) in
   log' = [EFrameFormat 6 4 0 0] /\ r = ROk (SCallback 9) /\
   (let '(_, log2, r2) := resume true h p' log' (skipn 9 (render sample_settings)) in
    log2 = log' ++ [ESettings 4 65535] /\ r2 = ROk (SEos 6))).
Proof. vm_compute. repeat split. Qed.
