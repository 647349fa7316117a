(* HTTP/2: nothing is carried over by reset, nor from one frame to the next:
   C61.  Vocabulary: Http2Spec.v, Http2Use.v. *)

From Coq Require Import NArith List Bool Arith String.
From Verif Require Import Bytes Http2Model Http2Spec Http2Samples Http2Use Http2Fresh.
Import ListNotations.
Local Open Scope N_scope.

(* C61.  After reset, every sequence of operations looks as on a new parser. *)
Theorem C61_reset_fresh : forall chk h p log ops,
  state (reset p) = state new /\ byte_count (reset p) = byte_count new /\ byte_count new = 0 /\
  observe chk h (reset p) log ops = observe chk h new log ops.
Proof. exact h2_reset_fresh. Qed.
Print Assumptions C61_reset_fresh.

(* C61.  So does it whenever state() says that a frame begins. *)
Theorem C61_frame_fresh : forall chk h p log ops,
  reachable chk p -> state p = StFrameLength1 ->
  observe chk h p log ops = observe chk h new log ops.
Proof. exact h2_boundary_fresh. Qed.
Print Assumptions C61_frame_fresh.

(* A parser that has stopped amid a frame, and one that has read a GOAWAY frame:
   neither equals a new one, or is at the beginning of a frame with other
   contents than a new one; then a SETTINGS frame is read. *)
Example C61_case :
  (let '(p, log, _) := resume true yes new [] (firstn 15 (render sample_go_away)) in
   reachable true p /\ state p = StGoAwayErrorCode3 /\
   observe true yes (reset p) log [OpResume (render sample_settings)] =
     [(Some (ROk (SEos 15)), log ++ [EFrameFormat 6 4 0 0; ESettings 4 65535], StFrameLength1, 15)]) /\
  (let '(p, log, _) := resume true yes new [] (render sample_go_away) in
   reachable true p /\ state p = StFrameLength1 /\ p <> new /\ bit_data16a p <> 0 /\
   observe true yes p log [OpResume (render sample_settings)] =
     [(Some (ROk (SEos 15)), log ++ [EFrameFormat 6 4 0 0; ESettings 4 65535], StFrameLength1, 15)]).
Proof.
  split.
  - destruct (resume true yes new [] (firstn 15 (render sample_go_away))) as [[p log] r] eqn:E.
    split; [|vm_compute in E; injection E as <- <- <-; vm_compute; split; reflexivity].
    apply (reach_resume true _ _ _ _ _ _ _ (reach_new true)) in E; [exact E| |].
    + repeat constructor.
    + vm_compute in E. injection E as _ _ <-. discriminate.
  - destruct (resume true yes new [] (render sample_go_away)) as [[p log] r] eqn:E.
    split; [|vm_compute in E; injection E as <- <- <-; vm_compute; repeat split; discriminate].
    apply (reach_resume true _ _ _ _ _ _ _ (reach_new true)) in E; [exact E| |].
    + repeat constructor.
    + vm_compute in E. injection E as _ _ <-. discriminate.
Qed.
