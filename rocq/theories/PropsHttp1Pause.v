(* A handler pauses the parser by answering false: C64 for HTTP/1.  Vocabulary:
   obeys of Http1Pause.v, reachable of Http1Spec.v. *)

From Coq Require Import NArith List Bool Arith String.
From Verif Require Import Bytes Http1Model Http1Spec Http1Pause Http1PauseFacts.
Import ListNotations.
Local Open Scope N_scope.

Theorem C64_http1_pause : forall h p log s p' log' r,
  reachable p -> resume h p log s = (p', log', r) ->
  exists x, log' = log ++ x /\ obeys h log x r.
Proof. exact resume_pause. Qed.
Print Assumptions C64_http1_pause.

(* A handler that pauses at on_version only; it is paused there, and later calls
   go on to the end. *)
Example C64_http1_case :
  let h := Handler (fun _ e => match e with EVersion _ _ => false | _ => true end) (fun _ => None) in
  let s := bs "GET / HTTP/1.1" ++ crlf ++ crlf in
  reachable (init_head new) /\
  (let '(p', log', r) := resume h (init_head new) [] s in
   log' = [EData KMethod (bs "GET"); EData KUrl (bs "/"); EVersion 1 1] /\ r = ROk (SCallback 15) /\
   resume h p' log' (skipn 15 s) =
     (p_set_state (add_count p' 3) StFinished, log' ++ [EInitialFinished; EHeadersFinished], ROk (SFinished 3))).
Proof. split; [do 2 constructor|]. vm_compute. repeat split. Qed.
