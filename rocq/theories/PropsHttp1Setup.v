(* What set_boundary and set_length change, and what happens without them: C82.
   Vocabulary: reachable, observe, feed of Http1Spec.v, without_boundary of
   Http1Setting.v. *)

From Coq Require Import NArith List Bool Arith String.
From Verif Require Import Bytes Http1Model Http1Spec Http1Use Http1Setting Http1Setup.
Import ListNotations.
Local Open Scope N_scope.

(* On any parser but one for multipart data, set_boundary() changes nothing of
   what can be seen of whatever is done next. *)
Theorem C82_boundary_unseen : forall h p b log ops, reachable p -> parser_type p <> Multipart ->
  observe h (byte_count p) (set_boundary p b) log ops = observe h (byte_count p) p log ops.
Proof. exact set_boundary_unseen. Qed.
Print Assumptions C82_boundary_unseen.

Example C82_boundary_unseen_case :
  reachable (set_length (init_url_encoded new) 3) /\
  observe yes 0 (set_boundary (set_length (init_url_encoded new) 3) (bs "x")) [] [OpResume (bs "a=b")] =
  [(Some (ROk (SFinished 3)),
    [EUrlBegin; EData KUrlName (bs "a"); EData KUrlValue (bs "b"); EBodyFinished], StFinished, 6)].
Proof. split; [exact (reach_length _ 3 (reach_url _ reach_new))|]. vm_compute. reflexivity. Qed.

(* The same of set_length() on a parser for heads, and on one for multipart data
   that is not amidst data of a known length. *)
Theorem C82_length_unseen : forall h p n log ops, reachable p ->
  parser_type p = Head \/ parser_type p = Multipart /\ state p <> StMultipartDataByLength ->
  observe h (byte_count p) (set_length p n) log ops = observe h (byte_count p) p log ops.
Proof. exact set_length_unseen. Qed.
Print Assumptions C82_length_unseen.

Example C82_length_unseen_case :
  let p := set_boundary (init_multipart new) (bs "x") in
  let w := bs "--x" ++ crlf ++ bs "a:b" ++ crlf ++ crlf ++ bs "c" ++ crlf ++ bs "--x--" in
  let h := Handler (fun _ _ => true) (fun _ => Some 1) in
  reachable p /\ state p <> StMultipartDataByLength /\
  map (fun o => fst (fst (fst o))) (observe h 0 (set_length p 7) [] [OpResume w]) = [Some (ROk (SFinished 20))].
Proof. split; [exact (reach_boundary _ (bs "x") (reach_multipart _ reach_new))|]. split; [discriminate|]. vm_compute. reflexivity. Qed.

(* On a parser for chunks it is not so: where the first chunk size is 0, the length
   set before is taken for it. *)
Theorem C82_chunked_length_refuted : exists n w,
  let '(_, log, rest, o) := feed yes (init_chunked new) [w] in
  let '(_, log', rest', o') := feed yes (set_length (init_chunked new) n) [w] in
  log = [EChunkBegin; EChunkLength 0; EHeadersFinished; EBodyFinished] /\ o = OFinished /\
  log' = [EChunkBegin; EChunkLength n; EChunkExtsFinished; EData KChunkData crlf] /\ o' = OEos.
Proof. exact set_length_chunked. Qed.
Print Assumptions C82_chunked_length_refuted.

(* Without a boundary no callback is made, and the first byte after two hyphens
   lets the parser panic. *)
Theorem C82_no_boundary : forall h q segs, exists p' rest,
  feed h (init_multipart q) segs = (p', [], rest, without_boundary (List.concat segs)).
Proof. exact no_boundary. Qed.
Print Assumptions C82_no_boundary.

Example C82_no_boundary_case :
  without_boundary (bs "--") = OEos /\ without_boundary (bs "-x-") = OError (ErMultipartBoundary 120) /\
  without_boundary (bs "--x") = OFault FUnwrapPanic.
Proof. repeat split; reflexivity. Qed.

(* Without a length a body is taken to be empty. *)
Theorem C82_no_length : forall h q segs, segs <> [] -> exists p',
  feed h (init_url_encoded q) segs = (p', [EBodyFinished], List.concat segs, OFinished).
Proof. exact no_length. Qed.
Print Assumptions C82_no_length.

Example C82_no_length_case :
  let '(p, log, rest, o) := feed (Handler (fun _ _ => false) (fun _ => None)) (init_url_encoded new) [bs "a="; bs "b"] in
  log = [EBodyFinished] /\ rest = bs "a=b" /\ o = OFinished /\ byte_count p = 0.
Proof. vm_compute. repeat split; reflexivity. Qed.
