(* Pausing changes nothing but the time: C70.  Vocabulary: reachable and feed of
   Http1Spec.v. *)

From Coq Require Import NArith List Bool Arith String.
From Verif Require Import Bytes Http1Model Http1Spec Http1SameFacts.
Import ListNotations.
Local Open Scope N_scope.

(* C70, the handler: same calls with the same arguments, same unconsumed bytes,
   same end.  The handlers may differ in all their answers except for
   content_length. *)
Theorem C70_same_calls : forall h h' p segs p1 calls1 rest1 o1 p2 calls2 rest2 o2,
  reachable p -> (forall l, h_clen h l = h_clen h' l) ->
  feed h p segs = (p1, calls1, rest1, o1) -> feed h' p segs = (p2, calls2, rest2, o2) ->
  calls1 = calls2 /\ rest1 = rest2 /\ o1 = o2.
Proof. exact h1_same_calls. Qed.
Print Assumptions C70_same_calls.

(* C70, the parser: when it waits for more input it is the same in every field,
   and so it is at every other end, except for the remaining length and the
   byte count of a URL-encoded body. *)
Theorem C70_same_parser : forall h h' p segs p1 calls1 rest1 o1 p2 calls2 rest2 o2,
  reachable p -> (forall l, h_clen h l = h_clen h' l) ->
  feed h p segs = (p1, calls1, rest1, o1) -> feed h' p segs = (p2, calls2, rest2, o2) ->
  (forall f, o1 <> OFault f) ->
  state p1 = state p2 /\
  (o1 = OEos \/ parser_type p <> UrlEncoded -> p1 = p2) /\
  (o1 <> OFinished -> byte_count p1 = byte_count p2).
Proof. exact h1_same_parser. Qed.
Print Assumptions C70_same_parser.

(* A handler that pauses at every call, and one that pauses at every third; a
   chunked body with an extension and trailers, cut in two. *)
Example C70_case :
  let h := Handler (fun _ _ => false) (fun _ => None) in
  let h' := Handler (fun l _ => negb (Nat.eqb (Nat.modulo (List.length l) 3) 0)) (fun _ => None) in
  let p := init_chunked new in
  let segs := [bs "4;a=b" ++ crlf ++ bs "da"; bs "ta" ++ crlf ++ bs "0" ++ crlf ++ bs "X: y" ++ crlf ++ crlf ++ bs "next"] in
  reachable p /\ (forall l, h_clen h l = h_clen h' l) /\ feed h p segs = feed h' p segs /\
  (let '(_, calls, rest, o) := feed h p segs in
   filter (fun e => match e with EData KChunkData _ => true | _ => false end) calls =
     [EData KChunkData (bs "da"); EData KChunkData (bs "ta")] /\
   rest = bs "next" /\ o = OFinished).
Proof. split; [do 2 constructor|]. split; [reflexivity|]. vm_compute. repeat split. Qed.

(* The exception: the byte count of a finished URL-encoded body depends on where
   the handler paused (cf. C06). *)
Example C70_url_count :
  let h := Handler (fun _ _ => false) (fun _ => None) in
  let h' := Handler (fun _ _ => true) (fun _ => None) in
  let p := set_length (init_url_encoded new) 3 in
  reachable p /\
  (let '(p1, calls1, _, o1) := feed h p [bs "a=b"] in
   let '(p2, calls2, _, o2) := feed h' p [bs "a=b"] in
   calls1 = calls2 /\ o1 = OFinished /\ o2 = OFinished /\ byte_count p1 <> byte_count p2).
Proof. split; [do 3 constructor|]. vm_compute. repeat split; discriminate. Qed.
