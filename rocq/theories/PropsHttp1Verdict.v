(* Every outcome means what it should: C60.  Vocabulary: right_verdict of
   Http1Verdict.v (finished - a message; more expected - a beginning of a
   message; error or panic - no message, whatever follows), the grammars of
   Http1Accept.v, and feed of Http1Spec.v.  The handler h, the cut of the
   stream into pieces segs and the parser q, used before or not, are
   arbitrary. *)

From Coq Require Import NArith List Bool Arith String.
From Verif Require Import Bytes Http1Model Http1Spec Http1Protocol Http1Wire Http1Accept Http1Verdict Http1Viable.
Import ListNotations.
Local Open Scope N_scope.

(* A method that begins with H is read correctly when at least nine of its
   bytes are in the first piece (cf. C08). *)
Theorem C60_head_verdict : forall h q segs p' log rest o, segs <> [] ->
  hok (strip (List.concat segs)) = true \/ (9 <= List.length (strip (hd [] segs)))%nat ->
  feed h (init_head q) segs = (p', log, rest, o) ->
  right_verdict head_as (List.concat segs) (flat log) rest o.
Proof. exact head_verdict. Qed.
Print Assumptions C60_head_verdict.

Theorem C60_chunked_verdict : forall h q segs p' log rest o, segs <> [] ->
  feed h (init_chunked q) segs = (p', log, rest, o) ->
  right_verdict chunked_as (List.concat segs) (flat log) rest o.
Proof. exact chunked_verdict. Qed.
Print Assumptions C60_chunked_verdict.

Theorem C60_multipart_verdict : forall h clen q bd segs p' log rest o, segs <> [] ->
  (forall l, h_clen h l = clen (flat l)) ->
  ~ In 13 bd -> N.of_nat (List.length bd) <= 2 ^ 14 ->
  feed h (set_boundary (init_multipart q) bd) segs = (p', log, rest, o) ->
  right_verdict (multipart_as bd clen) (List.concat segs) (flat log) rest o.
Proof. exact multipart_verdict. Qed.
Print Assumptions C60_multipart_verdict.

Theorem C60_url_encoded_verdict : forall h q n segs p' log rest o, segs <> [] ->
  feed h (set_length (init_url_encoded q) n) segs = (p', log, rest, o) ->
  right_verdict (url_body n) (List.concat segs) (flat log) rest o.
Proof. exact url_verdict. Qed.
Print Assumptions C60_url_encoded_verdict.

(* All four outcomes occur, and cutting a stream one byte earlier turns an
   error into "more expected". *)
Example C60_case :
  hok (strip (List.concat [bs " HT"; bs "TP/1.1 40"])) = true /\
  (let '(_, _, _, o) := feed yes (init_head new) [bs " HT"; bs "TP/1.1 40"] in o = OEos) /\
  (let '(_, _, _, o) := feed yes (init_head new) [bs " HT"; bs "TP/1.1 40 "] in o = OError (ErStatusCode 32)) /\
  (let '(_, _, r, o) := feed yes (init_head new) [bs "HTTP/1.1 404 a" ++ crlf; crlf ++ bs "b"] in (r, o) = (bs "b", OFinished)) /\
  (let '(_, _, _, o) := feed yes (init_chunked new) [bs "0" ++ crlf ++ bs "a" ++ [255]] in exists f, o = OFault f) /\
  (let '(_, _, _, o) := feed yes (set_boundary (init_multipart new) (bs "b")) [bs "--"; bs "b" ++ crlf ++ bs "x"] in o = OEos) /\
  (let '(_, _, _, o) := feed yes (set_length (init_url_encoded new) 4) [bs "a%4"] in o = OEos) /\
  (let '(_, _, _, o) := feed yes (set_length (init_url_encoded new) 4) [bs "a%4g"] in o = OError (ErUrlEncodedName 103)).
Proof. vm_compute. repeat split. eexists. reflexivity. Qed.
