(* Passing messages on: C79.  Vocabulary: the writers of Http1Forward.v, which
   turn what a handler is told into a message again, one callback after the
   other; feed of Http1Spec.v; the messages of Http1Wire.v.  h, h2 are arbitrary
   handlers, q, q2 arbitrary parsers, segs, segs2 the pieces the two streams
   arrive in. *)

From Coq Require Import NArith List Bool Arith String.
From Verif Require Import Bytes Http1Model Http1Spec Http1Protocol Http1Wire Http1Accept
  Http1Parse Http1Forward Http1ForwardFacts.
Import ListNotations.
Local Open Scope N_scope.

(* A head.  (Methods that begin with H: cf. C08.) *)
Theorem C79_head : forall h q segs p' log tail h2 q2 segs2 tail2,
  hok (strip (List.concat segs)) = true \/ (9 <= List.length (strip (hd [] segs)))%nat ->
  feed h (init_head q) segs = (p', log, tail, OFinished) ->
  List.concat segs2 = head_written log ++ tail2 ->
  hok (strip (List.concat segs2)) = true \/ (9 <= List.length (strip (hd [] segs2)))%nat ->
  exists p2 log2, feed h2 (init_head q2) segs2 = (p2, log2, tail2, OFinished) /\ flat log2 = flat log.
Proof. exact head_passed_on. Qed.
Print Assumptions C79_head.

(* What is written is a well-formed request or response without white space in
   front and without continuation lines, whatever tricks the original used,
   unless its first line after the request or status line has no name. *)
Theorem C79_head_plain : forall h q segs p' log tail,
  hok (strip (List.concat segs)) = true \/ (9 <= List.length (strip (hd [] segs)))%nat ->
  feed h (init_head q) segs = (p', log, tail, OFinished) -> named (flat log) ->
  (exists m, wf_request m /\ plain_request m /\ head_written log = render_request m /\ flat log = seen_request m) \/
  (exists m, wf_response m /\ plain_response m /\ head_written log = render_response m /\ flat log = seen_response m).
Proof. exact head_written_plain. Qed.
Print Assumptions C79_head_plain.

Theorem C79_chunked : forall h q segs p' log tail h2 q2 segs2 tail2,
  feed h (init_chunked q) segs = (p', log, tail, OFinished) ->
  List.concat segs2 = chunked_written log ++ tail2 ->
  exists p2 log2, feed h2 (init_chunked q2) segs2 = (p2, log2, tail2, OFinished) /\ flat log2 = flat log.
Proof. exact chunked_passed_on. Qed.
Print Assumptions C79_chunked.

(* The same boundary is used again. *)
Theorem C79_multipart : forall h clen q bd segs p' log tail h2 q2 segs2 tail2,
  (forall l, h_clen h l = clen (flat l)) -> (forall l, h_clen h2 l = clen (flat l)) ->
  ~ In 13 bd -> N.of_nat (List.length bd) <= 2 ^ 14 ->
  feed h (set_boundary (init_multipart q) bd) segs = (p', log, tail, OFinished) ->
  List.concat segs2 = multipart_written bd log ++ tail2 ->
  exists p2 log2, feed h2 (set_boundary (init_multipart q2) bd) segs2 = (p2, log2, tail2, OFinished) /\ flat log2 = flat log.
Proof. exact multipart_passed_on. Qed.
Print Assumptions C79_multipart.

(* The length may have changed. *)
Theorem C79_url_encoded : forall h q n segs p' log tail h2 q2 segs2 tail2, segs <> [] ->
  feed h (set_length (init_url_encoded q) n) segs = (p', log, tail, OFinished) ->
  segs2 <> [] -> List.concat segs2 = url_encoded_written log ++ tail2 ->
  exists p2 log2,
    feed h2 (set_length (init_url_encoded q2) (N.of_nat (List.length (url_encoded_written log)))) segs2 =
      (p2, log2, tail2, OFinished) /\ flat log2 = flat log.
Proof. exact url_passed_on. Qed.
Print Assumptions C79_url_encoded.

Theorem C79_url_encoded_plain : forall h q n segs p' log tail, segs <> [] ->
  feed h (set_length (init_url_encoded q) n) segs = (p', log, tail, OFinished) ->
  exists ps, body_wire ps (url_encoded_written log) /\ flat log = seen_pairs ps.
Proof. exact url_written_plain. Qed.
Print Assumptions C79_url_encoded_plain.

(* A folded value is joined, a colon without name joins too, names become
   lower-case, numbers lose leading zeros. *)
Example C79_head_case :
  let segs := [crlf ++ bs "GET / HTTP/001.1" ++ crlf ++ bs "Host: a" ++ crlf ++ bs " b" ++ crlf;
               bs ":  c" ++ crlf ++ bs "X:" ++ [9] ++ bs "d" ++ crlf ++ crlf ++ bs "rest"] in
  let written := bs "GET / HTTP/1.1" ++ crlf ++ bs "host: abc" ++ crlf ++ bs "x: d" ++ crlf ++ crlf in
  hok (strip (List.concat segs)) = true /\
  (let '(_, log, tail, o) := feed yes (init_head new) segs in
   (head_written log, tail, o) = (written, bs "rest", OFinished) /\
   hok (strip (List.concat [written])) = true /\
   let '(_, log2, tail2, o2) := feed never (init_head new) [written] in
   (flat log2, tail2, o2) = (flat log, [], OFinished)).
Proof. vm_compute. repeat split. Qed.

(* A value without a name; a status code; H. *)
Example C79_other_heads :
  (let '(_, log, _, o) := feed yes (init_head new) [bs "HTTP/1.1 007 a b" ++ crlf ++ bs ":x" ++ crlf ++ crlf] in
   (head_written log, o) = (bs "HTTP/1.1 007 a b" ++ crlf ++ bs " x" ++ crlf ++ crlf, OFinished)) /\
  (let '(_, log, _, o) := feed yes (init_head new) [bs "HEAD  HTTP/1.1" ++ crlf ++ crlf] in
   (head_written log, o) = (bs "HEAD", OError (ErUrl 32))).
Proof. vm_compute. repeat split. Qed.

(* Extensions, also empty ones; a chunk without data; trailers. *)
Example C79_chunked_case :
  let segs := [bs "A;q=""\""x"";" ++ bs ";; Y=1" ++ crlf ++ bs "0123456789" ++ crlf ++ bs "0;z=" ++ [34; 34] ++ crlf ++ crlf;
               bs "0" ++ crlf ++ bs "T: u" ++ crlf ++ crlf ++ bs "rest"] in
  let written := bs "a;q=""\""x"";=" ++ [34; 34] ++ bs ";=" ++ [34; 34] ++ bs ";y=" ++ [34; 49; 34] ++ crlf ++
                 bs "0123456789" ++ crlf ++ bs "0;z" ++ crlf ++ crlf ++ bs "0" ++ crlf ++ bs "t: u" ++ crlf ++ crlf in
  let '(_, log, tail, o) := feed yes (init_chunked new) segs in
  (chunked_written log, tail, o) = (written, bs "rest", OFinished) /\
  let '(_, log2, tail2, o2) := feed never (init_chunked new) [written] in
  (flat log2, tail2, o2) = (flat log, [], OFinished).
Proof. vm_compute. repeat split. Qed.

(* A part without, a part with header fields. *)
Example C79_multipart_case :
  let segs := [bs "--ab" ++ crlf ++ crlf ++ bs "x" ++ crlf ++ bs "--a" ++ crlf ++ bs "--ab" ++ crlf;
               bs "N:v" ++ crlf ++ crlf ++ crlf ++ bs "--ab--rest"] in
  let written := bs "--ab" ++ crlf ++ crlf ++ bs "x" ++ crlf ++ bs "--a" ++ crlf ++ bs "--ab" ++ crlf ++
                 bs "n: v" ++ crlf ++ crlf ++ crlf ++ bs "--ab--" in
  (forall l, h_clen yes l = None) /\ (forall l, h_clen never l = None) /\
  ~ In 13 (bs "ab") /\ N.of_nat (List.length (bs "ab")) <= 2 ^ 14 /\
  (let '(_, log, tail, o) := feed yes (set_boundary (init_multipart new) (bs "ab")) segs in
   (multipart_written (bs "ab") log, tail, o) = (written, bs "rest", OFinished) /\
   let '(_, log2, tail2, o2) := feed never (set_boundary (init_multipart new) (bs "ab")) [written] in
   (flat log2, tail2, o2) = (flat log, [], OFinished)).
Proof.
  split; [reflexivity|]. split; [reflexivity|]. split; [cbn; intros [X|[X|[]]]; discriminate X|].
  split; [discriminate|vm_compute; repeat split].
Qed.

(* An empty pair, a space, an escaped byte, an escape that is cut off. *)
Example C79_url_encoded_case :
  let segs := [bs "&a+=%2"; bs "6-;b=&c%4rest"] in
  let written := bs "=&a%20=%26%2d&b&c" in
  let '(_, log, tail, o) := feed yes (set_length (init_url_encoded new) 15) segs in
  (url_encoded_written log, tail, o) = (written, bs "rest", OFinished) /\
  let '(_, log2, tail2, o2) := feed never (set_length (init_url_encoded new) 17) [written] in
  (flat log2, tail2, o2) = (flat log, [], OFinished).
Proof. vm_compute. repeat split. Qed.
