(* What is reported, and in which order: C15-C17, C21, C32, C52.  Vocabulary:
   ok_data, ok_event, phase, pstep, prun of Http1Protocol.v. *)

From Coq Require Import NArith List Bool Arith String.
From Verif Require Import Bytes ByteStream Http1Model Http1Spec Http1Protocol Http1Data Http1Order.
Import ListNotations.
Local Open Scope N_scope.

(* C15: header names (and chunk extension names) are lower-case tokens, never
   empty.  Any parser, any stream, any handler. *)
Theorem C15_header_names : forall h p log s p' log' r,
  resume h p log s = (p', log', r) ->
  exists calls, log' = log ++ calls /\
    forall k d, In (EData k d) calls -> k = KHeaderName \/ k = KChunkExtName ->
      d <> [] /\ Forall (fun b => tchar b = true /\ (b < 65 \/ 90 < b)) d.
Proof. exact header_names. Qed.
Print Assumptions C15_header_names.

Example C15_case :
  let '(_, log, r) := resume yes (init_head new) []
     (bs "GET / HTTP/1.1" ++ crlf ++ bs "X-Odd~Name: v" ++ crlf ++ crlf) in
  r = ROk (SFinished 33) /\ data_of KHeaderName log = bs "x-odd~name".
Proof. vm_compute. repeat split; reflexivity. Qed.

(* C16: header values and chunk extension values contain no control byte
   except TAB; in particular no CR, LF or NUL. *)
Theorem C16_header_values : forall h p log s p' log' r,
  resume h p log s = (p', log', r) ->
  exists calls, log' = log ++ calls /\
    forall k d, In (EData k d) calls -> k = KHeaderValue \/ k = KChunkExtValue ->
      d <> [] /\ Forall (fun b => b = 9 \/ (32 <= b /\ b <> 127)) d.
Proof. exact header_values. Qed.
Print Assumptions C16_header_values.

Example C16_case :
  let '(_, log, r) := resume yes (init_head new) []
     (bs "GET / HTTP/1.1" ++ crlf ++ bs "a: b" ++ [9] ++ bs "c" ++ [34] ++ bs "d;e" ++ [34; 233]
      ++ crlf ++ crlf) in
  r = ROk (SFinished 32) /\ data_of KHeaderValue log = bs "b" ++ [9] ++ bs "c" ++ [34] ++ bs "d;e" ++ [34; 233].
Proof. vm_compute. repeat split; reflexivity. Qed.

(* C17: methods, URLs and reason phrases. *)
Theorem C17_first_line_bytes : forall h p log s p' log' r,
  resume h p log s = (p', log', r) ->
  exists calls, log' = log ++ calls /\
    forall k d, In (EData k d) calls ->
      d <> [] /\
      (k = KMethod -> Forall (fun b => 65 <= b <= 90) d) /\
      (k = KUrl -> Forall (fun b => 33 <= b <= 126) d) /\
      (k = KStatus -> Forall (fun b => 32 <= b /\ b <> 127) d).
Proof. exact first_line_bytes. Qed.
Print Assumptions C17_first_line_bytes.

Example C17_case :
  (let '(_, log, _) := resume yes (init_head new) [] (bs "PATCH /a?b=c HTTP/1.1" ++ crlf) in
   data_of KMethod log = bs "PATCH" /\ data_of KUrl log = bs "/a?b=c") /\
  (let '(_, log, _) := resume yes (init_head new) [] (bs "HTTP/1.1 404 Not Found" ++ crlf) in
   data_of KStatus log = bs "Not Found").
Proof. vm_compute. repeat split; reflexivity. Qed.

(* C21: after on_chunk_length(n) at most n bytes of chunk data are reported,
   exactly n before the next on_chunk_length; the last length of a finished
   body is 0. *)
Theorem C21_chunk_data_at_most : forall h q segs p' log rest o a n b,
  feed h (init_chunked q) segs = (p', log, rest, o) ->
  log = a ++ EChunkLength n :: b -> (forall m, ~ In (EChunkLength m) b) ->
  N.of_nat (List.length (data_of KChunkData b)) <= n.
Proof. exact chunk_data_at_most. Qed.
Print Assumptions C21_chunk_data_at_most.

Theorem C21_chunk_data_exact : forall h q segs p' log rest o a n b m c,
  feed h (init_chunked q) segs = (p', log, rest, o) ->
  log = a ++ EChunkLength n :: b ++ EChunkLength m :: c -> (forall m, ~ In (EChunkLength m) b) ->
  N.of_nat (List.length (data_of KChunkData b)) = n.
Proof. exact chunk_data_exact. Qed.
Print Assumptions C21_chunk_data_exact.

Theorem C21_last_chunk : forall h q segs p' log rest a n b,
  feed h (init_chunked q) segs = (p', log, rest, OFinished) ->
  log = a ++ EChunkLength n :: b -> (forall m, ~ In (EChunkLength m) b) ->
  n = 0 /\ data_of KChunkData b = [].
Proof. exact last_chunk. Qed.
Print Assumptions C21_last_chunk.

Example C21_case :
  let '(_, log, rest, o) := feed never (init_chunked new)
      [bs "b;x=y" ++ crlf ++ bs "hello"; bs " world" ++ crlf ++ bs "0" ++ crlf ++ crlf] in
  o = OFinished /\
  log = [EChunkBegin] ++ EChunkLength 11 ::
    [EData KChunkExtName (bs "x"); EData KChunkExtValue (bs "y"); EChunkExtFinished; EChunkExtsFinished;
     EData KChunkData (bs "hello"); EData KChunkData (bs " world"); EChunkBegin] ++
    EChunkLength 0 :: [EHeadersFinished; EBodyFinished].
Proof. vm_compute. repeat split; reflexivity. Qed.

(* C32: the calls made for a head are in order - for malformed and incomplete
   input too - and complete when the parser reports Finished. *)
Theorem C32_head_order : forall h q segs p' log rest o,
  feed h (init_head q) segs = (p', log, rest, o) ->
  exists ph, prun HStart log = Some ph /\ (o = OFinished <-> ph = PDone).
Proof. exact head_order. Qed.
Print Assumptions C32_head_order.

Theorem C32_new_order : forall h segs p' log rest o,
  feed h new segs = (p', log, rest, o) ->
  exists ph, prun HStart log = Some ph /\ (o = OFinished <-> ph = PDone).
Proof. exact feed_new_order. Qed.
Print Assumptions C32_new_order.

Example C32_case :
  (let '(_, log, _, o) := feed never (init_head new)
     [bs "GE"; bs "T /a"; bs "b HTTP/1.1" ++ crlf ++ bs "A: b" ++ crlf ++ crlf] in
   o = OFinished /\ prun HStart log = Some PDone /\ List.length log = 9%nat) /\
  (* out of order *)
  prun HStart [EData KUrl [47]] = None /\
  prun HStart [EData KMethod [71]; EVersion 1 1] = None /\
  prun HStart [EData KMethod [71]; EData KUrl [47]; EVersion 1 1; EHeadersFinished] = None /\
  prun PDone [EHeadersFinished] = None.
Proof. vm_compute. repeat split; reflexivity. Qed.

(* C52: the same for bodies. *)
Theorem C52_chunked_order : forall h q segs p' log rest o,
  feed h (init_chunked q) segs = (p', log, rest, o) ->
  exists ph, prun CStart log = Some ph /\ (o = OFinished <-> ph = PDone).
Proof. exact chunked_order. Qed.
Print Assumptions C52_chunked_order.

Theorem C52_multipart_order : forall h q bd segs p' log rest o,
  feed h (set_boundary (init_multipart q) bd) segs = (p', log, rest, o) ->
  exists ph, prun MStart log = Some ph /\ (o = OFinished <-> ph = PDone).
Proof. exact feed_boundary_order. Qed.
Print Assumptions C52_multipart_order.

Theorem C52_url_encoded_order : forall h q n segs p' log rest o,
  feed h (set_length (init_url_encoded q) n) segs = (p', log, rest, o) ->
  exists ph, prun UStart log = Some ph /\ (o = OFinished <-> ph = PDone).
Proof. exact feed_length_order. Qed.
Print Assumptions C52_url_encoded_order.

Example C52_case :
  (let '(_, log, _, o) := feed yes (set_boundary (init_multipart new) (bs "B"))
     [bs "--B" ++ crlf ++ bs "n: v" ++ crlf ++ crlf ++ bs "data" ++ crlf ++ bs "--B--"] in
   o = OFinished /\ prun MStart log = Some PDone) /\
  (let '(_, log, _, o) := feed yes (set_length (init_url_encoded new) 7) [bs "a=b&c=d"] in
   o = OFinished /\ prun UStart log = Some PDone) /\
  prun MStart [EData KMultipartData [1]] = None /\
  prun UStart [EUrlBegin; EData KUrlValue [1]; EData KUrlName [1]] = None /\
  prun CStart [EChunkBegin; EChunkLength 2; EChunkExtsFinished; EData KChunkData [1]; EChunkBegin] = None.
Proof. vm_compute. repeat split; reflexivity. Qed.
