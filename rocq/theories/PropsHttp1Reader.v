(* What is made of an arbitrary stream: C63.  Vocabulary: the readers of
   Http1Reader.v (what of the stream is seen, and the verdict: complete,
   partial and the state in which the next
   byte is expected, wrong with which error, crash), understood, which says that the
   client observes exactly that, state() included, and feed of Http1Spec.v.  The handler h, the
   cut of the stream into pieces segs and the parser q, used before or not, are
   arbitrary. *)

From Coq Require Import NArith List Bool Arith String.
From Verif Require Import Bytes Http1Model Http1Spec Http1Protocol Http1Wire Http1Reader Http1Understood.
Import ListNotations.
Local Open Scope N_scope.

(* A method that begins with H is read correctly when at least nine of its
   bytes are in the first piece (cf. C08). *)
Theorem C63_head_understood : forall h q segs, segs <> [] ->
  hok (strip (List.concat segs)) = true \/ (9 <= List.length (strip (hd [] segs)))%nat ->
  understood eq (read_head (List.concat segs)) (feed h (init_head q) segs).
Proof. exact head_understood. Qed.
Print Assumptions C63_head_understood.

Theorem C63_chunked_understood : forall h q segs, segs <> [] ->
  understood eq (read_chunked (List.concat segs)) (feed h (init_chunked q) segs).
Proof. exact chunked_understood. Qed.
Print Assumptions C63_chunked_understood.

(* The byte named in an error about a boundary depends on the cut (cf. C10). *)
Theorem C63_multipart_understood : forall h clen q bd segs, segs <> [] ->
  (forall l, h_clen h l = clen (flat l)) ->
  ~ In 13 bd -> N.of_nat (List.length bd) <= 2 ^ 14 ->
  understood same_kind (read_multipart bd clen (List.concat segs))
             (feed h (set_boundary (init_multipart q) bd) segs).
Proof. exact multipart_understood. Qed.
Print Assumptions C63_multipart_understood.

Theorem C63_url_encoded_understood : forall h q n segs, segs <> [] ->
  understood eq (read_url_encoded n (List.concat segs)) (feed h (set_length (init_url_encoded q) n) segs).
Proof. exact url_understood. Qed.
Print Assumptions C63_url_encoded_understood.

(* Readings of several streams: all four verdicts, and the errors of the places
   where a head goes wrong. *)
Example C63_head_case :
  map (fun s => snd (read_head s))
      [bs "GET / HTTP/1.1" ++ crlf ++ crlf ++ bs "x";  bs "HTT";  bs "HTTP/1.";
       bs "get ";  bs "GET " ++ [127];  bs "GET / HTTQ";  bs "GET / HTTP/1.1234";
       bs "HTTP/1.0 2x";  bs "HTTP/1.0 200 " ++ [10];  bs "GET / HTTP/1.1" ++ crlf ++ bs "a b";
       bs "GET / HTTP/1.1" ++ crlf ++ bs "a: b" ++ [13; 13];  bs "GET / HTTP/1.1" ++ crlf ++ bs "a:" ++ [7];
       bs "GET / HTTP/1.1" ++ crlf ++ bs "a: b" ++ [255]]
  = [Complete (bs "x");  Partial StDetect4;  Partial StResponseVersionMinor1;
     Wrong (ErMethod 103);  Wrong (ErUrl 127);  Wrong (ErVersion 81);  Wrong (ErVersion 52);
     Wrong (ErStatusCode 120);  Wrong (ErStatus 10);  Wrong (ErHeaderName 32);
     Wrong (ErCrlfSequence 13);  Wrong (ErHeaderValue 7);
     Crash].
Proof. vm_compute. reflexivity. Qed.

(* What is seen of a head that is not complete. *)
Example C63_partial_case :
  read_head (bs "GET /a HTTP/1.1" ++ crlf ++ bs "Ho")
  = (map (FByte KMethod) (bs "GET") ++ map (FByte KUrl) (bs "/a") ++
     [FEv (EVersion 1 1); FEv EInitialFinished] ++ map (FByte KHeaderName) (bs "ho"), Partial StLowerHeaderName) /\
  hok (strip (List.concat [bs "GET /a HT"; bs "TP/1.1" ++ crlf ++ bs "Ho"])) = true /\
  (let '(p, log, rest, o) := feed yes (init_head new) [bs "GET /a HT"; bs "TP/1.1" ++ crlf ++ bs "Ho"] in
   (flat log, rest, o, state p) =
   (map (FByte KMethod) (bs "GET") ++ map (FByte KUrl) (bs "/a") ++
     [FEv (EVersion 1 1); FEv EInitialFinished] ++ map (FByte KHeaderName) (bs "ho"), [], OEos, StLowerHeaderName)).
Proof. vm_compute. repeat split. Qed.

Example C63_body_case :
  map (fun s => snd (read_chunked s))
      [bs "1" ++ crlf ++ bs "a" ++ crlf ++ bs "0" ++ crlf ++ crlf;  bs "1" ++ crlf ++ bs "a";
       bs "g";  bs "1;a" ++ [1];  bs "1;a=b" ++ [1];  bs "1" ++ crlf ++ bs "ab";  bs "0" ++ crlf ++ bs "a" ++ [255]]
  = [Complete [];  Partial StChunkDataCr;
     Wrong (ErChunkLength 103);  Wrong (ErChunkExtensionName 1);  Wrong (ErChunkExtensionValue 1);
     Wrong (ErCrlfSequence 98);  Crash] /\
  map (fun s => snd (read_multipart (bs "b") (fun _ => None) s))
      [bs "--b--x";  bs "--b" ++ crlf;  bs "--c";  bs "--bc"]
  = [Complete (bs "x");  Partial StHeaderCr2;  Wrong (ErMultipartBoundary 99);  Wrong (ErMultipartBoundary 99)] /\
  map (read_url_encoded 3) [bs "a=bc";  bs "a=";  bs "a=%";  bs "a%="]
  = [([FEv EUrlBegin; FByte KUrlName 97; FByte KUrlValue 98; FEv EBodyFinished], Complete (bs "c"));
     ([FEv EUrlBegin; FByte KUrlName 97], Partial StUrlEncodedValue);
     ([FEv EUrlBegin; FByte KUrlName 97; FEv EBodyFinished], Complete []);
     ([FEv EUrlBegin; FByte KUrlName 97], Wrong (ErUrlEncodedName 61))].
Proof. vm_compute. repeat split. Qed.

(* A boundary may be empty, in theorem and program alike. *)
Example C63_empty_boundary_case :
  let s := bs "--" ++ crlf ++ crlf ++ bs "abc" ++ crlf ++ bs "----x" in
  read_multipart [] (fun _ => None) s =
    ([FEv EMultipartBegin; FEv EHeadersFinished; FEv EContentLength] ++ map (FByte KMultipartData) (bs "abc") ++ [FEv EBodyFinished],
     Complete (bs "x")) /\
  (let '(_, log, rest, o) := feed yes (set_boundary (init_multipart new) []) [firstn 2 s; skipn 2 s] in
   (flat log, rest, o) = (fst (read_multipart [] (fun _ => None) s), bs "x", OFinished)).
Proof. vm_compute. repeat split. Qed.
