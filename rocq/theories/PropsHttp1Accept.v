(* Exactly what is accepted, and with what observation: C56, C57, C58, C59.
   Vocabulary: the grammars of Http1Accept.v (written down from the behaviour of
   the code, peculiarities included) and feed of Http1Spec.v.  In every theorem
   the handler h is arbitrary (it may pause the parser at any callback), the
   cut of the stream into pieces segs is arbitrary, and q is any parser, used
   before or not.  Read from right to left: what is in the grammar is accepted,
   with the given observation, and what follows is left alone.  Read from left
   to right: nothing else is accepted. *)

From Coq Require Import NArith List Bool Arith String.
From Verif Require Import Bytes Http1Model Http1Spec Http1Protocol Http1Wire Http1Accept
  Http1Parse Http1Parse2 Http1Parse3 Http1Parse4.
Import ListNotations.
Local Open Scope N_scope.

(* C56.  A method that begins with H is read correctly when at least nine of
   its bytes are in the first piece (cf. C08). *)
Theorem C56_head_accepted_iff : forall h q segs tail L,
  hok (strip (List.concat segs)) = true \/ (9 <= List.length (strip (hd [] segs)))%nat ->
  (exists p' log, feed h (init_head q) segs = (p', log, tail, OFinished) /\ flat log = L) <->
  (exists w, List.concat segs = w ++ tail /\ head_as w L).
Proof. exact head_exact. Qed.
Print Assumptions C56_head_accepted_iff.

(* A line that continues no field and a field without name are accepted; a
   field without value is not. *)
Example C56_case :
  let segs := [bs "GET / HTT"; bs "P/1.1" ++ crlf ++ bs " x" ++ crlf ++ bs ":v" ++ crlf ++ crlf ++ bs "rest"] in
  hok (strip (List.concat segs)) = true /\
  (let '(_, log, tail, o) := feed yes (init_head new) segs in
   (flat log, tail, o) =
   (map (FByte KMethod) (bs "GET") ++ map (FByte KUrl) (bs "/") ++
    [FEv (EVersion 1 1); FEv EInitialFinished] ++ map (FByte KHeaderValue) (bs "xv") ++ [FEv EHeadersFinished],
    bs "rest", OFinished)) /\
  (let '(_, _, _, o) := feed yes (init_head new) [bs "GET / HTTP/1.1" ++ crlf ++ bs "a:" ++ crlf ++ crlf] in
   o = OError (ErHeaderValue 13)).
Proof. vm_compute. repeat split. Qed.

(* C57 *)
Theorem C57_chunked_accepted_iff : forall h q segs tail L,
  (exists p' log, feed h (init_chunked q) segs = (p', log, tail, OFinished) /\ flat log = L) <->
  (exists w, List.concat segs = w ++ tail /\ chunked_as w L).
Proof. exact chunked_exact. Qed.
Print Assumptions C57_chunked_accepted_iff.

(* A length of zero with an extension is not the end; an extension may be
   empty if another one follows; leading zeros are refused. *)
Example C57_case :
  (let '(_, log, tail, o) :=
     feed yes (init_chunked new) [bs "0;;a" ++ crlf ++ crlf; bs "0"; crlf ++ crlf ++ bs "rest"] in
   (flat log, tail, o) =
   ([FEv EChunkBegin; FEv (EChunkLength 0); FEv EChunkExtFinished; FByte KChunkExtName 97; FEv EChunkExtFinished;
     FEv EChunkExtsFinished; FEv EChunkBegin; FEv (EChunkLength 0); FEv EHeadersFinished; FEv EBodyFinished],
    bs "rest", OFinished)) /\
  (let '(_, _, _, o) := feed yes (init_chunked new) [bs "01" ++ crlf] in o = OError (ErChunkLength 49)).
Proof. vm_compute. repeat split. Qed.

(* C58.  What the handler answers when asked for a length may depend on what it
   has seen. *)
Theorem C58_multipart_accepted_iff : forall h clen q bd segs tail L,
  (forall l, h_clen h l = clen (flat l)) ->
  ~ In 13 bd -> N.of_nat (List.length bd) <= 2 ^ 14 ->
  (exists p' log, feed h (set_boundary (init_multipart q) bd) segs = (p', log, tail, OFinished) /\ flat log = L) <->
  (exists w, List.concat segs = w ++ tail /\ multipart_as bd clen w L).
Proof. exact multipart_exact. Qed.
Print Assumptions C58_multipart_accepted_iff.

(* Parts with a partial boundary in the data. *)
Example C58_case :
  let segs := [bs "--ab" ++ crlf ++ crlf ++ bs "x" ++ crlf ++ bs "--a" ++ crlf ++ bs "--ab-"; bs "-rest"] in
  (forall l, h_clen yes l = None) /\ bs "ab" <> [] /\ ~ In 13 (bs "ab") /\
  (let '(_, log, tail, o) := feed yes (set_boundary (init_multipart new) (bs "ab")) segs in
   (flat log, tail, o) =
   ([FEv EMultipartBegin; FEv EHeadersFinished; FEv EContentLength] ++
    map (FByte KMultipartData) (bs "x" ++ crlf ++ bs "--a") ++ [FEv EBodyFinished],
    bs "rest", OFinished)).
Proof.
  split; [reflexivity|]. split; [discriminate|]. split; [|vm_compute; reflexivity].
  cbn. intros [X|[X|[]]]; discriminate X.
Qed.

(* C59 *)
Theorem C59_url_encoded_accepted_iff : forall h q n segs tail L, segs <> [] ->
  (exists p' log, feed h (set_length (init_url_encoded q) n) segs = (p', log, tail, OFinished) /\ flat log = L) <->
  (exists w e, List.concat segs = w ++ tail /\ N.of_nat (List.length w) = n /\ pairs_as w e /\
     L = e ++ [FEv EBodyFinished]).
Proof. exact url_exact. Qed.
Print Assumptions C59_url_encoded_accepted_iff.

(* Empty pairs are accepted, and so is an escape cut off by the end. *)
Example C59_case :
  (let '(_, log, tail, o) := feed yes (set_length (init_url_encoded new) 9) [bs "&=%4"; bs "1;b+%4rest"] in
   (flat log, tail, o) =
   ([FEv EUrlBegin; FEv EUrlBegin; FByte KUrlValue 65; FEv EUrlBegin; FByte KUrlName 98; FByte KUrlName 32;
     FEv EBodyFinished], bs "4rest", OFinished)).
Proof. vm_compute. reflexivity. Qed.
