(* Properties of the HTTP/1 parser: C13, C28, C29, C30, C31.
   Vocabulary: Http1Model.v (the parser), Http1Spec.v (reachable, feed),
   Http1Use.v (error_byte, feedable, proper, observe). *)

From Coq Require Import NArith List Bool Arith String.
From Verif Require Import Bytes ByteStream Http1Model Http1Spec Http1Use Http1Fault Http1Url Http1Fresh Http1New.
Import ListNotations.
Local Open Scope N_scope.

(* C13: properly used, resume neither panics nor reads out of range. *)
Theorem C13_no_fault : forall v p h log s p' log' r,
  proper v p -> feedable v p s -> resume h p log s = (p', log', r) -> forall f, r <> RFault f.
Proof. exact proper_no_fault. Qed.
Print Assumptions C13_no_fault.

(* C13: nor does any client feeding such input piece by piece. *)
Theorem C13_no_fault_client : forall h fuel v p log segs p' log' rest o,
  proper v p -> Forall (feedable false p) segs -> (v = true -> hd [] segs <> [] \/ segs = []) ->
  client fuel h p log segs = (p', log', rest, o) -> forall f, o <> OFault f.
Proof. exact client_no_fault. Qed.
Print Assumptions C13_no_fault_client.

Example C13_case :
  let p := set_boundary (init_multipart new) (bs "B") in
  let s := bs "--B" ++ crlf ++ bs "Host: a" ++ [254; 13] in
  proper false p /\ feedable false p s /\
  snd (resume yes p [] s) = ROk (SEos 14) /\
  snd (resume yes p [] (bs "--B" ++ crlf ++ bs "Host: a" ++ [255; 13])) = RFault FIndexPanic.
Proof.
  split; [apply proper_boundary; [eapply proper_multipart; apply proper_new|reflexivity]|].
  split; [|vm_compute; split; reflexivity].
  split; [|split; discriminate]. vm_compute. repeat constructor.
Qed.

(* C28: what is beyond the remaining length has no influence on the call. *)
Theorem C28_ignores_beyond : forall h p log s s',
  parser_type p = UrlEncoded ->
  firstn (N.to_nat (plength p)) s = firstn (N.to_nat (plength p)) s' ->
  resume h p log s = resume h p log s'.
Proof. exact resume_beyond. Qed.
Print Assumptions C28_ignores_beyond.

(* C28: as long as a client is told to supply more, less than n bytes have been
   fed; when it is told Finished, exactly n have been consumed. *)
Theorem C28_exact_length : forall h q n segs p' log rest o,
  feed h (set_length (init_url_encoded q) n) segs = (p', log, rest, o) ->
  (o = OEos -> segs = [] \/ N.of_nat (List.length (List.concat segs)) < n) /\
  (o = OFinished -> n <= N.of_nat (List.length (List.concat segs)) /\
     rest = skipn (N.to_nat n) (List.concat segs)).
Proof. exact feed_url. Qed.
Print Assumptions C28_exact_length.

Example C28_case :
  (let '(_, log, rest, o) := feed never (set_length (init_url_encoded new) 5) [bs "a=%4"; bs "1&b=c"] in
   o = OFinished /\ rest = bs "&b=c") /\
  resume yes (set_length (init_url_encoded new) 5) [] (bs "a=%41&b=c") =
  resume yes (set_length (init_url_encoded new) 5) [] (bs "a=%41" ++ [0; 0; 255]).
Proof. vm_compute. repeat split; reflexivity. Qed.

(* C29: an error carries the byte that was consumed last, and byte_count()
   points behind it; the only error without a byte is that of a parser which
   had failed before. *)
Theorem C29_error_byte : forall h p log s p' log' e,
  reachable p -> resume h p log s = (p', log', RErr e) ->
  match error_byte e with
  | Some b => exists x y, s = x ++ b :: y /\
      byte_count p' = byte_count p + N.of_nat (S (List.length x))
  | None => forall h' log' s', snd (resume h' p log' s') = RErr ErDead
  end.
Proof. exact reachable_err. Qed.
Print Assumptions C29_error_byte.

Example C29_case :
  reachable (init_head new) /\
  let '(p', _, r) := resume yes (init_head new) [] (bs "GET / HTTP/1.1" ++ crlf ++ bs "a b: c") in
  r = RErr (ErHeaderName 32) /\ byte_count p' = 18.
Proof. split; [do 2 constructor|]. vm_compute. split; reflexivity. Qed.

(* C30: after reset, everything a caller can see of whatever it does next
   depends on the type of the parser only, and byte_count() stays as it is. *)
Theorem C30_reset_fresh : forall h p q log ops, parser_type p = parser_type q ->
  byte_count (reset p) = byte_count p /\ state (reset p) = state (reset q) /\
  observe h (byte_count p) (reset p) log ops = observe h (byte_count q) (reset q) log ops.
Proof. exact reset_fresh_all. Qed.
Print Assumptions C30_reset_fresh.

(* C30: after init_*, on nothing. *)
Theorem C30_init_fresh : forall h p q log ops t,
  In t [OpInitChunked; OpInitHead; OpInitMultipart; OpInitUrlEncoded] ->
  byte_count (fst (fst (perform h p log t))) = byte_count p /\
  observe h (byte_count p) p log (t :: ops) = observe h (byte_count q) q log (t :: ops).
Proof. exact init_fresh_all. Qed.
Print Assumptions C30_init_fresh.

Example C30_case :
  let '(p, _, r) := resume yes (init_chunked new) [] (bs "3x") in
  r = RErr (ErChunkLength 120) /\ byte_count p = 2 /\
  observe yes 2 p [] [OpInitHead; OpResume (bs "GET / ")] =
  [(None, [], StStripDetect, 0);
   (Some (ROk (SEos 6)), [EData KMethod (bs "GET"); EData KUrl (bs "/")], StRequestHttp1, 6)].
Proof. vm_compute. repeat split; reflexivity. Qed.

(* C31: as long as the first bytes given to it do not start with white space, a
   parser that has never been used and any parser after init_head cannot be
   told apart by whatever a caller does with them. *)
Theorem C31_new_like_init_head : forall h q log (b : byte) s ops, ~ In b [13; 10; 9; 32] ->
  observe h 0 new log (OpResume (b :: s) :: ops) =
  observe h (byte_count q) (init_head q) log (OpResume (b :: s) :: ops).
Proof. exact new_observe. Qed.
Print Assumptions C31_new_like_init_head.

Example C31_case :
  observe yes 0 new [] [OpResume (bs "PUT / HT"); OpResume (bs "TP/1.1" ++ crlf ++ crlf)] =
  [(Some (ROk (SEos 8)), [EData KMethod (bs "PUT"); EData KUrl (bs "/")], StRequestHttp3, 8);
   (Some (ROk (SFinished 10)),
    [EData KMethod (bs "PUT"); EData KUrl (bs "/"); EVersion 1 1; EInitialFinished; EHeadersFinished],
    StFinished, 18)].
Proof. vm_compute. reflexivity. Qed.
