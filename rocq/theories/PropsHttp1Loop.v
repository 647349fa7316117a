(* Properties of the HTTP/1 resume loop: C01-C06, C12.
   Vocabulary: Http1Model.v (the parser), Http1Spec.v (reachable, visible,
   dispatch, client, feed). *)

From Coq Require Import NArith List Bool Arith String.
From Verif Require Import Bytes ByteStream Http1Model Http1Spec Http1Api Http1Count.
Import ListNotations.
Local Open Scope N_scope.

(* C01: whatever the handler answers, the dispatch loop of one call ends, after
   a number of state functions bounded by a linear function of the stream. *)
Theorem C01_dispatch_terminates : forall h p log s,
  exists n m' o, (n <= 8 * List.length s + 16)%nat /\ dispatch h n (Mach p (bs_new s) log) m' o.
Proof. exact dispatch_bound. Qed.
Print Assumptions C01_dispatch_terminates.

(* C01: so resume always returns. *)
Theorem C01_resume_terminates : forall h p log s, snd (resume h p log s) <> RFuel.
Proof. exact resume_no_fuel. Qed.
Print Assumptions C01_resume_terminates.

Example C01_case :
  snd (resume never (init_head new) [] (bs "GET / HTTP/1.1")) = ROk (SCallback 4).
Proof. vm_compute. reflexivity. Qed.

(* C02: Eos(n) means the whole stream was consumed, the other results never
   claim more than was supplied (and visible to the parser). *)
Theorem C02_return_values : forall h p log s p' log' r,
  reachable p -> resume h p log s = (p', log', r) ->
  match r with
  | ROk (SEos n) => n = List.length s /\ n = List.length (visible p s)
  | ROk (SCallback n) | ROk (SFinished n) => (n <= List.length (visible p s))%nat
  | RErr _ | RFault _ => True
  | RFuel => False
  end.
Proof. exact resume_lengths. Qed.
Print Assumptions C02_return_values.

Example C02_case :
  reachable (set_length (init_url_encoded new) 3) /\
  snd (resume yes (set_length (init_url_encoded new) 3) [] (bs "a=bcd")) = ROk (SFinished 3) /\
  snd (resume yes (set_length (init_url_encoded new) 9) [] (bs "a=bcd")) = ROk (SEos 5).
Proof. split; [do 3 constructor|]. vm_compute. split; reflexivity. Qed.

(* C03: after an error the parser is dead and stays exactly as it is. *)
Theorem C03_error_sticky : forall h p log s p1 log1 e,
  reachable p -> resume h p log s = (p1, log1, RErr e) ->
  state p1 = StDead /\
  forall h' log' s', resume h' p1 log' s' = (p1, log', RErr ErDead).
Proof. exact error_sticky. Qed.
Print Assumptions C03_error_sticky.

Example C03_case :
  reachable (init_head new) /\
  snd (resume yes (init_head new) [] (bs "GET / HTTX")) = RErr (ErVersion 88).
Proof. split; [do 2 constructor|]. vm_compute. reflexivity. Qed.

(* C04: after Finished nothing is consumed, reported or changed any more. *)
Theorem C04_finished_absorbing : forall h p log s p1 log1 n,
  reachable p -> resume h p log s = (p1, log1, ROk (SFinished n)) ->
  state p1 = StFinished /\
  forall h' log' s', resume h' p1 log' s' = (p1, log', ROk (SFinished 0)).
Proof. exact finished_absorbing. Qed.
Print Assumptions C04_finished_absorbing.

Example C04_case :
  snd (resume yes (init_head new) [] (bs "GET / HTTP/1.1" ++ crlf ++ crlf ++ bs "GET")) =
  ROk (SFinished 18).
Proof. vm_compute. reflexivity. Qed.

(* C05: one call adds the bytes consumed to byte_count(). *)
Theorem C05_byte_count : forall h p log s p' log' r,
  reachable p -> parser_type p <> UrlEncoded -> resume h p log s = (p', log', r) ->
  match r with
  | ROk (SEos n) | ROk (SCallback n) | ROk (SFinished n) => byte_count p' = byte_count p + N.of_nat n
  | RErr _ => exists n, (n <= List.length s)%nat /\ byte_count p' = byte_count p + N.of_nat n
  | _ => True
  end.
Proof. exact resume_count. Qed.
Print Assumptions C05_byte_count.

(* C05: a client feeding pieces of a stream finds byte_count() advanced by what
   it fed less what is left over. *)
Theorem C05_byte_count_stream : forall h p segs p' log' rest o,
  reachable p -> parser_type p <> UrlEncoded ->
  feed h p segs = (p', log', rest, o) -> o = OEos \/ o = OFinished ->
  byte_count p' + N.of_nat (List.length rest) =
  byte_count p + N.of_nat (List.length (List.concat segs)).
Proof. exact feed_count. Qed.
Print Assumptions C05_byte_count_stream.

Example C05_case :
  let '(p', _, rest, o) :=
    feed never (init_head new) [bs "GET / HT"; []; bs "TP/1.1" ++ crlf; crlf ++ bs "body"] in
  o = OFinished /\ rest = bs "body" /\ byte_count p' = 18.
Proof. vm_compute. repeat split; reflexivity. Qed.

(* C06: the exact count for URL-encoded bodies, for which C05 is false: the
   call that ends the body counts its bytes twice, every other call once. *)
Theorem C06_byte_count_url_encoded : forall h p log s p' log' r,
  reachable p -> parser_type p = UrlEncoded -> resume h p log s = (p', log', r) ->
  match r with
  | ROk (SEos n) => byte_count p' = byte_count p + N.of_nat n
  | ROk (SCallback n) =>
      (state p' <> StFinished -> byte_count p' = byte_count p + N.of_nat n) /\
      (state p' = StFinished -> byte_count p' = byte_count p + 2 * N.of_nat n)
  | ROk (SFinished n) => byte_count p' = byte_count p + 2 * N.of_nat n
  | RErr _ => exists n, (n <= List.length s)%nat /\ byte_count p' = byte_count p + N.of_nat n
  | _ => True
  end.
Proof. exact url_count. Qed.
Print Assumptions C06_byte_count_url_encoded.

(* C06 over a whole stream, for a body of n bytes: exact as long as the body has not
   ended.  When it ends, with the piece seg, at most the bytes of the body in this piece
   are counted twice; exactly these if the handler never pauses. *)
Theorem C06_byte_count_url_stream : forall h q n segs p' log rest o,
  feed h (set_length (init_url_encoded q) n) segs = (p', log, rest, o) ->
  (o = OEos -> byte_count p' = byte_count q + N.of_nat (List.length (List.concat segs))) /\
  (o = OFinished -> exists before seg after twice,
     segs = before ++ seg :: after /\
     (before = [] \/ N.of_nat (List.length (List.concat before)) < n) /\
     n <= N.of_nat (List.length (List.concat before) + List.length seg) /\
     N.of_nat (List.length (List.concat before)) + twice <= n /\
     byte_count p' = byte_count q + n + twice /\
     ((forall l e, h_ret h l e = true) -> N.of_nat (List.length (List.concat before)) + twice = n)).
Proof. exact feed_count_url. Qed.
Print Assumptions C06_byte_count_url_stream.

Example C06_stream_case :
  map (fun segs => let '(p, _, _, o) := feed yes (set_length (init_url_encoded new) 7) segs in (byte_count p, o))
      [[bs "a=b"; bs "&c"]; [bs "a=b"; bs "&c"; bs "=dGET"]; [bs "a=b&c=d"; bs "GET"]; [bs "a=b&c=dGET"]]
  = [(5, OEos); (9, OFinished); (14, OFinished); (14, OFinished)] /\
  (let '(p, _, _, o) := feed never (set_length (init_url_encoded new) 7) [bs "a=b&c=dGET"] in (byte_count p, o))
  = (7, OFinished).
Proof. vm_compute. repeat split. Qed.

Example C06_case :
  let p := set_length (init_url_encoded new) 7 in
  reachable p /\ parser_type p = UrlEncoded /\
  (let '(p', _, r) := resume yes p [] (bs "a=b") in r = ROk (SEos 3) /\ byte_count p' = 3) /\
  (let '(q, _, _) := resume never p [] (bs "abc=d") in
   let '(p', _, r) := resume never q [] (bs "abc=d") in r = ROk (SCallback 4) /\ byte_count p' = 4) /\
  (let '(p', _, r) := resume yes p [] (bs "a=b&c=dand more") in r = ROk (SFinished 7) /\ byte_count p' = 14).
Proof. split; [apply reach_length; do 2 constructor|]. vm_compute. repeat split; reflexivity. Qed.

(* C12: a client that feeds the rest again after each Callback(n) needs at most
   8 n + 8 resume calls for a piece of n bytes (the number "calls" of
   Http1Spec.v; OFuel would mean that this number was not sufficient). *)
Theorem C12_client_progress : forall h p segs, reachable p -> snd (feed h p segs) <> OFuel.
Proof. exact feed_terminates. Qed.
Print Assumptions C12_client_progress.

Example C12_case :
  reachable (init_chunked new) /\
  snd (feed never (init_chunked new) [bs "3;a=b" ++ crlf ++ bs "xyz"; crlf ++ bs "0" ++ crlf ++ crlf]) = OFinished.
Proof. split; [do 2 constructor|]. vm_compute. reflexivity. Qed.
