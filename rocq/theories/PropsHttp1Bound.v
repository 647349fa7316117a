(* How much a handler is called: C75.  Vocabulary: data_bytes of Http1Bound.v
   and feed of Http1Spec.v.  The number of calls a handler receives is bounded
   by the number of bytes read, and so is the amount of data it is given: no
   byte is reported twice, and no short input makes for many calls.  The
   handler h, its answers, the bytes and their cut into pieces are arbitrary. *)

From Coq Require Import NArith List Bool Arith String.
From Verif Require Import Bytes Http1Model Http1Spec Http1Bound Http1BoundRun.
Import ListNotations.
Local Open Scope N_scope.

(* One call of resume() on a parser in any state that can be reached: at most
   two calls of the handler more than bytes read.  The bytes read, n, are those
   the result tells, or byte_count() in case of an error. *)
Theorem C75_one_call : forall h p log s p' log' r,
  reachable p -> resume h p log s = (p', log', r) ->
  exists n, (n <= List.length s)%nat /\
    match r with
    | ROk (SCallback k) | ROk (SEos k) | ROk (SFinished k) => n = k
    | RErr _ => byte_count p' = byte_count p + N.of_nat n
    | _ => True
    end /\
    (List.length log' <= List.length log + n + 2)%nat.
Proof. exact bound_one. Qed.
Print Assumptions C75_one_call.

(* Any number of calls of resume(), pauses included. *)
Theorem C75_calls : forall h p segs p' log rest o,
  reachable p -> feed h p segs = (p', log, rest, o) ->
  (List.length log + List.length rest <= List.length (List.concat segs) + 2)%nat.
Proof. exact bound_stream. Qed.
Print Assumptions C75_calls.

(* A whole message: at most c calls more than bytes, and never more bytes of
   data than bytes read. *)
Theorem C75_message : forall h q p segs p' log rest o c,
  ((p = new \/ p = init_head q) /\ c = 0 \/
   p = init_chunked q /\ c = 1 \/
   (exists bd, p = set_boundary (init_multipart q) bd /\ c = 0) \/
   (exists n, p = set_length (init_url_encoded q) n /\ c = 2))%nat ->
  feed h p segs = (p', log, rest, o) ->
  (List.length log + List.length rest <= List.length (List.concat segs) + c)%nat /\
  (data_bytes log + List.length rest <= List.length (List.concat segs))%nat.
Proof. exact bound_fresh. Qed.
Print Assumptions C75_message.

(* The bounds are attained: a call and a byte of data for every byte of a
   method that comes byte by byte, ... *)
Example C75_message_head :
  let '(_, log, rest, _) := feed yes (init_head new) [bs "P"; bs "U"; bs "T"] in
  (List.length log, data_bytes log, rest) = (3%nat, 3%nat, []).
Proof. vm_compute. reflexivity. Qed.

(* ... three calls for the two bytes "1" and CR of a chunked body, ... *)
Example C75_message_chunked :
  let '(_, log, rest, _) := feed never (init_chunked new) [bs "1" ++ [13]] in
  (List.length log, data_bytes log, rest) = (3%nat, 0%nat, []).
Proof. vm_compute. reflexivity. Qed.

(* ... three calls for the single byte of the URL-encoded body "+". *)
Example C75_message_url_encoded :
  let '(_, log, rest, _) := feed yes (set_length (init_url_encoded new) 1) [bs "+xyz"] in
  (List.length log, data_bytes log, rest) = (3%nat, 1%nat, bs "xyz").
Proof. vm_compute. reflexivity. Qed.

(* A whole multipart body: 16 bytes read, two of them data. *)
Example C75_message_multipart :
  let '(_, log, rest, o) :=
    feed yes (set_boundary (init_multipart new) (bs "b"))
         [bs "--b" ++ [13; 10; 13; 10] ++ bs "xy"; [13; 10] ++ bs "--b--"; [13; 10]] in
  (Nat.leb (List.length log) 16, data_bytes log, rest, o) = (true, 2%nat, [13; 10], OFinished).
Proof. vm_compute. reflexivity. Qed.

(* One call of resume() that gives two calls of the handler more than bytes. *)
Example C75_one_call_reached :
  let p := set_length (init_url_encoded new) 1 in
  reachable p /\
  snd (resume yes p [] (bs "+")) = ROk (SFinished 1) /\
  List.length (snd (fst (resume yes p [] (bs "+")))) = 3%nat.
Proof. split; [apply reach_length, reach_url, reach_new|split; vm_compute; reflexivity]. Qed.
