(* Messages back to back on one connection: C72.  Vocabulary: Http1Conn.v (the
   messages, the program that reads them), Http1Wire.v (how they are written,
   what has to be seen), flat of Http1Spec.v. *)

From Coq Require Import NArith List Bool Arith String.
From Verif Require Import Bytes Http1Model Http1Spec Http1Wire Http1Samples Http1Conn Http1ConnFacts.
Import ListNotations.
Local Open Scope N_scope.

(* C72.  Any parser, any well-formed messages, any handler that may pause at any
   call, any pieces; tail: what was received beyond the last message. *)
Theorem C72_connection : forall h clen p ms tail segs,
  (forall l, h_clen h l = clen (flat l)) -> wf_messages clen [] ms -> segs <> [] ->
  List.concat segs = flat_map wire ms ++ tail ->
  exists p' log segs', serve h p [] ms segs = (p', log, segs', OFinished) /\
    flat log = flat_map seen ms /\ List.concat segs' = tail.
Proof. exact h1_connection. Qed.
Print Assumptions C72_connection.

(* C72, byte_count(): over all the messages it grows by what has been used, except that some
   of the bytes of URL-encoded bodies are counted twice (C06).  The messages that arrive need
   not be well-formed. *)
Theorem C72_connection_count : forall h ms p log segs p' log' segs',
  serve h p log ms segs = (p', log', segs', OFinished) ->
  let used := N.of_nat (List.length (List.concat segs)) - N.of_nat (List.length (List.concat segs')) in
  N.of_nat (List.length (List.concat segs')) <= N.of_nat (List.length (List.concat segs)) /\
  byte_count p + used <= byte_count p' <= byte_count p + used + url_encoded_length ms.
Proof. exact serve_count. Qed.
Print Assumptions C72_connection_count.

Example C72_case :
  let get := Request [] (bs "POST") (bs "/") (bs "1", bs "1") [sample_header] in
  let ms := [MRequest get; MChunked [sample_chunk] [sample_header]; MResponse sample_response;
             MMultipart (bs "b") [sample_length_part]; MRequest get; MUrlEncoded [(bs "flag", None)] (bs "flag")] in
  let s := flat_map wire ms ++ bs "GET" in
  wf_messages (fun _ => Some 7) [] ms /\
  (let '(p', log, segs', o) := serve knows_seven new [] ms (map (fun b => [b]) s) in
   o = OFinished /\ flat log = flat_map seen ms /\ List.concat segs' = bs "GET") /\
  (let '(p', log, segs', o) := serve knows_seven new [] (firstn 5 ms) (map (fun b => [b]) s) in
   o = OFinished /\ List.concat segs' = bs "flagGET" /\
   byte_count p' + 7 = N.of_nat (List.length s)).
Proof.
  split; [|split; vm_compute; repeat split; reflexivity].
  cbn [wf_messages wf_message]. repeat match goal with |- _ /\ _ => split end.
  all: try solve [vm_compute; intuition discriminate].
  all: try solve [wf_tac].
  apply body_one, pair_name; [discriminate|].
  repeat (apply enc_literal; [reflexivity|cbv; intuition discriminate|]). apply enc_nil.
Qed.
