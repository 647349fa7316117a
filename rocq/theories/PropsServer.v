(* C86: requests with and without chunked bodies are served on one connection. *)

From Coq Require Import NArith List Bool Arith String.
From Verif Require Import Bytes Http1Model Http1Spec Http1Wire Http1Program UtilSpec UtilIter UtilAhead FormSpec FormSamples
  ServerSpec ServerFacts ServerLost ServerSamples.
Import ListNotations.
Local Open Scope N_scope.
Local Open Scope list_scope.

(* The program of ServerSpec.v reads any number of requests, each with or without a
   chunked body and trailers.  It finds each body by the last transfer coding, and it
   gets what was sent, however the stream is cut. *)
Theorem C86_requests_served :
  forall h clen p xs tail segs,
    (forall l, h_clen h l = clen (flat l)) -> Forall wf_sent xs -> segs <> [] ->
    List.concat segs = flat_map on_wire xs ++ tail ->
    exists p' log segs',
      work (messages xs) h serve_requests p [] segs = (p', log, segs', OFinished) /\
      List.concat segs' = tail /\ served (flat log) = map meant xs.
Proof. exact requests_served. Qed.
Print Assumptions C86_requests_served.

Example C86_requests_served_case :
  Forall wf_sent three_requests /\
  (let '(_, log, segs, o) :=
     work (messages three_requests) yes serve_requests new [] (cut 7 30 (flat_map on_wire three_requests ++ [71])) in
   o = OFinished /\ List.concat segs = [71] /\ served (flat log) = map meant three_requests) /\
  map g_body (map meant three_requests) = [[]; bs "one" ++ [13; 10] ++ bs "GET / " ++ [0; 255]; []].
Proof.
  split; [|vm_compute; repeat split].
  exact (Forall_cons _ a_get_ok (Forall_cons _ a_post_ok (Forall_cons _ a_get_ok (Forall_nil _)))).
Qed.

(* Codings are case-insensitive (RFC 7230, 4), but a chunked body is not found if the
   coding ends in a capital letter: the body is taken for the next request. *)
Theorem C86_capitals_refuted : exists a b,
  map lower_case (bs a) = map lower_case (bs b) /\
  (let '(_, log, segs, o) := work 2 yes serve_requests new [] [on_wire (a_post a)] in
   o = OFinished /\ List.concat segs = [] /\ served (flat log) = [meant (a_post a)]) /\
  (let '(_, log, _, o) := work 2 yes serve_requests new [] [on_wire (a_post b)] in
   o = OError (ErMethod 51) /\ map g_body (served (flat log)) = [[]]).
Proof. exact coding_lost. Qed.
Print Assumptions C86_capitals_refuted.

(* So it is with every last coding that ends in a capital letter: the request is served
   without a body, and what follows is read as the next request. *)
Theorem C86_capitals : forall h clen p req t items w n w' tail segs,
  (forall l, h_clen h l = clen (flat l)) -> wf_request req -> hd 0 (q_method req) <> 72 ->
  lookup (bs "transfer-encoding") (map field_of (q_headers req)) = Some (t ++ w ++ n ++ w') ->
  Ahead true 44 t items -> fst (last items ([], None)) <> bs "chunked" ->
  Forall ws w -> plain_name 44 n -> n <> [] -> upper (last n 0) -> Forall ws w' ->
  segs <> [] -> List.concat segs = render_request req ++ tail ->
  exists p' log segs', work 1 h serve_requests p [] segs = (p', log, segs', OFinished) /\
    List.concat segs' = tail /\ served (flat log) = [meant (req, None)] /\
    serve_requests (flat log) = Some AHead.
Proof. exact capital_coding. Qed.
Print Assumptions C86_capitals.

Example C86_capitals_case :
  lookup (bs "transfer-encoding") (map field_of (q_headers (fst (a_post "gzip, CHUNKED")))) =
    Some (bs "gzip," ++ [32] ++ bs "CHUNKED" ++ []) /\
  Ahead true 44 (bs "gzip,") [(bs "gzip", None)] /\ plain_name 44 (bs "CHUNKED") /\
  upper (last (bs "CHUNKED") 0) /\
  (let '(_, log, segs, o) := work 1 yes serve_requests new [] (cut 7 30 (on_wire (a_post "gzip, CHUNKED"))) in
   o = OFinished /\ segs <> [] /\ map g_body (served (flat log)) = [[]] /\ serve_requests (flat log) = Some AHead).
Proof.
  split; [reflexivity|]. split; [|split; [now apply name_check|split; [split; discriminate|]]].
  - apply (ah_cons true 44 (bs "gzip") (bs "gzip", None)); [|constructor].
    apply (ff_name true 44 [] (bs "gzip")); [constructor|]. now apply name_check.
  - vm_compute. repeat split. discriminate.
Qed.
