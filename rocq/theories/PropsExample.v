(* The handler of the documentation: C66.  Vocabulary: readable, holds_request,
   holds_response of ExampleSpec.v, wf_request, render_request and so on of
   Http1Wire.v, feed of Http1Spec.v.  on_events head_new log is the handler after
   the calls log, None if it panicked. *)

From Coq Require Import NArith List Bool Arith String.
From Verif Require UtilSpec.
From Verif Require Import Bytes Http1Model Http1Spec Http1Wire ExampleModel ExampleSpec ExampleFacts ExampleSamples.
Import ListNotations.
Local Open Scope N_scope.
Local Open Scope list_scope.

(* With a parser just made, as in the documentation. *)
Theorem C66_request_new : forall h req tail segs,
  wf_request req -> q_blank req = [] -> List.concat segs = render_request req ++ tail -> hd [] segs <> [] ->
  hd 0 (q_method req) <> 72 \/ (9 <= List.length (hd [] segs))%nat ->
  exists p' log, feed h new segs = (p', log, tail, OFinished) /\
    (readable (q_headers req) -> exists x, on_events head_new log = Some x /\ holds_request req x) /\
    (~ readable (q_headers req) -> on_events head_new log = None).
Proof. exact example_request_new. Qed.
Print Assumptions C66_request_new.

Theorem C66_response_new : forall h res tail segs,
  wf_response res -> r_blank res = [] -> List.concat segs = render_response res ++ tail -> hd [] segs <> [] ->
  exists p' log, feed h new segs = (p', log, tail, OFinished) /\
    (readable (r_headers res) -> exists x, on_events head_new log = Some x /\ holds_response res x) /\
    (~ readable (r_headers res) -> on_events head_new log = None).
Proof. exact example_response_new. Qed.
Print Assumptions C66_response_new.

(* After init_head. *)
Theorem C66_request : forall h q req tail segs,
  wf_request req -> List.concat segs = render_request req ++ tail ->
  hd 0 (q_method req) <> 72 \/ (9 <= List.length (strip (hd [] segs)))%nat ->
  exists p' log, feed h (init_head q) segs = (p', log, tail, OFinished) /\
    (readable (q_headers req) -> exists x, on_events head_new log = Some x /\ holds_request req x) /\
    (~ readable (q_headers req) -> on_events head_new log = None).
Proof. exact example_request. Qed.
Print Assumptions C66_request.

Theorem C66_response : forall h q res tail segs,
  wf_response res -> List.concat segs = render_response res ++ tail ->
  exists p' log, feed h (init_head q) segs = (p', log, tail, OFinished) /\
    (readable (r_headers res) -> exists x, on_events head_new log = Some x /\ holds_response res x) /\
    (~ readable (r_headers res) -> on_events head_new log = None).
Proof. exact example_response. Qed.
Print Assumptions C66_response.

(* At every moment: after any calls, whether the head is complete, incomplete or
   in error. *)
Theorem C66_so_far : forall log x, on_events head_new log = Some x -> holds_so_far log x.
Proof. exact example_so_far. Qed.
Print Assumptions C66_so_far.

Example C66_so_far_case :
  let '(_, log, _, o) := feed yes new [bs "PUT /a HTTP/1.1" ++ crlf ++ bs "A"; bs ": 1" ++ crlf ++ bs "B"] in
  o = OEos /\
  match on_events head_new log with
  | Some x => x_method x = bs "PUT" /\ x_url x = bs "/a" /\ x_status_code x = 0 /\
              (x_version_major x, x_version_minor x) = (1, 1) /\ is_request x = true /\
              x_initial_finished x = true /\ x_headers_finished x = false /\
              map_get (bs "a") (x_headers x) = Some (bs "1")
  | None => False
  end.
Proof. vm_compute. repeat split. Qed.

(* The program of the documentation, and a request in two pieces with a field
   given twice. *)
Example C66_case :
  wf_request doc_request /\ readable (q_headers doc_request) /\
  render_request doc_request = doc_stream /\
  (let '(_, log, _, _) := feed yes new [doc_stream] in
   match on_events head_new log with
   | Some x => map (fun n => map_get (bs n) (x_headers x))
                   ["host"; "connection"; "accept-encoding"; "accept-language"; "Host"]%string =
               [Some (bs "github.com"); Some (bs "close"); Some (bs "gzip, deflate, sdch, br");
                Some (bs "en-US,en;q=0.8"); None]
   | None => False
   end) /\
  (let '(_, log, _, _) := feed yes new [bs "PUT / HTTP/1.1" ++ crlf ++ bs "A: 1" ++ crlf ++ bs "a";
                                        bs ": 2" ++ crlf ++ [9] ++ bs "3" ++ crlf ++ crlf] in
   match on_events head_new log with
   | Some x => map_get (bs "a") (x_headers x) = Some (bs "23") /\ x_method x = bs "PUT"
   | None => False
   end).
Proof. exact doc_case. Qed.

(* A value that is not UTF-8. *)
Example C66_panic_case :
  let s := bs "GET / HTTP/1.1" ++ crlf ++ bs "A: " ++ [233] ++ crlf ++ crlf in
  snd (feed yes new [s]) = OError (ErHeaderValue 233) /\
  (let s := bs "GET / HTTP/1.1" ++ crlf ++ bs "A: x" ++ [233] ++ crlf ++ crlf in
   let '(_, log, _, o) := feed yes new [s] in o = OFinished /\ on_events head_new log = None).
Proof. vm_compute. repeat split. Qed.

(* A header line without a name, which the parser accepts, is appended to the
   value of the field before. *)
Theorem C66_nameless_refuted : exists s log x,
  s = bs "GET / HTTP/1.1" ++ [13; 10] ++ bs "A: x" ++ [13; 10] ++ bs ": y" ++ [13; 10; 13; 10] /\
  (exists p, feed yes new [s] = (p, log, [], OFinished)) /\ on_events head_new log = Some x /\
  map_get (bs "a") (x_headers x) = Some (bs "xy").
Proof. exact example_nameless. Qed.
Print Assumptions C66_nameless_refuted.
