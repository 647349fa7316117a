(* Which values of header fields are taken: C88.  Vocabulary: field_value, stops, taken,
   add_field of ValueSpec.v, requests and responses of Http1Wire.v. *)

From Coq Require Import NArith List Bool Arith String.
From Verif Require Import Bytes Http1Model Http1Spec Http1Protocol Http1Wire FormSamples
  ValueSpec ValueLost ValueFacts ValueSamples.
Import ListNotations.
Local Open Scope N_scope.
Local Open Scope list_scope.

(* Values that are allowed by RFC 7230 and not taken: the empty one, one that begins with a
   byte from 128, one with a single quote, and one with an escaped tilde in quotes. *)
Theorem C88_values_refuted : exists v1 v2 v3 v4,
  v1 = [] /\ hd 0 v2 = 233 /\ hd 0 v3 = 53 /\ v4 = [34; 97; 92; 126; 34] /\ Forall field_value [v1; v2; v3; v4] /\
  map (fun v => snd (feed yes (init_head new) [with_value v])) [v1; v2; v3; v4] =
    [OError (ErHeaderValue 13); OError (ErHeaderValue 233); OError (ErHeaderValue 13); OError (ErHeaderValue 126)].
Proof. exact not_taken. Qed.
Print Assumptions C88_values_refuted.

(* In every case, for values without the byte 255: a request with
   one more field is understood when the value of this field is taken, and ends in an error
   otherwise, however it is cut.  The condition on methods that begin with H is that of
   C63. *)
Theorem C88_request_value : forall h q req n pad v tail segs,
  wf_request req -> n <> [] -> Forall (fun c => tchar c = true) n -> padding pad ->
  field_value v -> Forall (fun b => b <> 255) v ->
  hd 0 (q_method req) <> 72 \/ (9 <= List.length (strip (hd [] segs)))%nat ->
  List.concat segs = render_request (add_field req (Header n pad v [])) ++ tail ->
  exists p' log rest o, feed h (init_head q) segs = (p', log, rest, o) /\
    (taken v /\ o = OFinished /\ rest = tail /\ flat log = seen_request (add_field req (Header n pad v [])) \/
     ~ taken v /\ exists b, o = OError (ErHeaderValue b)).
Proof. exact request_value. Qed.
Print Assumptions C88_request_value.

Example C88_request_value_case :
  wf_request a_get /\ field_value disk /\ ~ taken disk /\ field_value tilde /\ ~ taken tilde /\ taken (disk ++ [34]) /\
  map (fun v => map (fun k => snd (feed yes (init_head new)
                 (cut k 12 (render_request (add_field a_get (Header (bs "X") [] v [])) ++ [90])))) [1%nat; 4%nat; 90%nat])
      [disk; tilde; disk ++ [34]] =
    [[OError (ErHeaderValue 13); OError (ErHeaderValue 13); OError (ErHeaderValue 13)];
     [OError (ErHeaderValue 126); OError (ErHeaderValue 126); OError (ErHeaderValue 126)];
     [OFinished; OFinished; OFinished]].
Proof.
  split; [exact a_get_ok|]. split; [exact disk_value|]. split; [intros [_ T]; discriminate T|].
  split; [exact tilde_value|]. split; [intros [_ T]; discriminate T|].
  split; [split; reflexivity|]. vm_compute. reflexivity.
Qed.

(* The same for responses. *)
Theorem C88_response_value : forall h q res n pad v tail segs,
  wf_response res -> n <> [] -> Forall (fun c => tchar c = true) n -> padding pad ->
  field_value v -> Forall (fun b => b <> 255) v ->
  List.concat segs = render_response (add_answer_field res (Header n pad v [])) ++ tail ->
  exists p' log rest o, feed h (init_head q) segs = (p', log, rest, o) /\
    (taken v /\ o = OFinished /\ rest = tail /\ flat log = seen_response (add_answer_field res (Header n pad v [])) \/
     ~ taken v /\ exists b, o = OError (ErHeaderValue b)).
Proof. exact response_value. Qed.
Print Assumptions C88_response_value.

Example C88_response_value_case :
  wf_response an_ok /\ field_value [] /\ ~ taken [] /\
  map (fun v => map (fun k => snd (feed yes (init_head new)
                 (cut k 12 (render_response (add_answer_field an_ok (Header (bs "X") [] v [])) ++ [90])))) [1%nat; 4%nat; 90%nat])
      [[]; [97; 233]] =
    [[OError (ErHeaderValue 13); OError (ErHeaderValue 13); OError (ErHeaderValue 13)];
     [OFinished; OFinished; OFinished]].
Proof.
  split; [exact an_ok_ok|]. split; [now left|]. split; [intros [[] _]|]. vm_compute. reflexivity.
Qed.

(* Where such a field ends in an error, and with which byte: for any value that stops being
   read after v. *)
Theorem C88_request_stops : forall h q req before n pad v b tail segs,
  wf_request req -> render_request req = before ++ crlf ->
  hd 0 (q_method req) <> 72 \/ (9 <= List.length (strip (hd [] segs)))%nat ->
  n <> [] -> Forall (fun c => tchar c = true) n -> padding pad -> stops v b ->
  List.concat segs = before ++ n ++ 58 :: pad ++ v ++ b :: tail ->
  exists p' log rest, feed h (init_head q) segs = (p', log, rest, OError (ErHeaderValue b)).
Proof. exact request_value_lost. Qed.
Print Assumptions C88_request_stops.

Example C88_request_stops_case :
  wf_request a_get /\ render_request a_get = get_before ++ crlf /\ stops disk 13 /\
  map (fun k => snd (feed yes (init_head new) (cut k 12 (get_before ++ bs "X" ++ 58 :: [32] ++ disk ++ 13 :: [10; 13; 10]))))
      [1%nat; 4%nat; 90%nat] = [OError (ErHeaderValue 13); OError (ErHeaderValue 13); OError (ErHeaderValue 13)].
Proof.
  split; [exact a_get_ok|]. split; [reflexivity|]. split; [exact disk_stops|]. vm_compute. reflexivity.
Qed.

Theorem C88_response_stops : forall h q res before n pad v b tail segs,
  wf_response res -> render_response res = before ++ crlf ->
  n <> [] -> Forall (fun c => tchar c = true) n -> padding pad -> stops v b ->
  List.concat segs = before ++ n ++ 58 :: pad ++ v ++ b :: tail ->
  exists p' log rest, feed h (init_head q) segs = (p', log, rest, OError (ErHeaderValue b)).
Proof. exact response_value_lost. Qed.
Print Assumptions C88_response_stops.

Example C88_response_stops_case :
  wf_response an_ok /\ render_response an_ok = ok_before ++ crlf /\ stops [] 233 /\
  map (fun k => snd (feed yes (init_head new) (cut k 12 (ok_before ++ bs "X" ++ 58 :: [9] ++ [] ++ 233 :: crlf))))
      [1%nat; 4%nat; 90%nat] = [OError (ErHeaderValue 233); OError (ErHeaderValue 233); OError (ErHeaderValue 233)].
Proof.
  split; [exact an_ok_ok|]. split; [reflexivity|]. split; [now constructor|]. vm_compute. reflexivity.
Qed.

(* White space between a value and the end of its line is no part of the value (RFC 7230,
   3.2.4), but is reported with it. *)
Theorem C88_space_refuted : exists v w, field_value v /\ padding w /\
  (let '(_, log, _, o) := feed yes (init_head new) [with_value (v ++ w)] in
   o = OFinished /\ told_value (flat log) <> v /\ told_value (flat log) = v ++ w).
Proof. exact space_kept. Qed.
Print Assumptions C88_space_refuted.

(* In every case. *)
Theorem C88_space : forall h q req n pad v w tail segs,
  wf_request req -> n <> [] -> Forall (fun c => tchar c = true) n -> padding pad -> taken v -> padding w ->
  hd 0 (q_method req) <> 72 \/ (9 <= List.length (strip (hd [] segs)))%nat ->
  List.concat segs = render_request (add_field req (Header n pad (v ++ w) [])) ++ tail ->
  exists p' log, feed h (init_head q) segs = (p', log, tail, OFinished) /\
    flat log = seen_request (add_field req (Header n pad (v ++ w) [])).
Proof. exact request_space. Qed.
Print Assumptions C88_space.

Example C88_space_case :
  wf_request a_get /\ taken (bs "a b") /\ padding [32; 9; 32] /\
  (let '(_, log, rest, o) := feed yes (init_head new)
     (cut 3 60 (render_request (add_field a_get (Header (bs "X") [32] (bs "a b" ++ [32; 9; 32]) [])) ++ [90])) in
   o = OFinished /\ rest = [90] /\ told_value (flat log) = bs "a.b" ++ bs "a b" ++ [32; 9; 32]).
Proof.
  split; [exact a_get_ok|]. split; [split; reflexivity|]. split; [repeat (apply Forall_cons; [auto|]); apply Forall_nil|].
  vm_compute. repeat split.
Qed.
